(** Vocabulary of the statements about indexed primitives in every state and with every code, independent of the model's internals. *)
From Coq Require Import String.
From Coq Require Import NArith List Bool.
From Verif Require Import Base Indexer.
Import ListNotations.
Open Scope N_scope.

(** The label codes, with the characters of each of their two indices and of the whole text (indexer/tables.rs:57-58, 160-161). *)
Definition label_codes : list (bytes * (N * N)) := [(s! "1z", (1, 76)); (s! "4z", (3, 80))].

(** [v] is what remains of [n] when its low base 64 digits are dropped until [k] are left; nothing remains of a power of 64 with more
    than [k] digits, which is written on one digit too many. *)
Definition shortened (k n v : N) : Prop :=
  exists j, n < 64 ^ (k + j) /\ (j = 0 \/ 64 ^ (k + j - 1) < n) /\ v = n / 64 ^ j.

(** Position [i] of the text is a padding sign. *)
Definition padding_at (s : bytes) (i : N) : Prop := nth_error s (N.to_nat i) = Some x3d.
