(** Vocabulary of C98: what a primitive in an arbitrary state announces about its raw material. *)
From Coq Require Import String.
From Coq Require Import NArith List Bool.
From Verif Require Import Base Matter Spec.
Import ListNotations.
Open Scope N_scope.

(** Lead bytes of a variable-size code: none for 4 and 7, one for 5 and 8, two for 6 and 9. *)
Definition lead (code : bytes) : N := zero_bits code / 8.

(** Characters of the size field: two for the small codes, four for the large ones. *)
Definition size_limit (code : bytes) : N := if existsb (beq code) small_codes then 4096 else 16777216.
Definition header (code : bytes) : N := if existsb (beq code) small_codes then 4 else 8.

Definition variable (code : bytes) : Prop := In code small_codes \/ In code large_codes.

(** [announces code size n]: a reader of the text takes [n] raw bytes from it. *)
Definition announces (code : bytes) (size n : N) : Prop :=
  In (code, n) fixed_codes \/ (variable code /\ lead code + n = 3 * size).

(** The size a reader sees: fixed codes carry none. *)
Definition seen_size (code : bytes) (size : N) : N :=
  if existsb (beq code) (small_codes ++ large_codes) then size else 0.
