(** Vocabulary of the statements about counters, code tables and integer packing. *)
From Coq Require Import String.
From Coq Require Import NArith List Bool.
From Verif Require Import Base B64.
Import ListNotations.
Open Scope N_scope.

(** Counter codes with the number of characters of the count (src/cesr/core/counter/tables.rs:52-99 lists the codes). *)
Definition counter_codes : list (bytes * N) :=
  [ (s! "-A", 2); (s! "-B", 2); (s! "-C", 2); (s! "-D", 2); (s! "-E", 2); (s! "-F", 2); (s! "-G", 2); (s! "-H", 2);
    (s! "-I", 2); (s! "-J", 2); (s! "-K", 2); (s! "-L", 2); (s! "-V", 2); (s! "-0V", 5); (s! "--AAA", 3) ].

(** A nonempty string of decimal digits and its value. *)
Definition decimal (s : bytes) (v : N) : Prop :=
  s <> [] /\ Forall (fun c => 48 <= b2n c <= 57) s /\ fold_left (fun a c => a * 10 + (b2n c - 48)) s 0 = v.

(** Number of dots in a string. *)
Definition dots (s : bytes) : N := len (filter (Byte.eqb x2e) s).

(** The [i]-th six-bit group of a byte string, most significant first. *)
Definition six_bits (b : bytes) (i : N) : N := (be_val b / 2 ^ (8 * len b - 6 * (i + 1))) mod 64.
