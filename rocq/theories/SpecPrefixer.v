(** Vocabulary of the statements about identifier prefixes. *)
From Coq Require Import String.
From Coq Require Import NArith ZArith List Bool.
From Verif Require Import Base Json SpecSaider SpecSadder.
Import ListNotations.
Open Scope N_scope.

(** The event is an inception: its type is icp, dip or vcp. *)
Definition incepts (v : value) : Prop := exists t, field_of v (s! "t") (VStr t) /\ In t [s! "icp"; s! "dip"; s! "vcp"].
(** The codes of keys that cannot be rotated and of keys that can. *)
Definition fixed_keys : list bytes := [s! "B"; s! "1AAA"; s! "1AAI"].
Definition rotatable_keys : list bytes := [s! "D"; s! "1AAB"; s! "1AAJ"].
(** The event names exactly one key, with text [t]. *)
Definition sole_key (v : value) (t : bytes) : Prop := field_of v (s! "k") (VArr [VStr t]).
(** The field is missing or the empty text. *)
Definition vacant (v : value) (k : bytes) : Prop := lacks v k \/ field_of v k (VStr []).
(** The fields [m] with [k] set to [x]: in place if there is such a field, else as a new last field. *)
Definition assigned (k : bytes) (x : value) (m : list (bytes * value)) : list (bytes * value) :=
  if existsb (beq k) (map fst m) then replaced k x m else m ++ [(k, x)].
(** The field holds the text [t], if [checked]. *)
Definition holds (checked : bool) (v : value) (k t : bytes) : Prop := checked = true -> field_of v k (VStr t).
