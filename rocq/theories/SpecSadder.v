(** Vocabulary of the statements about events. *)
From Coq Require Import String.
From Coq Require Import NArith ZArith List Bool.
From Verif Require Import Base Matter Json Sadder SpecPrims SpecCommon.
Import ListNotations.
Open Scope N_scope.

(** The bytes are text of at least 29 bytes whose first version-like string starts within the first twelve bytes and announces JSON of version 1.0,
    protocol [proto] and [n] bytes. *)
Definition announces (raw proto : bytes) (n : N) : Prop :=
  utf8 raw = true /\ 29 <= len raw /\
  exists p h t, raw = p ++ (proto ++ s! "10JSON" ++ h ++ s! "_") ++ t /\ len p <= 12 /\ uppercase 4 proto /\ hex_digits 6 h /\ hex_number h = n /\
    forall q m r, raw = q ++ m ++ r -> version_like m -> len p <= len q.

(** The value of a field of a data value. *)
Definition field_of (v : value) (k : bytes) (x : value) : Prop :=
  exists m1 m2, v = VObj (m1 ++ (k, x) :: m2) /\ ~ In k (map fst m1).
Definition lacks (v : value) (k : bytes) : Prop := forall x, ~ field_of v k x.

(** Texts and primitives correspond one to one, in order. *)
Definition texts_of (codes : list bytes) (ts : list value) (ms : list matter) : Prop :=
  Forall2 (fun t m => exists q, t = VStr q /\ exfil q = Ok m /\ In (m_code m) codes) ts ms.

(** The constructors of events: the common part, key events and credentials. Arguments: how floats are read, code, raw, kind, data, event to copy. *)
Definition constructor : Type := (bytes -> option bytes) -> option bytes -> option bytes -> option bytes -> option value -> option sadder -> R sadder.
Definition constructors : list constructor := [sadder_new; serder_new; creder_new].
