(** Vocabulary of the statements about registry events that bring their verifier down. *)
From Coq Require Import String.
From Coq Require Import NArith ZArith List Bool.
From Verif Require Import Base Matter Json Sadder Short Verify SpecSadder SpecLog SpecCred SpecExact.
Import ListNotations.
Open Scope N_scope.

(** A registry event with prefix, number and type, and with the registry it belongs to or, if it makes one, the owner; its prefix and identifier are clean. *)
Definition regular (e : sadder) : Prop :=
  (forall label, In label [s! "i"; s! "s"; s! "t"] -> ~ lacks (d_ked e) label) /\ (forall label t, In label [s! "i"; s! "d"] -> field_of (d_ked e) label (VStr t) -> clean t) /\
  (of_type (d_ked e) (s! "vcp") -> ~ lacks (d_ked e) (s! "ii")) /\ (of_type (d_ked e) (s! "iss") \/ of_type (d_ked e) (s! "rev") -> ~ lacks (d_ked e) (s! "ri")).
(** An anchoring event has seals and, if it has one only, that one has prefix, number and identifier. *)
Definition seals_whole (v : value) : Prop :=
  ~ lacks v (s! "a") /\ forall seal label, field_of v (s! "a") (VArr [seal]) -> In label [s! "i"; s! "s"; s! "d"] -> ~ lacks seal label.
(** What a store answers can be read, and has an identifier that can be printed. *)
Definition answers (canon : bytes -> option bytes) (r : R bytes) : Prop :=
  r <> Panic /\ forall text, r = Ok text -> serder_with_raw canon text <> Panic /\ forall e, serder_with_raw canon text = Ok e -> sad_said e <> Panic.
(** A registry log, fewer than 2^32 events, from a store that answers. *)
Definition sound_register (canon : bytes -> option bytes) (st : store) (pre : bytes) : Prop :=
  count_transaction_events st pre <> Panic /\ (forall c, count_transaction_events st pre = Ok c -> c < 2 ^ 32) /\ forall n, answers canon (get_transaction_event st pre n).
