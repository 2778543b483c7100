(** Vocabulary of the exact statements about sizing, reading and building events. *)
From Coq Require Import String.
From Coq Require Import NArith ZArith List.
From Verif Require Import Base Matter Json Common Sadder SpecPrims SpecCommon SpecSaider SpecSadder.
Import ListNotations.
Open Scope N_scope.

(** The first text in [t] that looks like a version string is [old], between [fore] and [back]. *)
Definition first_version (t fore old back : bytes) : Prop :=
  t = fore ++ old ++ back /\ version_like old /\ forall q m r, t = q ++ m ++ r -> version_like m -> len fore <= len q.
(** The outcome of sizing: the first version-like text of the JSON is overwritten by the version string of the field v with the new size, and so is the field v. *)
Definition sizes_to (ked : value) (kind : option bytes) (z : sized) : Prop :=
  exists m1 vs m2 proto n vs' fore old back,
    ked = VObj (m1 ++ (s! "v", VStr vs) :: m2) /\ ~ In (s! "v") (map fst m1) /\ version_string vs proto 1 0 n /\ (kind = None \/ kind = Some (s! "JSON")) /\
    utf8 (to_json ked) = true /\ first_version (to_json ked) fore old back /\ len fore <= 12 /\ version_string vs' proto 1 0 (len (to_json ked) mod 2 ^ 32) /\
    z = Sz (fore ++ vs' ++ back) proto (s! "JSON") (VObj (m1 ++ (s! "v", VStr vs') :: m2)) (Ver 1 0).

(** The constructors of events and the protocol each insists on. *)
Definition protocols : list (constructor * option bytes) := [(sadder_new, None); (serder_new, Some (s! "KERI")); (creder_new, Some (s! "ACDC"))].
Definition agrees (only : option bytes) (proto : bytes) : Prop := forall p, only = Some p -> proto = p.
(** The field d of the data holds the text of this digest, of the code asked for. *)
Definition names_digest (v : value) (code : option bytes) (d : matter) : Prop :=
  exists t, field_of v (s! "d") (VStr t) /\ exfil t = Ok d /\ m_code d = match code with Some c => c | None => s! "E" end /\ In (m_code d) (map fst digest_sizes).
(** Looking for that digest fails badly: there is no field d, or its text makes parsing panic. *)
Definition digest_breaks (v : value) : Prop := lacks v (s! "d") \/ exists t, field_of v (s! "d") (VStr t) /\ exfil t = Panic.
