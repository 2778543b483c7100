(** Property C107. Theorem statements only; the proofs are in [RenewThms]. *)
From Coq Require Import String.
From Coq Require Import NArith ZArith QArith Bool List.
From Verif Require Import Base Tables Matter Prims Json Common Saider Sadder Renew SpecPrims SpecJson SpecCommon SpecSaider SpecSadder SaiderThms RenewThms BaseFacts.
Import ListNotations.
Open Scope N_scope.

(** Filling an existing event from bytes succeeds exactly when the constructor with the event's digest code accepts those bytes, and gives that event: nothing of
   what the event held before survives except its code. It fails with an error, or panics, exactly when the constructor does. The same for filling it from data. *)
Theorem C107_refilled_event_is_new :
  forall (canon : bytes -> option bytes) (e : sadder) (raw : bytes) (ked : value) (kind : option bytes),
  let from_raw := sadder_new canon (Some (d_code e)) (Some raw) None None None in
  let from_ked := sadder_new canon (Some (d_code e)) None kind (Some ked) None in
  ((forall s, raw_into canon e raw = (s, Ok tt) <-> from_raw = Ok s) /\
   (forall x, snd (raw_into canon e raw) = Err x <-> from_raw = Err x) /\ (snd (raw_into canon e raw) = Panic <-> from_raw = Panic)) /\
  ((forall s, ked_into e ked kind = (s, Ok tt) <-> from_ked = Ok s) /\
   (forall x, snd (ked_into e ked kind) = Err x <-> from_ked = Err x) /\ (snd (ked_into e ked kind) = Panic <-> from_ked = Panic)).
Proof. exact C107_new_l. Qed.
Print Assumptions C107_refilled_event_is_new.

Example C107_new_case : let old := Sd (s! "E") (s! "stale") (VInt 7) (s! "ACDC") (s! "CBOR") 99 (Ver 3 3) (Mt (s! "B") 5 []) in exists s,
  raw_into (fun _ => None) old (s! "{""v"":""KERI10JSON00004c_"",""d"":""EAAAAAAAAAAAAAAAAAAAAAAAAAAAAAAAAAAAAAAAAAAA""}-AAB") = (s, Ok tt) /\ d_size s = 76 /\ d_ident s = s! "KERI".
Proof. intros old. eexists. split; [vm_compute; reflexivity|]. split; reflexivity. Qed.

(** False as stated: a change that is refused with an error can leave the event with the new data under the SAID of the old ones; and an event refused for the code of
   its SAID is stored in full. *)
Theorem C107_refused_change_refuted :
  (exists raw1 raw2 e e' x, serder_new (fun _ => None) None (Some raw1) None None None = Ok e /\ raw_into (fun _ => None) e raw2 = (e', Err x) /\
     d_raw e' = raw2 /\ d_raw e <> raw2 /\ d_ked e' <> d_ked e /\ d_saider e' = d_saider e) /\
  (exists raw1 raw2 e e', serder_new (fun _ => None) None (Some raw1) None None None = Ok e /\ raw_into (fun _ => None) e raw2 = (e', Err EValidation) /\
     d_raw e' = raw2 /\ d_saider e' <> d_saider e /\ d_code e' <> m_code (d_saider e')).
Proof. exact C107_refused_l. Qed.
Print Assumptions C107_refused_change_refuted.

(** What holds: whatever the outcome of filling an event from bytes, its code stays; the event is either untouched, or its raw bytes, data, protocol, kind, size and
   version all are those of the new bytes, and its SAID is the old one or the one named in the new field d. It is untouched when the bytes announce no event, are
   shorter than announced or are not JSON. Missing: that it is untouched when the fields of the new data are refused. *)
Theorem C107_refused_change_partial :
  forall (canon : bytes -> option bytes) (e : sadder) (raw : bytes),
  let e' := fst (raw_into canon e raw) in
  d_code e' = d_code e /\
  (e' = e \/
   exists proto n, announces raw proto n /\ n <= len raw /\ d_raw e' = take n raw /\ value_of_text canon (take n raw) = Ok (d_ked e') /\
     d_ident e' = proto /\ d_kind e' = s! "JSON" /\ d_size e' = n /\ d_version e' = Ver 1 0 /\
     (d_saider e' = d_saider e \/ exists t, field_of (d_ked e') (s! "d") (VStr t) /\ exfil t = Ok (d_saider e'))) /\
  ((forall proto n, announces raw proto n -> len raw < n \/ is_ok (value_of_text canon (take n raw)) = false) -> e' = e /\ snd (raw_into canon e raw) <> Ok tt).
Proof. exact C107_part_l. Qed.
Print Assumptions C107_refused_change_partial.

Example C107_part_case : exists e, serder_new (fun _ => None) None (Some (s! "{""v"":""KERI10JSON00004c_"",""d"":""EAAAAAAAAAAAAAAAAAAAAAAAAAAAAAAAAAAAAAAAAAAA""}")) None None None = Ok e /\
  fst (raw_into (fun _ => None) e (s! "{""v"":""KERI10JSON000021_"",""d"":""x"",")) = e /\ fst (raw_into (fun _ => None) e (s! "{""v"":""KERI10JSON000021_"",""d"":""x""}")) <> e.
Proof. eexists. split; [vm_compute; reflexivity|]. split; [vm_compute; reflexivity|]. vm_compute. discriminate. Qed.

(** False as stated: the protocol is checked only by the constructors. A key event filled in place from the bytes of a credential becomes an event the constructor
   of key events refuses. *)
Theorem C107_kind_of_event_refuted :
  exists raw1 raw2 e e', serder_new (fun _ => None) None (Some raw1) None None None = Ok e /\ raw_into (fun _ => None) e raw2 = (e', Ok tt) /\
  d_ident e' = s! "ACDC" /\ serder_new (fun _ => None) None (Some raw2) None None None = Err EValidation.
Proof. exact C107_ident_l. Qed.
Print Assumptions C107_kind_of_event_refuted.

(** Serialising an event again changes nothing: an event built from data, in which no text before v looks like a version string, is left exactly as it is. Asking
   for a kind other than JSON is refused and leaves any event as it is. *)
Theorem C107_serialised_again :
  (forall (new : constructor) (canon : bytes -> option bytes) (code kind : option bytes) (m1 m2 : list (bytes * value)) (vs : bytes) (sad : option sadder) (s : sadder),
     In new constructors -> ~ In (s! "v") (map fst m1) -> no_version_in (to_json (VObj m1)) ->
     new canon code None kind (Some (VObj (m1 ++ (s! "v", VStr vs) :: m2))) sad = Ok s -> kind_into s (s! "JSON") = (s, Ok tt)) /\
  (forall (e : sadder) (kind : bytes), kind <> s! "JSON" -> fst (kind_into e kind) = e /\ is_err (snd (kind_into e kind)) = true).
Proof. exact C107_again_l. Qed.
Print Assumptions C107_serialised_again.

Example C107_again_case : exists s, serder_new (fun _ => None) None None None
    (Some (VObj [(s! "v", VStr (s! "KERI10JSON000000_")); (s! "d", VStr (s! "EAAAAAAAAAAAAAAAAAAAAAAAAAAAAAAAAAAAAAAAAAAA")); (s! "s", VStr (s! "0"))])) None = Ok s /\
  kind_into s (s! "JSON") = (s, Ok tt) /\ kind_into s (s! "CBOR") = (s, Err EValue).
Proof. eexists. split; [vm_compute; reflexivity|]. split; vm_compute; reflexivity. Qed.

(** An event whose data have been replaced and that is then serialised again keeps the SAID named in its data: serialising does not compute a new one. It has the
   event's code, only the version string of the new data is rewritten, and if the SAID still is that of the event before, then the event verifies only when its data
   are the same as before, unless the digest function has a collision. *)
Theorem C107_edited_event :
  forall (hash : bytes -> bytes -> bytes) (e e' : sadder) (ked : value) (kind : bytes),
  kind_into (with_ked e ked) kind = (e', Ok tt) ->
  (exists m vs vs' t, ked = VObj m /\ field_of ked (s! "v") (VStr vs) /\ d_ked e' = VObj (insert (s! "v") (VStr vs') m) /\
     field_of ked (s! "d") (VStr t) /\ exfil t = Ok (d_saider e')) /\
  d_code e' = d_code e /\ m_code (d_saider e') = d_code e /\
  (sized_hash hash -> data (d_ked e) -> data ked -> d_saider e' = d_saider e ->
   said_verify hash (d_saider e) (d_ked e) (Some true) (Some true) None None [] = Ok true ->
   said_verify hash (d_saider e') (d_ked e') (Some true) (Some true) None None [] = Ok true -> d_ked e' = d_ked e \/ collision hash (d_code e)).
Proof. exact C107_edit_l. Qed.
Print Assumptions C107_edited_event.

Example C107_edit_case : exists d o s e', saidify pretend (VObj [(s! "v", VStr (s! "KERI10JSON000000_")); (s! "d", VStr []); (s! "a", VInt 3)]) None None None [] = Ok (d, o) /\
  serder_new (fun _ => None) None None None (Some o) None = Ok s /\ said_verify pretend (d_saider s) (d_ked s) (Some true) (Some true) None None [] = Ok true /\
  kind_into (with_ked s (match d_ked s with VObj m => VObj (insert (s! "a") (VInt 4) m) | v => v end)) (s! "JSON") = (e', Ok tt) /\ d_saider e' = d_saider s /\ d_ked e' <> d_ked s.
Proof.
  eexists. eexists. eexists. eexists. split; [vm_compute; reflexivity|]. split; [vm_compute; reflexivity|]. split; [vm_compute; reflexivity|]. split; [vm_compute; reflexivity|].
  split; [vm_compute; reflexivity|]. vm_compute. discriminate.
Qed.
