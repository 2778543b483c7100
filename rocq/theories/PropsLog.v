(** Properties C123 to C125: key-event logs. Theorem statements only; the proofs are in [LogThms]. *)
From Coq Require Import String.
From Coq Require Import NArith ZArith QArith Bool List Lia.
From Verif Require Import Base Tables Matter Indexer Prims Json Tholder Common Saider Diger Sadder Signer Prefixer Pather Short Verify Ingest Events Spec SpecPrims SpecJson SpecCommon SpecTholder SpecSaider SpecSadder SpecPrefixer SpecSigner SpecLog World LogThms VerifyThms BaseFacts.
Import ListNotations.
Open Scope N_scope.

(** The prefix of an accepted inception that was read from a message and begins with its version string is the event's identifier, and it is the Blake3 digest of the JSON of the event
   with prefix and identifier replaced by hash signs and the size in the version string put right. *)
Theorem C123_inception_certifies_itself :
  forall (canon : bytes -> option bytes) (hash : bytes -> bytes -> bytes) (cr : crypto) (messages_of : bytes -> R (list message)) (fuel : nat) (st : store) (raw : bytes) (e : sadder)
    (g : list group) (deep : option bool) (seen : list bytes) (r : bool * list bytes) (vs : bytes) (m : list (bytes * value)),
  sized_hash hash -> serder_with_raw canon raw = Ok e -> verify_key_event canon hash cr messages_of fuel st e g deep seen = Ok r -> of_type (d_ked e) (s! "icp") ->
  d_ked e = VObj ((s! "v", VStr vs) :: m) -> float_free (d_ked e) ->
  exists pre vs' proto n n', field_of (d_ked e) (s! "i") (VStr pre) /\ sad_said e = Ok pre /\ version_string vs proto 1 0 n /\ version_string vs' proto 1 0 n' /\
    d_saider e = Mt (s! "E") 0 (hash (s! "E") (to_json (VObj ((s! "v", VStr vs') :: replaced (s! "d") (dummies 44) (replaced (s! "i") (dummies 44) m))))).
Proof. exact C123_l. Qed.
Print Assumptions C123_inception_certifies_itself.

Example C123_case : exists vs m, serder_with_raw no_floats (d_raw event0) = Ok event0 /\ of_type (d_ked event0) (s! "icp") /\ float_free (d_ked event0) /\
  d_ked event0 = VObj ((s! "v", VStr vs) :: m) /\ verify_key_event no_floats mix toy no_messages 1 (view no_floats empty) event0 [GSigs sigs0] None [] = Ok (false, []).
Proof. eexists. eexists. split; [vm_compute; reflexivity|]. split; [apply type_text; vm_compute; reflexivity|]. split; [vm_compute; repeat constructor|]. split; vm_compute; reflexivity. Qed.

(** Two accepted inceptions for the same prefix, read from messages and beginning with their version strings, have the same other fields, in the same order, the text of field d aside; or Blake3 has a
   collision. They may have been accepted by different stores, with different signatures of different schemes. *)
Theorem C123_prefix_binds_inception :
  forall (canon : bytes -> option bytes) (hash : bytes -> bytes -> bytes) (cr1 cr2 : crypto) (messages_of1 messages_of2 : bytes -> R (list message)) (fuel1 fuel2 : nat) (st1 st2 : store) (raw1 raw2 : bytes) (e1 e2 : sadder)
    (g1 g2 : list group) (deep1 deep2 : option bool) (seen1 seen2 : list bytes) (r1 r2 : bool * list bytes) (vs1 vs2 pre : bytes) (m1 m2 : list (bytes * value)),
  sized_hash hash -> serder_with_raw canon raw1 = Ok e1 -> serder_with_raw canon raw2 = Ok e2 ->
  verify_key_event canon hash cr1 messages_of1 fuel1 st1 e1 g1 deep1 seen1 = Ok r1 -> verify_key_event canon hash cr2 messages_of2 fuel2 st2 e2 g2 deep2 seen2 = Ok r2 ->
  of_type (d_ked e1) (s! "icp") -> of_type (d_ked e2) (s! "icp") -> field_of (d_ked e1) (s! "i") (VStr pre) -> field_of (d_ked e2) (s! "i") (VStr pre) ->
  d_ked e1 = VObj ((s! "v", VStr vs1) :: m1) -> d_ked e2 = VObj ((s! "v", VStr vs2) :: m2) -> float_free (d_ked e1) -> float_free (d_ked e2) ->
  without [s! "d"] m1 = without [s! "d"] m2 \/ collision hash (s! "E").
Proof. exact C123b_l. Qed.
Print Assumptions C123_prefix_binds_inception.

Example C123_binds_case : serder_with_raw no_floats (d_raw event0) = Ok event0 /\ verify_key_event no_floats mix toy no_messages 1 (view no_floats empty) event0 [GSigs sigs0] None [] = Ok (false, []) /\
  verify_key_event no_floats mix toy no_messages 1 (view no_floats log2) event0 [GSigs (rev sigs0)] (Some true) [] = Ok (true, []).
Proof. repeat (match goal with |- _ /\ _ => split; [vm_compute; reflexivity|] end). vm_compute. reflexivity. Qed.

(** Two accepted events other than inceptions that have the same identifier, read from messages, have the same data, the text of field d aside; or Blake3 has a collision. *)
Theorem C123_said_binds_event :
  forall (canon : bytes -> option bytes) (hash : bytes -> bytes -> bytes) (cr1 cr2 : crypto) (messages_of1 messages_of2 : bytes -> R (list message)) (fuel1 fuel2 : nat) (st1 st2 : store) (raw1 raw2 : bytes) (e1 e2 : sadder)
    (g1 g2 : list group) (deep1 deep2 : option bool) (seen1 seen2 : list bytes) (r1 r2 : bool * list bytes) (said : bytes) (m1 m2 : list (bytes * value)),
  sized_hash hash -> serder_with_raw canon raw1 = Ok e1 -> serder_with_raw canon raw2 = Ok e2 ->
  verify_key_event canon hash cr1 messages_of1 fuel1 st1 e1 g1 deep1 seen1 = Ok r1 -> verify_key_event canon hash cr2 messages_of2 fuel2 st2 e2 g2 deep2 seen2 = Ok r2 ->
  ~ of_type (d_ked e1) (s! "icp") -> ~ of_type (d_ked e2) (s! "icp") -> sad_said e1 = Ok said -> sad_said e2 = Ok said ->
  d_ked e1 = VObj m1 -> d_ked e2 = VObj m2 -> float_free (d_ked e1) -> float_free (d_ked e2) ->
  without [s! "d"] m1 = without [s! "d"] m2 \/ collision hash (s! "E").
Proof. exact C123c_l. Qed.
Print Assumptions C123_said_binds_event.

Example C123_said_case : verify_key_event no_floats mix toy no_messages 1 (view no_floats log1) event1 [GSigs sigs1] None [] = Ok (false, []) /\ ~ of_type (d_ked event1) (s! "icp").
Proof. split; [vm_compute; reflexivity|]. intros T. apply type_text in T. vm_compute in T. discriminate. Qed.

(** When an event with number n is accepted by deep verification, every event in the log before it is itself accepted, with the signatures that are stored with it. The log has to be in order: each stored event
   carries the prefix and its number, and no two have the same identifier. *)
Theorem C124_deep_verification :
  forall (canon : bytes -> option bytes) (hash : bytes -> bytes -> bytes) (cr : crypto) (messages_of : bytes -> R (list message)) (fuel : nat) (st : store) (pre : bytes) (n : N) (e : sadder)
    (g : list group) (r : bool * list bytes),
  orderly canon st pre n -> n <= 2 ^ 32 -> field_of (d_ked e) (s! "i") (VStr pre) -> ordinal (d_ked e) n ->
  verify_key_event canon hash cr messages_of fuel st e g (Some true) [] = Ok r ->
  forall m, m < n -> exists text em rest value more there, get_key_event st pre m = Ok text /\ serder_with_raw canon text = Ok em /\ text = d_raw em ++ rest /\
    messages_of rest = Ok (MGroup (GQuadlets value) :: more) /\ verify_key_event canon hash cr messages_of 1 st em value None [] = Ok (there, []).
Proof. exact C124_l. Qed.
Print Assumptions C124_deep_verification.

Example C124_case : orderly no_floats (view no_floats full2) pre0 2 /\ field_of (d_ked event2) (s! "i") (VStr pre0) /\ ordinal (d_ked event2) 2 /\
  verify_key_event no_floats mix toy few_messages 3 (view no_floats full2) event2 [GSigs sigs2] (Some true) [] = Ok (false, rev (map (fun e => got [] (sad_said e)) [event1; event0])).
Proof.
  assert (forall m e said, m < 2 -> logged no_floats (view no_floats full2) pre0 m e said -> (m, e, said) = (0, event0, pre0) \/ (m, e, said) = (1, event1, got [] (sad_said event1))) as H.
  { intros m e said L (t & A & B & C). assert (m = 0 \/ m = 1) as [-> | ->] by lia; vm_compute in A; injection A as <-; vm_compute in B; injection B as <-; vm_compute in C; injection C as <-; vm_compute; auto. }
  split; [split|].
  - intros m e said L G. destruct (H m e said L G) as [[= -> -> ->]|[= -> -> ->]]; (split; [apply pre_field|apply sn_field]); vm_compute; reflexivity.
  - intros m m' e e' said L L' G G'. destruct (H m e said L G) as [[= -> -> ->]|[= -> -> ->]]; destruct (H _ _ _ L' G') as [E|E]; injection E; auto; intros X; exfalso; clear -X; vm_compute in X; discriminate.
  - split; [apply pre_field; vm_compute; reflexivity|]. split; [apply sn_field; vm_compute; reflexivity|]. vm_compute. reflexivity.
Qed.

(** Two parties whose logs are in order accept, by deep verification, events with the same identifier, other than inceptions. Then the events in their logs under every smaller number have the same identifier too,
   and those after the inception have the same data, the text of field d aside; or Blake3 has a collision. The signatures, and the signature scheme, may differ. *)
Theorem C125_same_history :
  forall (canon : bytes -> option bytes) (hash : bytes -> bytes -> bytes) (cr1 cr2 : crypto) (messages_of1 messages_of2 : bytes -> R (list message)) (fuel1 fuel2 : nat) (st1 st2 : store) (pre : bytes) (n : N) (raw1 raw2 : bytes)
    (e1 e2 : sadder) (g1 g2 : list group) (r1 r2 : bool * list bytes) (said : bytes),
  sized_hash hash -> orderly canon st1 pre n -> orderly canon st2 pre n -> n <= 2 ^ 32 ->
  serder_with_raw canon raw1 = Ok e1 -> serder_with_raw canon raw2 = Ok e2 -> field_of (d_ked e1) (s! "i") (VStr pre) -> ordinal (d_ked e1) n ->
  verify_key_event canon hash cr1 messages_of1 fuel1 st1 e1 g1 (Some true) [] = Ok r1 -> verify_key_event canon hash cr2 messages_of2 fuel2 st2 e2 g2 (Some true) [] = Ok r2 ->
  ~ of_type (d_ked e1) (s! "icp") -> ~ of_type (d_ked e2) (s! "icp") -> sad_said e1 = Ok said -> sad_said e2 = Ok said ->
  float_free (d_ked e1) -> float_free (d_ked e2) ->
  (forall m e s, logged canon st1 pre m e s \/ logged canon st2 pre m e s -> float_free (d_ked e)) ->
  (forall m, m < n -> exists e1' e2' said', logged canon st1 pre m e1' said' /\ logged canon st2 pre m e2' said' /\
     (0 < m -> exists m1 m2, d_ked e1' = VObj m1 /\ d_ked e2' = VObj m2 /\ without [s! "d"] m1 = without [s! "d"] m2)) \/
  collision hash (s! "E").
Proof. exact C125_l. Qed.
Print Assumptions C125_same_history.

Example C125_case : orderly no_floats (view no_floats full2) pre0 2 /\ orderly no_floats (view no_floats full3) pre0 2 /\ serder_with_raw no_floats (d_raw event2) = Ok event2 /\ ~ of_type (d_ked event2) (s! "icp") /\
  (exists r, verify_key_event no_floats mix toy few_messages 3 (view no_floats full2) event2 [GSigs sigs2] (Some true) [] = Ok r) /\
  exists r, verify_key_event no_floats mix toy few_messages 3 (view no_floats full3) event2 [GSigs (rev sigs2)] (Some true) [] = Ok r.
Proof.
  assert (forall l, In l [full2; full3] -> orderly no_floats (view no_floats l) pre0 2) as O.
  { intros l I. assert (forall m e said, m < 2 -> logged no_floats (view no_floats l) pre0 m e said -> (m, e, said) = (0, event0, pre0) \/ (m, e, said) = (1, event1, got [] (sad_said event1))) as H.
    { intros m e said L (t & A & B & C). destruct I as [<-|[<-|[]]]; (assert (m = 0 \/ m = 1) as [-> | ->] by lia); vm_compute in A; injection A as <-; vm_compute in B; injection B as <-; vm_compute in C; injection C as <-; vm_compute; auto. }
    split.
    - intros m e said L G. destruct (H m e said L G) as [[= -> -> ->]|[= -> -> ->]]; (split; [apply pre_field|apply sn_field]); vm_compute; reflexivity.
    - intros m m' e e' said L L' G G'. destruct (H m e said L G) as [[= -> -> ->]|[= -> -> ->]]; destruct (H _ _ _ L' G') as [E|E]; injection E; auto; intros X; exfalso; clear -X; vm_compute in X; discriminate. }
  split; [apply O; cbn; auto|]. split; [apply O; cbn; auto|]. split; [vm_compute; reflexivity|]. split; [|split; eexists; vm_compute; reflexivity].
  intros T. apply type_text in T. vm_compute in T. discriminate.
Qed.
