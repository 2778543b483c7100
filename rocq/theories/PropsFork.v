(** Property C175: where two logs of one identifier part, both were signed with the same keys. Theorem statements only; the proofs are in [ForkThms]. *)
From Coq Require Import String.
From Coq Require Import NArith ZArith QArith Bool List Lia.
From Verif Require Import Base Tables Matter Indexer Prims Json Tholder Common Saider Sadder Signer Prefixer Pather Short Verify Ingest Events SpecPrims SpecJson SpecSaider SpecSadder SpecPrefixer SpecSigner SpecLog SpecIngest SpecFork World SadderFacts VerifyThms IngestThms ForkThms.
Import ListNotations.
Open Scope N_scope.

(** Two ledgers were made by taking in streams, by two parties. Their logs for an identifier have the same event under a number, by its identifier. Then, whatever events follow it in the two logs, the last events before
   them that set keys set the same ones, and each of the two was signed with what these set: an interaction with enough of the signing keys, a rotation with enough of the keys announced for next. So if the two events
   differ, both were signed for by the same controller; or Blake3 has a collision. Inceptions begin with their version string, there are no floats, and numbers are below 2^32. *)
Theorem C175_forks_are_signed_by_the_same_keys :
  forall (canon : bytes -> option bytes) (hash : bytes -> bytes -> bytes) (cr1 cr2 : crypto) (messages_of1 messages_of2 : bytes -> R (list message)) (group_text1 group_text2 : group -> R bytes)
    (schema_check1 schema_check2 : bytes -> bytes -> R bool) (age1 age2 : bytes -> R Z) (seen_said1 seen_said2 : ledger -> bytes -> bool) (l1 l2 : ledger) (pre : bytes),
  sized_hash hash -> finds_all canon seen_said1 -> finds_all canon seen_said2 -> textual group_text1 -> textual group_text2 ->
  reached canon hash cr1 messages_of1 group_text1 schema_check1 age1 seen_said1 l1 -> reached canon hash cr2 messages_of2 group_text2 schema_check2 age2 seen_said2 l2 ->
  (forall text e, In text (l_kel l1 pre) \/ In text (l_kel l2 pre) -> serder_with_raw canon text = Ok e -> float_free (d_ked e)) ->
  (forall text e, nth_error (l_kel l1 pre) 0 = Some text \/ nth_error (l_kel l2 pre) 0 = Some text -> serder_with_raw canon text = Ok e -> exists vs m, d_ked e = VObj ((s! "v", VStr vs) :: m)) ->
  forall (n : nat) (text1 text2 next1 next2 : bytes) (e1 e2 : sadder) (said : bytes), N.of_nat (Datatypes.S n) < 2 ^ 32 ->
  nth_error (l_kel l1 pre) n = Some text1 -> nth_error (l_kel l2 pre) n = Some text2 -> serder_with_raw canon text1 = Ok e1 -> serder_with_raw canon text2 = Ok e2 -> sad_said e1 = Ok said -> sad_said e2 = Ok said ->
  nth_error (l_kel l1 pre) (Datatypes.S n) = Some next1 -> nth_error (l_kel l2 pre) (Datatypes.S n) = Some next2 ->
  (exists a1 a2 f1 f2 g1 g2 rest1 rest2, established canon (view canon l1) pre (N.of_nat n) a1 /\ established canon (view canon l2) pre (N.of_nat n) a2 /\ same_keys canon a1 a2 /\
     serder_with_raw canon next1 = Ok f1 /\ next1 = d_raw f1 ++ rest1 /\ group_text1 (GQuadlets g1) = Ok rest1 /\ continued canon hash cr1 a1 f1 g1 /\
     serder_with_raw canon next2 = Ok f2 /\ next2 = d_raw f2 ++ rest2 /\ group_text2 (GQuadlets g2) = Ok rest2 /\ continued canon hash cr2 a2 f2 g2) \/
  collision hash (s! "E").
Proof. exact C175_l. Qed.
Print Assumptions C175_forks_are_signed_by_the_same_keys.

Example C175_case : exists l1 l2 e1 e2, l_kel l1 pre0 <> l_kel l2 pre0 /\ (exists t1 t2, nth_error (l_kel l1 pre0) 1 = Some t1 /\ nth_error (l_kel l2 pre0) 1 = Some t2 /\ serder_with_raw no_floats t1 = Ok e1 /\ serder_with_raw no_floats t2 = Ok e2) /\
  of_type (d_ked e1) (s! "rot") /\ of_type (d_ked e2) (s! "ixn") /\ (exists t1 t2, nth_error (l_kel l1 pre0) 0 = Some t1 /\ nth_error (l_kel l2 pre0) 0 = Some t2 /\ serder_with_raw no_floats t1 = serder_with_raw no_floats t2) /\
  reached no_floats mix toy streams sigs_text (fun _ _ => Ok true) (fun _ => Ok 0%Z) (fun _ _ => true) l1 /\ reached no_floats mix toy lettered letter_of (fun _ _ => Ok true) (fun _ => Ok 0%Z) (fun _ _ => true) l2.
Proof.
  exists (fst (ingest_messages no_floats mix toy streams sigs_text (fun _ _ => Ok true) (fun _ => Ok 0%Z) (fun _ _ => true) 9 empty (s! "log") (Some false) None)),
    (fst (ingest_messages no_floats mix toy lettered letter_of (fun _ _ => Ok true) (fun _ => Ok 0%Z) (fun _ _ => true) 9 empty (s! "issued") (Some false) None)), event1, anchor1.
  split; [intros X; apply (f_equal (fun l => nth_error l 1)) in X; vm_compute in X; discriminate X|]. split; [do 2 eexists; split; [vm_compute; reflexivity|]; split; [vm_compute; reflexivity|]; split; [vm_compute; reflexivity|]; vm_compute; reflexivity|].
  split; [apply index_field; vm_compute; reflexivity|]. split; [apply index_field; vm_compute; reflexivity|]. split; [do 2 eexists; split; [vm_compute; reflexivity|]; split; [vm_compute; reflexivity|]; vm_compute; reflexivity|].
  split; (eapply reached_more; [apply reached_empty| |apply surjective_pairing]); discriminate.
Qed.

(** Two logs for one identifier begin with the same event, by its identifier: it is the identifier they are for. So logs can part only after a common beginning, and the theorem before is about all the ways in which they can. *)
Theorem C175_logs_begin_alike :
  forall (canon : bytes -> option bytes) (hash : bytes -> bytes -> bytes) (cr : crypto) (messages_of : bytes -> R (list message)) (group_text : group -> R bytes)
    (schema_check : bytes -> bytes -> R bool) (age : bytes -> R Z) (seen_said : ledger -> bytes -> bool) (l : ledger) (pre text : bytes) (e : sadder),
  finds_all canon seen_said -> textual group_text -> reached canon hash cr messages_of group_text schema_check age seen_said l ->
  nth_error (l_kel l pre) 0 = Some text -> serder_with_raw canon text = Ok e -> sad_said e = Ok pre /\ of_type (d_ked e) (s! "icp").
Proof. exact C175_begin_l. Qed.
Print Assumptions C175_logs_begin_alike.

Example C175_alike_case : exists l text e, nth_error (l_kel l pre0) 0 = Some text /\ serder_with_raw no_floats text = Ok e /\ reached no_floats mix toy lettered letter_of (fun _ _ => Ok true) (fun _ => Ok 0%Z) (fun _ _ => true) l.
Proof.
  exists (fst (ingest_messages no_floats mix toy lettered letter_of (fun _ _ => Ok true) (fun _ => Ok 0%Z) (fun _ _ => true) 9 empty (s! "issued") (Some false) None)). do 2 eexists.
  split; [vm_compute; reflexivity|]. split; [vm_compute; reflexivity|]. eapply reached_more; [apply reached_empty| |apply surjective_pairing]; discriminate.
Qed.
