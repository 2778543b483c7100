(** Property C177: every registry event has a key event of its own that anchors it. Theorem statements only; the proofs are in [AnchorThms]. *)
From Coq Require Import String.
From Coq Require Import NArith ZArith QArith Bool List Lia.
From Verif Require Import Base Tables Matter Indexer Prims Json Common Saider Sadder Signer Prefixer Pather Short Verify Ingest Events SpecPrims SpecSaider SpecSadder SpecSigner SpecLog SpecIngest SpecCred SpecAgain SpecAnchor World SadderFacts VerifyThms IngestThms AgainThms AnchorThms.
Import ListNotations.
Open Scope N_scope.

(** Two registry events, both accepted, whose registries have one owner and whose couples have the same number, are the same event: they have the same prefix, number and identifier. *)
Theorem C177_one_registry_event_for_each_anchor :
  forall (canon : bytes -> option bytes) (hash : bytes -> bytes -> bytes) (cr1 cr2 : crypto) (messages_of1 messages_of2 : bytes -> R (list message)) (fuel1 fuel2 : nat) (st : store) (e1 e2 : sadder)
    (seqner1 saider1 seqner2 saider2 : matter) (deep1 deep2 : option bool) (seen1 seen2 : list bytes) (r1 r2 : bool * list bytes) (owner : bytes) (n : N),
  verify_transaction_event canon hash cr1 messages_of1 fuel1 st e1 [(seqner1, saider1)] deep1 seen1 = Ok r1 -> verify_transaction_event canon hash cr2 messages_of2 fuel2 st e2 [(seqner2, saider2)] deep2 seen2 = Ok r2 ->
  owned canon st e1 owner -> owned canon st e2 owner -> seqner_sn seqner1 = Ok n -> seqner_sn seqner2 = Ok n ->
  exists pre number said, field_of (d_ked e1) (s! "i") (VStr pre) /\ field_of (d_ked e1) (s! "s") (VStr number) /\ sad_said e1 = Ok said /\
    field_of (d_ked e2) (s! "i") (VStr pre) /\ field_of (d_ked e2) (s! "s") (VStr number) /\ sad_said e2 = Ok said.
Proof. exact C177_one_l. Qed.
Print Assumptions C177_one_registry_event_for_each_anchor.

Example C177_one_case : let l := view no_floats revoked_ledger in
  verify_transaction_event no_floats mix toy lettered 9 l iss0 [couple 2 anchor2] (Some false) [] = Ok (true, []) /\ verify_transaction_event no_floats mix toy lettered 9 l rev0 [couple 3 anchor3] (Some false) [] = Ok (true, []) /\
  verify_transaction_event no_floats mix toy lettered 9 l rev0 [couple 2 anchor2] (Some false) [] = Err EVerification.
Proof. split; [vm_compute; reflexivity|]. split; vm_compute; reflexivity. Qed.

(** In a ledger made by taking in streams, the registry events of one owner, in whatever registry logs, are no more than the owner's key events; each of them has a key event of its own with one seal, for it.
   Numbers are below 2^32. *)
Theorem C177_every_registry_event_has_its_own_anchor :
  forall (canon : bytes -> option bytes) (hash : bytes -> bytes -> bytes) (cr : crypto) (messages_of : bytes -> R (list message)) (group_text : group -> R bytes)
    (schema_check : bytes -> bytes -> R bool) (age : bytes -> R Z) (seen_said : ledger -> bytes -> bool) (l : ledger) (owner : bytes) (places : list (bytes * nat)),
  sized_hash hash -> finds_all canon seen_said -> textual group_text -> reads_back messages_of group_text -> reached canon hash cr messages_of group_text schema_check age seen_said l ->
  NoDup places -> Forall (of_owner canon l owner) places ->
  exists anchors, NoDup anchors /\ (length places <= length (l_kel l owner))%nat /\
    Forall2 (fun place k => exists text anchor number said, nth_error (l_kel l owner) k = Some text /\ serder_with_raw canon text = Ok anchor /\ sealed (d_ked anchor) (fst place) number said) places anchors.
Proof. exact C177_l. Qed.
Print Assumptions C177_every_registry_event_has_its_own_anchor.

Example C177_case : sized_hash mix /\ finds_all no_floats (fun _ _ => true) /\ textual own_letter /\ reads_back lettered own_letter /\
  reached no_floats mix toy lettered own_letter (fun _ _ => Ok true) (fun _ => Ok 0%Z) (fun _ _ => true) revoked_ledger /\ NoDup [(rpre0, 0%nat); (csaid0, 0%nat); (csaid0, 1%nat)] /\
  Forall (of_owner no_floats revoked_ledger pre0) [(rpre0, 0%nat); (csaid0, 0%nat); (csaid0, 1%nat)] /\ length (l_kel revoked_ledger pre0) = 4%nat.
Proof.
  split; [exact mix_sized|]. split; [intros l said _; reflexivity|]. split; [exact own_textual|]. split; [exact own_read|]. split; [exact revoked_reached|].
  split; [repeat constructor; cbn; intros X; repeat (destruct X as [X|X]; [vm_compute in X; discriminate X|]); exact X|]. split; [|vm_compute; reflexivity].
  constructor; [|constructor; [|constructor; [|constructor]]]; (split; [vm_compute; reflexivity|]); do 2 eexists; (split; [vm_compute; reflexivity|]); (split; [vm_compute; reflexivity|]).
  - left. split; apply index_field; vm_compute; reflexivity.
  - right. split; [left; apply index_field; vm_compute; reflexivity|]. exists rpre0, reg0. split; [apply index_field; vm_compute; reflexivity|]. split; [eexists; split; [vm_compute; reflexivity|]; vm_compute; reflexivity|apply index_field; vm_compute; reflexivity].
  - right. split; [right; apply index_field; vm_compute; reflexivity|]. exists rpre0, reg0. split; [apply index_field; vm_compute; reflexivity|]. split; [eexists; split; [vm_compute; reflexivity|]; vm_compute; reflexivity|apply index_field; vm_compute; reflexivity].
Qed.

(** Two parties took in the same key events of an owner, and hold different events of that owner under the same number of one registry log. Then the owner's key log holds two events, under different numbers, each with one
   seal for an event in this registry log: one for the first, one for the other. So an owner who shows two parties different events shows both in the key log. Events of other owners in this log are another matter: see C129_only_owner_revokes_refuted. *)
Theorem C177_forks_of_registry_logs_show_in_the_key_log :
  forall (canon : bytes -> option bytes) (hash : bytes -> bytes -> bytes) (cr1 cr2 : crypto) (messages_of1 messages_of2 : bytes -> R (list message)) (group_text1 group_text2 : group -> R bytes)
    (schema_check1 schema_check2 : bytes -> bytes -> R bool) (age1 age2 : bytes -> R Z) (seen_said1 seen_said2 : ledger -> bytes -> bool) (l1 l2 : ledger) (owner pre : bytes) (n : nat) (text1 text2 : bytes) (e1 e2 : sadder) (said1 said2 : bytes),
  sized_hash hash -> finds_all canon seen_said1 -> finds_all canon seen_said2 -> textual group_text1 -> textual group_text2 -> reads_back messages_of1 group_text1 -> reads_back messages_of2 group_text2 ->
  reached canon hash cr1 messages_of1 group_text1 schema_check1 age1 seen_said1 l1 -> reached canon hash cr2 messages_of2 group_text2 schema_check2 age2 seen_said2 l2 -> l_kel l1 owner = l_kel l2 owner ->
  of_owner canon l1 owner (pre, n) -> of_owner canon l2 owner (pre, n) -> nth_error (l_tel l1 pre) n = Some text1 -> nth_error (l_tel l2 pre) n = Some text2 ->
  serder_with_raw canon text1 = Ok e1 -> serder_with_raw canon text2 = Ok e2 -> sad_said e1 = Ok said1 -> sad_said e2 = Ok said2 -> said1 <> said2 ->
  exists k1 k2 a1 a2 t1 t2 number1 number2, k1 <> k2 /\ nth_error (l_kel l1 owner) k1 = Some t1 /\ nth_error (l_kel l1 owner) k2 = Some t2 /\ serder_with_raw canon t1 = Ok a1 /\ serder_with_raw canon t2 = Ok a2 /\
    sealed (d_ked a1) pre number1 said1 /\ sealed (d_ked a2) pre number2 said2.
Proof. exact C177_forks_l. Qed.
Print Assumptions C177_forks_of_registry_logs_show_in_the_key_log.

Example C177_fork_case : l_kel fork_a pre0 = l_kel fork_b pre0 /\ (exists e1 e2 t1 t2 d1 d2, nth_error (l_tel fork_a csaid0) 1 = Some t1 /\ nth_error (l_tel fork_b csaid0) 1 = Some t2 /\
    serder_with_raw no_floats t1 = Ok e1 /\ serder_with_raw no_floats t2 = Ok e2 /\ sad_said e1 = Ok d1 /\ sad_said e2 = Ok d2 /\ beq d1 d2 = false) /\
  of_owner no_floats fork_a pre0 (csaid0, 1%nat) /\ of_owner no_floats fork_b pre0 (csaid0, 1%nat) /\ textual fork_letter /\ reads_back forked fork_letter /\
  reached no_floats mix toy forked fork_letter (fun _ _ => Ok true) (fun _ => Ok 0%Z) (fun _ _ => true) fork_a /\ reached no_floats mix toy forked fork_letter (fun _ _ => Ok true) (fun _ => Ok 0%Z) (fun _ _ => true) fork_b.
Proof.
  split; [vm_compute; reflexivity|]. split; [do 6 eexists; split; [vm_compute; reflexivity|]; split; [vm_compute; reflexivity|]; split; [vm_compute; reflexivity|]; split; [vm_compute; reflexivity|]; split; [vm_compute; reflexivity|]; split; [vm_compute; reflexivity|]; vm_compute; reflexivity|].
  split; [|split]. 3: { split; [exact fork_textual|]. split; [exact fork_read|]. split; [exact fork_a_reached|exact fork_b_reached]. }
  all: split; [vm_compute; reflexivity|]; do 2 eexists; (split; [vm_compute; reflexivity|]); (split; [vm_compute; reflexivity|]);
    (right; split; [right; apply index_field; vm_compute; reflexivity|]; exists rpre0, reg0; split; [apply index_field; vm_compute; reflexivity|]; split; [eexists; split; [vm_compute; reflexivity|]; vm_compute; reflexivity|apply index_field; vm_compute; reflexivity]).
Qed.
