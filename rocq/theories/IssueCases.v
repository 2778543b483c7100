(** The examples beside the theorems on issuing and revoking credentials, computed once. *)
From Coq Require Import String.
From Coq Require Import NArith ZArith QArith Bool List Lia.
From Verif Require Import Base Util Tables Matter Indexer Counter Prims Json Tholder Common Saider Diger Sadder Signer Prefixer Pather Messaging Short Verify Ingest Events Issue.
From Verif Require Import Spec SpecPrims SpecJson SpecCommon SpecTholder SpecSaider SpecSadder SpecPrefixer SpecSigner SpecLog SpecIngest SpecCred SpecBuild SpecIssue World Issued.
From Verif Require Import BaseFacts JsonFacts SadderFacts VerifyThms LogThms IngestThms FollowThms LifeThms IssueFacts.
Import ListNotations.
Open Scope N_scope.

Definition readable_check (e : sadder) : bool := data_check (d_ked e) && nests_check 127 (d_ked e) && (len (d_raw e) <? 2 ^ 32).
Lemma readable_checked e : readable_check e = true -> readable e.
Proof. unfold readable_check. intros H. apply andb_true_iff in H as (H & H3). apply andb_true_iff in H as (H1 & H2). split; [now apply data_checked|]. split; [now apply nests_checked|]. now apply N.ltb_lt. Qed.
Lemma all_readable : Forall readable [e_r1; e_r2; e_i1; e_i2; c_i; e_v1; e_v2].
Proof.
  assert (forallb readable_check [e_r1; e_r2; e_i1; e_i2; c_i; e_v1; e_v2] = true) as H by (vm_compute; reflexivity).
  rewrite forallb_forall in H. apply Forall_forall. intros e I. apply readable_checked. now apply H.
Qed.
Lemma parcels_textual : textual parcel_text.
Proof.
  intros g t H. unfold parcel_text in H. destruct (find _ parcels) as [(k, (e, x))|] eqn:F; injection H as <-; [|reflexivity]. apply find_some in F as (F & _).
  assert (forallb (fun p => utf8 (attached (fst (snd p)) (fst p))) parcels = true) as A by (vm_compute; reflexivity). rewrite forallb_forall in A. exact (A _ F).
Qed.
Lemma all_carried : carried parcel parcel_text (d_raw e_r1) g_r1 (attached e_r1 (snd anchor_text1)) /\ carried parcel parcel_text (d_raw e_r2) g_r2 (attached e_r2 registry_text) /\
  carried parcel parcel_text (d_raw e_i1) g_i1 (attached e_i1 ixn_i) /\ carried parcel parcel_text (d_raw e_i2) g_i2 (attached e_i2 iss_i) /\ carried parcel parcel_text (d_raw c_i) g_i3 (attached c_i signed_i) /\
  carried parcel parcel_text (d_raw e_v1) g_v1 (attached e_v1 (fst revoked_texts)) /\ carried parcel parcel_text (d_raw e_v2) g_v2 (attached e_v2 (snd revoked_texts)).
Proof. repeat (match goal with |- _ /\ _ => split end); split; vm_compute; reflexivity. Qed.
Lemma all_parts : snd anchor_text1 = d_raw e_r1 ++ attached e_r1 (snd anchor_text1) /\ registry_text = d_raw e_r2 ++ attached e_r2 registry_text /\ ixn_i = d_raw e_i1 ++ attached e_i1 ixn_i /\ iss_i = d_raw e_i2 ++ attached e_i2 iss_i /\
  signed_i = d_raw c_i ++ attached c_i signed_i /\ fst revoked_texts = d_raw e_v1 ++ attached e_v1 (fst revoked_texts) /\ snd revoked_texts = d_raw e_v2 ++ attached e_v2 (snd revoked_texts).
Proof. repeat (match goal with |- _ /\ _ => split; [vm_compute; reflexivity|] end). vm_compute. reflexivity. Qed.

Lemma sigs_written : written g_i1 (attached e_i1 ixn_i).
Proof.
  set (t := attached e_i1 ixn_i). change t with (firstn 4 t ++ skipn 4 t) at 1.
  change (written (GQuadlets [GSigs (signed keys0 e_i1)]) (firstn 4 t ++ skipn 4 t)).
  apply (written_long _ _ 45). 3:{ exists (firstn 2 (skipn 2 t)). split; [reflexivity|]. split; [vm_compute; reflexivity|vm_compute; reflexivity]. } 2: vm_compute; reflexivity.
  apply written_sigs. exists (firstn 4 (skipn 4 t)), [firstn 88 (skipn 8 t); skipn 96 t]. split; [|split].
  - exists (firstn 2 (skipn 6 t)). split; [reflexivity|]. split; [vm_compute; reflexivity|vm_compute; reflexivity].
  - constructor; [vm_compute; reflexivity|]. constructor; [vm_compute; reflexivity|]. constructor.
  - vm_compute. reflexivity.
Qed.
Lemma source_written : written g_i2 (attached e_i2 iss_i).
Proof.
  set (t := attached e_i2 iss_i). change (written g_i2 (firstn 4 t ++ firstn 24 (skipn 4 t) ++ skipn 28 t)). apply written_source.
  - exists (firstn 2 (skipn 2 t)). split; [reflexivity|]. split; [vm_compute; reflexivity|vm_compute; reflexivity].
  - vm_compute. reflexivity.
  - vm_compute. reflexivity.
Qed.
Lemma path_is_written : written g_i3 (attached c_i signed_i).
Proof.
  set (t := attached c_i signed_i). change t with (firstn 4 t ++ skipn 4 t) at 1.
  change (written (GQuadlets [GPaths [Sps (got nothing (pather_with_path (VArr []))) (got nothing (exfil pre0)) (got nothing (seqner_with_sn 0)) (d_saider event0) (signed keys0 c_i)]]) (firstn 4 t ++ skipn 4 t)).
  apply (written_long _ _ 77). 3:{ exists (firstn 2 (skipn 2 t)). split; [reflexivity|]. split; [vm_compute; reflexivity|vm_compute; reflexivity]. } 2: vm_compute; reflexivity.
  change (skipn 4 t) with (firstn 4 (skipn 4 t) ++ firstn 8 (skipn 8 t) ++ firstn 4 (skipn 16 t) ++ firstn 44 (skipn 20 t) ++ firstn 24 (skipn 64 t) ++ firstn 44 (skipn 88 t) ++ skipn 132 t) at 1.
  apply written_path.
  - exists (firstn 2 (skipn 6 t)). split; [reflexivity|]. split; [vm_compute; reflexivity|vm_compute; reflexivity].
  - exists (firstn 2 (skipn 18 t)). split; [reflexivity|]. split; [vm_compute; reflexivity|vm_compute; reflexivity].
  - vm_compute. reflexivity.
  - vm_compute. reflexivity.
  - vm_compute. reflexivity.
  - vm_compute. reflexivity.
  - exists (firstn 4 (skipn 132 t)), [firstn 88 (skipn 136 t); skipn 224 t]. split; [|split].
    + exists (firstn 2 (skipn 134 t)). split; [reflexivity|]. split; [vm_compute; reflexivity|vm_compute; reflexivity].
    + constructor; [vm_compute; reflexivity|]. constructor; [vm_compute; reflexivity|]. constructor.
    + vm_compute. reflexivity.
Qed.

Lemma sets_event0 : sets_keys no_floats event0 (got [] (ks_verfers_qb64 toy keys0)).
Proof.
  split; [apply index_field; vm_compute; reflexivity|]. exists (VStr (s! "2")). split; [apply index_field; vm_compute; reflexivity|]. eexists. split; [vm_compute; reflexivity|].
  split; [discriminate|]. split; [vm_compute; discriminate|discriminate].
Qed.
Lemma controls_case (l : ledger) r pe dig text : l_kel l pre0 = (d_raw event0 ++ s! "0") :: r -> at_sn (l_kel l pre0) (len r) = Ok text -> serder_with_raw no_floats text = Ok pe -> sad_said pe = Ok dig ->
  last_of (establishes no_floats) (l_kel l pre0) = Ok (d_raw event0 ++ s! "0") -> controls no_floats mix toy l pre0 keys0.
Proof.
  intros K A B C E. assert (exists p, prefixer_with_qb64 mix pre0 = Ok p /\ infil p = Ok pre0) as P by (eexists; split; [vm_compute; reflexivity|vm_compute; reflexivity]).
  split; auto. split; [reflexivity|]. exists (len r), pe, dig, event0, (got [] (ks_verfers_qb64 toy keys0)). split; [rewrite K, N.add_comm; unfold len; cbn [length]; lia|].
  split; [exists text; auto|]. split; [|split; [vm_compute; reflexivity|exact sets_event0]].
  exists (d_raw event0 ++ s! "0"). split; [|vm_compute; reflexivity]. cbn [view get_latest_establishment_event_as_of_sn]. rewrite firstn_all2; auto. rewrite K. cbn [length]. unfold len. lia.
Qed.
Lemma controls0 : controls no_floats mix toy ledger0 pre0 keys0.
Proof. apply (controls_case ledger0 [] event0 pre0 (d_raw event0 ++ s! "0")); vm_compute; reflexivity. Qed.
Lemma controls1 : controls no_floats mix toy ledger1 pre0 keys0.
Proof. apply (controls_case ledger1 [snd anchor_text1] e_r1 (fst anchor_text1) (snd anchor_text1)); vm_compute; reflexivity. Qed.
Lemma controls2 : controls no_floats mix toy ledger2 pre0 keys0.
Proof. apply (controls_case ledger2 [snd anchor_text1; ixn_i] e_i1 (got [] (sad_said e_i1)) ixn_i); vm_compute; reflexivity. Qed.
Lemma owns1 : owns no_floats ledger1 pre0 rpre0.
Proof. exists registry_text, e_r2, []. split; [vm_compute; reflexivity|]. split; [vm_compute; reflexivity|]. apply index_field. vm_compute. reflexivity. Qed.
Lemma owns2 : owns no_floats ledger2 pre0 rpre0.
Proof. exists registry_text, e_r2, []. split; [vm_compute; reflexivity|]. split; [vm_compute; reflexivity|]. apply index_field. vm_compute. reflexivity. Qed.
Lemma no_edges : lacks (d_ked c_i) (s! "e") /\ sectioned (d_ked c_i) /\ forall node, ~ edge (d_ked c_i) node.
Proof.
  assert (lacks (d_ked c_i) (s! "e")) as L. { intros v F. change (d_ked c_i) with (VObj (match d_ked c_i with VObj m => m | _ => [] end)) in F. apply field_assoc in F. vm_compute in F. discriminate. }
  split; auto. split; [now left|]. intros node (lb & es & _ & _ & _ & [F|(ll & F & _)]); exact (L _ F).
Qed.
Lemma issue_done : issue_acdc no_floats mix toy (time0, time0) ([], []) (s! "n") no_rng no_rng (purse no_floats owner_keys ledger1) rpre0 pre0 (s! "schema") (s! "{""name"":""x""}") None None None None = Ok (said_i, ixn_i, iss_i, signed_i).
Proof. vm_compute. reflexivity. Qed.
Lemma revoke_done : revoke_acdc no_floats mix toy time0 (s! "m") no_rng (purse no_floats owner_keys ledger2) rpre0 pre0 said_i = Ok revoked_texts.
Proof. vm_compute. reflexivity. Qed.
Lemma registry_done : registry_incept no_floats mix pre0 = Ok (rpre0, d_raw e_r2) /\ do_interact mix toy no_floats no_rng keys0 pre0 (got [] (sad_said event0)) 1 (one_seal rpre0 (s! "0") rpre0) = Ok anchor_text1 /\
  anchored_text (d_raw e_r2) 1 (fst anchor_text1) = Ok registry_text.
Proof. split; [vm_compute; reflexivity|]. split; vm_compute; reflexivity. Qed.

Lemma more_written : written g_r1 (attached e_r1 (snd anchor_text1)) /\ written g_r2 (attached e_r2 registry_text) /\ written g_v1 (attached e_v1 (fst revoked_texts)) /\ written g_v2 (attached e_v2 (snd revoked_texts)).
Proof.
  assert (g_r1 = g_i1 /\ attached e_r1 (snd anchor_text1) = attached e_i1 ixn_i /\ g_v1 = g_i1 /\ attached e_v1 (fst revoked_texts) = attached e_i1 ixn_i) as (-> & -> & -> & ->).
  { split; [vm_compute; reflexivity|]. split; [vm_compute; reflexivity|]. split; vm_compute; reflexivity. }
  split; [exact sigs_written|]. split; [|split; [exact sigs_written|]].
  - set (t := attached e_r2 registry_text). change (written g_r2 (firstn 4 t ++ firstn 24 (skipn 4 t) ++ skipn 28 t)). apply written_source.
    + exists (firstn 2 (skipn 2 t)). split; [reflexivity|]. split; [vm_compute; reflexivity|vm_compute; reflexivity].
    + vm_compute. reflexivity.
    + vm_compute. reflexivity.
  - set (t := attached e_v2 (snd revoked_texts)). change (written g_v2 (firstn 4 t ++ firstn 24 (skipn 4 t) ++ skipn 28 t)). apply written_source.
    + exists (firstn 2 (skipn 2 t)). split; [reflexivity|]. split; [vm_compute; reflexivity|vm_compute; reflexivity].
    + vm_compute. reflexivity.
    + vm_compute. reflexivity.
Qed.
