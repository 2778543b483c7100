(** Proofs of the theorems on issuing and revoking credentials. *)
From Coq Require Import String.
From Coq Require Import NArith ZArith QArith Bool List Lia.
From Verif Require Import Base Util Tables Matter Indexer Counter Prims Json Tholder Common Saider Diger Sadder Signer Prefixer Pather Messaging Short Verify Ingest Events Issue.
From Verif Require Import Spec SpecPrims SpecJson SpecCommon SpecTholder SpecSaider SpecSadder SpecPrefixer SpecSigner SpecLog SpecIngest SpecCred SpecBuild SpecIssue.
From Verif Require Import BaseFacts UtilFacts MatterFacts MatterText PrimsFacts PrimsThms JsonFacts SadderFacts SadderThms SaiderThms VerifyFacts VerifyThms LogThms IngestThms CredThms FollowFacts FollowThms LifeThms IssueFacts.
Import ListNotations.
Open Scope N_scope.

Lemma not_held canon l said : unheld canon l said -> exists x, last_of (names canon said) (l_acdc l) = Err x.
Proof.
  unfold unheld. induction (l_acdc l) as [|t r IH]; intros U; cbn [last_of]; [eauto|]. destruct IH as (x & ->); [intros; eapply U; eauto; now right|].
  assert (names canon said t = false) as ->; eauto. unfold names. destruct (creder_with_raw canon t) as [c| |] eqn:C; auto. destruct (sad_said c) as [s| |] eqn:S; auto.
  destruct (beq s said) eqn:B; auto. apply beq_eq in B. subst s. destruct (U t c); auto. now left.
Qed.
Lemma anchored_said event sn anchor text : anchored_text event sn anchor = Ok text -> exists c s, text = event ++ c ++ s ++ anchor.
Proof. unfold anchored_text. intros H. bok H a A. bok H b B. bok H c C. bok H d D. injection H as <-. eauto. Qed.
(** The last establishment event of the log is the one in force, and its place is found. *)
Lemma controls_place canon hash cr kf l pre k : controls canon hash cr l pre k -> exists text ee keys j said, w_established (purse canon kf l) pre = Ok (said, j) /\ j < len (l_kel l pre) /\
  at_sn (l_kel l pre) j = Ok text /\ serder_with_raw canon text = Ok ee /\ sad_said ee = Ok said /\ ks_verfers_qb64 cr k = Ok keys /\ sets_keys canon ee keys \/ forall x, w_established (purse canon kf l) pre <> Ok x.
Proof.
  intros (_ & _ & n & pe & dig & ee & keys & LN & _ & (text & ES & RE) & KS & SK). cbn [view get_latest_establishment_event_as_of_sn] in ES. rewrite firstn_all2 in ES by (unfold len in LN; lia).
  destruct (last_placed _ _ _ 0 ES) as (j & LP & NE). cbn [purse w_established]. rewrite LP. unfold said_in. rewrite RE, bind_Ok.
  assert (j < length (l_kel l pre))%nat as JL by (apply nth_error_Some; congruence).
  destruct (sad_said ee) as [said| |] eqn:SE; [|exists [], ee, [], 0, []; right; discriminate|exists [], ee, [], 0, []; right; discriminate].
  exists text, ee, keys, (N.of_nat j), said. left. rewrite bind_Ok. split; auto. split; [unfold len; lia|]. split; [unfold at_sn; now rewrite Nat2N.id, NE|]. auto.
Qed.
Lemma NoDup_of_map {A B} (f : A -> B) l : NoDup (map f l) -> NoDup l.
Proof.
  induction l as [|a l IH]; cbn; intros H; [constructor|]. inversion H; subst. constructor; auto. intros I. apply (in_map f) in I. contradiction.
Qed.
Lemma seqner_back n sq : seqner_with_sn n = Ok sq -> n < 2 ^ 32 -> seqner_sn sq = Ok n.
Proof.
  intros H L. destruct (seqner_new_spec n) as (A & _ & B); [unfold u128_max; change (2 ^ 32) with 4294967296 in L; lia|]. unfold seqner_with_sn in H. rewrite A in H. now injection H as <-.
Qed.
Lemma tel_said l owner registry said canon : owns canon l owner registry -> l_tel l said = [] -> beq registry said = false.
Proof. intros (text & e & r & E & _) T. destruct (beq registry said) eqn:B; auto. apply beq_eq in B. congruence. Qed.

(*# C142_issued_credentials_accepted
   What issue_acdc makes for an issuer who controls an identifier and owns the registry is accepted: the interaction that anchors the issuance, then the issuance, then the signed credential, each taken in
   on its own and without looking back, and each attachment is written as it has to be. The issuer still controls the identifier and owns the registry, and the credential is held. This is for data that can be
   written and read back, a parser that reads these three texts as what they are, a schema that the credential meets, edges to credentials that are there, a recent time, and an identifier not in use.
##
Example C142_case : correct toy /\ sized_hash mix /\ controls no_floats mix toy ledger1 pre0 keys0 /\ owner_keys pre0 = Ok keys0 /\ owns no_floats ledger1 pre0 rpre0 /\
  issue_acdc no_floats mix toy (time0, time0) ([], []) (s! "n") no_rng no_rng (purse no_floats owner_keys ledger1) rpre0 pre0 (s! "schema") (s! "{""name"":""x""}") None None None None = Ok (said_i, ixn_i, iss_i, signed_i) /\
  l_tel ledger1 said_i = [] /\ unheld no_floats ledger1 said_i /\ ixn_i = d_raw e_i1 ++ attached e_i1 ixn_i /\ iss_i = d_raw e_i2 ++ attached e_i2 iss_i /\ signed_i = d_raw c_i ++ attached c_i signed_i /\
  written g_i1 (attached e_i1 ixn_i) /\ written g_i2 (attached e_i2 iss_i) /\ written g_i3 (attached c_i signed_i) /\ Forall readable [e_i1; e_i2; c_i] /\ sectioned (d_ked c_i) /\ (forall node, ~ edge (d_ked c_i) node) /\
  textual parcel_text /\ carried parcel parcel_text (d_raw e_i1) g_i1 (attached e_i1 ixn_i) /\ carried parcel parcel_text (d_raw e_i2) g_i2 (attached e_i2 iss_i) /\ carried parcel parcel_text (d_raw c_i) g_i3 (attached c_i signed_i).
Proof.
  split; [exact toy_correct|]. split; [exact mix_sized|]. split; [exact controls1|]. split; [reflexivity|]. split; [exact owns1|]. split; [exact issue_done|]. split; [vm_compute; reflexivity|]. split; [intros t e []|].
  destruct all_parts as (_ & _ & P1 & P2 & P3 & _). split; [exact P1|]. split; [exact P2|]. split; [exact P3|]. split; [exact sigs_written|]. split; [exact source_written|]. split; [exact path_is_written|].
  pose proof all_readable as R. rewrite Forall_forall in R. split; [apply Forall_forall; intros e [<-|[<-|[<-|[]]]]; apply R; cbn; tauto|]. destruct no_edges as (_ & N1 & N2). split; [exact N1|]. split; [exact N2|].
  split; [exact parcels_textual|]. destruct all_carried as (_ & _ & C1 & C2 & C3 & _). auto.
Qed.
#*)
Lemma C142_l (canon : bytes -> option bytes) (hash : bytes -> bytes -> bytes) (cr : crypto) (keys : bytes -> R keyset) (l : ledger) (k : keyset) (now salts : bytes * bytes) (nonce : bytes) (rng1 rng2 : N -> bytes)
    (status issuer schema data : bytes) (recipient : option bytes) (private : option bool) (source rules : option bytes) (said ixn iss signed : bytes) :
  correct cr -> sized_hash hash -> controls canon hash cr l issuer k -> keys issuer = Ok k -> owns canon l issuer status -> len (l_kel l issuer) < 2 ^ 32 ->
  issue_acdc canon hash cr now salts nonce rng1 rng2 (purse canon keys l) status issuer schema data recipient private source rules = Ok (said, ixn, iss, signed) ->
  l_tel l said = [] -> unheld canon l said -> len ixn < 2 ^ 32 -> len signed < 2 ^ 32 ->
  exists e1 g1 t1 e2 g2 t2 c g3 t3, ixn = d_raw e1 ++ t1 /\ written g1 t1 /\ iss = d_raw e2 ++ t2 /\ written g2 t2 /\ signed = d_raw c ++ t3 /\ written g3 t3 /\ sad_said c = Ok said /\
    forall messages_of group_text schema_check age seen_said fuel verify secs,
    readable e1 -> readable e2 -> readable c -> sectioned (d_ked c) -> (forall node, edge (d_ked c) node -> edge_fits canon schema_check l issuer node) -> schema_check schema (d_raw c) = Ok true ->
    age (snd now) = Ok secs -> (secs <= 36000000000)%Z -> textual group_text ->
    carried messages_of group_text (d_raw e1) g1 t1 -> carried messages_of group_text (d_raw e2) g2 t2 -> carried messages_of group_text (d_raw c) g3 t3 -> verify <> Some false ->
    let l1 := insert_key_event l issuer ixn in let l2 := insert_transaction_event l1 said iss in let l3 := insert_acdc l2 signed in
    ingest_messages canon hash cr messages_of group_text schema_check age seen_said (S (S fuel)) l ixn (Some false) verify = (l1, Ok tt) /\
    ingest_messages canon hash cr messages_of group_text schema_check age seen_said (S (S fuel)) l1 iss (Some false) verify = (l2, Ok tt) /\
    ingest_messages canon hash cr messages_of group_text schema_check age seen_said (S (S fuel)) l2 signed (Some false) verify = (l3, Ok tt) /\
    controls canon hash cr l3 issuer k /\ owns canon l3 issuer status /\ held canon (view canon l3) said c.
Proof.
  intros CR SH CT KI OW LB H TE UH LX LS. pose proof CT as ((p & PX & PI) & KO & _). unfold issue_acdc in H. bok H dv DV. bok H sv SV. bok H rv RV. bok H c C. bok H said0 SD. bok H is IS. destruct is as (own, istext). cbn [fst snd] in H.
  cbn [purse w_count w_said w_keys w_tel] in H. rewrite bind_Ok in H. bok H dig DG. bok H key_set KSS. assert (key_set = k) as -> by congruence. bok H ks KS. bok H sg SG. bok H ix IX. destruct ix as (xs, xt). cbn [fst snd] in H.
  bok H it IT. bok H est EST. destruct est as (esaid, en). cbn [fst snd] in H. bok H sq SQ. bok H proof PR. bok H stx STX. injection H as -> -> -> ->.
  destruct (create_shape _ _ _ _ _ _ _ _ _ _ _ _ _ SH C) as (vs & m & t & CK & CRI & CS & CI & CE & CSD & CX & CC & CSV & CA). rewrite SD in CSD. injection CSD as <-.
  destruct (issue_shape _ _ _ _ _ _ _ _ SH IS) as (e2 & vs2 & -> & U2 & (R1 & R2 & R3 & R4) & SV2 & K2).
  destruct (interaction_taken canon hash cr rng2 l issuer k dig _ _ _ _ CR SH CT eq_refl LB DG IX LX) as (e1 & sigs1 & t1 & -> & W1 & SD1 & X1 & A1 & P1 & TY1 & G1).
  destruct (place_written _ _ _ (d_saider e1) _ IT LB SD1) as (sq2 & t2 & -> & W2 & SQ2).
  destruct (controls_place canon hash cr keys l issuer k CT) as (etext & ee & kk & j & esaid' & [(EP & JL & AT & RE & SE & KV & SK)|NO]). 2:{ destruct (NO _ EST). }
  rewrite EST in EP. injection EP as <- <-. rewrite KV in KS. injection KS as ->.
  assert (en < 2 ^ 32) as EB by lia. pose proof (seqner_back _ _ SQ EB) as SQN.
  destruct (keyset_indices _ _ _ _ _ _ _ CR KO KV SG) as (IXS & LSG). assert (len sg < 2 ^ 32) as LSG' by (change (2 ^ 32) with 4294967296; lia).
  destruct (path_written issuer sq esaid sg proof c _ p (d_saider ee) PR STX PI SE LSG' LS) as (pa & t3 & -> & W3 & BX).
  exists e1, (GQuadlets [GSigs sigs1]), t1, e2, (GSources [(sq2, d_saider e1)]), t2, c, (GQuadlets [GPaths [Sps pa p sq (d_saider ee) (map fst sg)]]), t3.
  split; auto. split; auto. split; auto. split; auto. split; auto. split; auto. split; auto.
  intros mo gt sc age seen fuel verify secs RD1 (D2 & N2 & L2) (D3 & N3 & L3) SEC ED SCH AGE AL TX (M1 & GT1) (M2 & GT2) (M3 & GT3) NV l1 l2 l3.
  destruct (G1 RD1) as (B1 & CT1 & T1). clear G1. pose proof (back _ _ R4 D2 N2 L2) as B2. pose proof (cback _ _ CA D3 N3 L3) as B3.
  pose proof (TX _ _ GT1) as UT1. pose proof (TX _ _ GT2) as UT2. pose proof (TX _ _ GT3) as UT3. specialize (CT1 UT1).
  destruct OW as (rtext & reg & rr & RT & RR & RI). assert (beq status said = false) as NS by (eapply tel_said; [exists rtext, reg, rr; eauto|exact TE]).
  assert (beq said status = false) as NS' by (destruct (beq said status) eqn:B; auto; apply beq_eq in B; subst; now rewrite beq_refl in NS).
  assert (l_tel l2 said = [d_raw e2 ++ t2]) as LT2 by (cbn; unfold added; rewrite beq_refl, TE; reflexivity).
  assert (l_tel l2 status = rtext :: rr) as LT2s by (cbn; unfold added; rewrite NS; exact RT).
  assert (serder_with_raw canon (d_raw e2 ++ t2) = Ok e2) as B2' by now apply (read_on canon (d_raw e2)).
  assert (serder_with_raw canon (d_raw e1 ++ t1) = Ok e1) as B1' by now apply (read_on canon (d_raw e1)).
  split; [unfold ingest_messages; rewrite M1; apply T1; auto; discriminate|].
  assert (l_kel l1 issuer = l_kel l issuer ++ [d_raw e1 ++ t1]) as LK1 by (cbn; unfold added; now rewrite beq_refl).
  split.
  { unfold ingest_messages. rewrite M2. eapply (take_tel canon hash cr mo gt sc age seen (S (S fuel)) (Some false) verify l1 e2 (sq2, d_saider e1) said own (s! "iss") t2); eauto.
    - unfold serder_pre. rewrite K2. reflexivity.
    - unfold text_at. rewrite K2. reflexivity.
    - cbn. auto.
    - eapply (issue_taken canon hash cr mo (S fuel) (view canon l1) e2 vs2 own said status (snd now) nonce sq2 (d_saider e1) [own] _ (d_raw e1 ++ t1) e1 xs issuer reg rtext); eauto.
      + cbn. now rewrite TE.
      + cbn. unfold at_sn. now rewrite RT.
      + cbn [view get_key_event]. rewrite LK1. now apply at_last. }
  split; [|split; [|split]].
  - unfold ingest_messages. rewrite M3. apply (take_acdc canon hash cr mo gt sc age seen (S (S fuel)) (Some false) verify l2 c [GPaths [Sps pa p sq (d_saider ee) (map fst sg)]] said t3); auto.
    apply passed_iff.
    set (edges := match source with _ => match assoc (s! "e") ((s! "v", VStr vs) :: m) with Some (VArr l) => l | Some v => [v] | None => [VObj []] end end).
    exists status, said, schema, (d_raw e2 ++ t2), (match assoc (s! "e") ((s! "v", VStr vs) :: m) with Some v => v | None => VObj [] end), (d_saider c), e2, secs, own, (s! "iss"), edges, [said], [said].
    assert (field_of (d_ked c) (s! "i") (VStr issuer)) as FI by (rewrite CK; apply field_assoc; exact CI).
    assert (creder_chains c = Ok (match assoc (s! "e") ((s! "v", VStr vs) :: m) with Some v => v | None => VObj [] end)) as CHN by (unfold creder_chains; rewrite CK; reflexivity).
    assert (Forall (fun x => exists m, x = VObj m) edges /\ match (match assoc (s! "e") ((s! "v", VStr vs) :: m) with Some v => v | None => VObj [] end) with VObj _ => edges = [match assoc (s! "e") ((s! "v", VStr vs) :: m) with Some v => v | None => VObj [] end] | VArr l => edges = l | _ => False end) as (FO & EM).
    { subst edges. rewrite CK in SEC. destruct SEC as [LK|[(mm & F)|(ll & F & FA)]].
      - assert (assoc (s! "e") ((s! "v", VStr vs) :: m) = None) as ->. { destruct (assoc (s! "e") ((s! "v", VStr vs) :: m)) as [x|] eqn:AE; auto. exfalso. apply (LK x). now apply field_assoc. }
        split; auto. constructor; eauto.
      - apply field_assoc in F. rewrite F. split; auto. constructor; eauto.
      - apply field_assoc in F. rewrite F. split; auto. }
    split; auto.
    + unfold creder_status. rewrite CK. cbn [to_map]. rewrite bind_Ok. cbn [assoc]. change (beq (s! "v") (s! "ri")) with false. cbv iota. rewrite CRI. reflexivity.
    + unfold creder_schema. assert (index_str (d_ked c) (s! "s") = Ok (VStr schema)) as -> by (apply index_field; rewrite CK; apply field_assoc; exact CS). reflexivity.
    + apply SadderFacts.said_text. split; auto. rewrite CC. cbn. auto 8.
    + cbn [view get_latest_transaction_event]. rewrite LT2. reflexivity.
    + exists (snd now). split; [unfold text_at; rewrite K2; reflexivity|auto].
    + split; [unfold text_at; rewrite K2; reflexivity|]. cbn. intuition discriminate.
    + split; auto. unfold from_utf8. destruct (cread_facts _ _ B3) as (-> & _). reflexivity.
    + destruct (keyset_signs _ _ _ _ _ _ _ CR KO KV SG) as (vs3 & F3 & TX3 & LK3 & CG). destruct (FollowThms.keys_read _ _ _ _ SK TX3 LK3) as (tt3 & SK3 & SAT).
      eapply (path_intro canon hash cr mo (S fuel) (view canon l2) c _ [said] issuer en etext ee esaid vs3 tt3); eauto.
      * cbn [view get_key_event]. change (l_kel l2 issuer) with (l_kel l1 issuer). rewrite LK1. unfold at_sn in *. rewrite nth_error_app1; [exact AT|]. unfold len in JL. lia.
      * cbn [sp_sigers]. apply (NoDup_of_map i_index). rewrite IXS. apply upto_NoDup.
    + apply (edges_intro canon hash cr mo sc age (S fuel) l2 issuer c _ edges FI CHN FO EM). intros node HN. exact (ED node HN).
    + unfold there_of. cbn [view get_acdc]. change (l_acdc l2) with (l_acdc l). destruct (not_held _ _ _ UH) as (x & ->). reflexivity.
  - exact CT1.
  - exists rtext, reg, rr. auto.
  - exists (d_raw c ++ t3). cbn [view get_acdc]. change (l_acdc l3) with (l_acdc l ++ [d_raw c ++ t3]). assert (creder_with_raw canon (d_raw c ++ t3) = Ok c) as B3' by now apply (read_on_creder canon (d_raw c)).
    split; auto. rewrite last_of_snoc. unfold names. rewrite B3', SD, beq_refl. reflexivity.
Qed.

(*# C143_revocation_accepted
   What revoke_acdc makes for the issuer is accepted: the interaction that anchors the revocation, then the revocation. Afterwards no credential with this identifier is, whatever is attached to it.
##
Example C143_case : controls no_floats mix toy ledger2 pre0 keys0 /\ owns no_floats ledger2 pre0 rpre0 /\ (exists p, prefixer_with_qb64 mix said_i = Ok p) /\
  revoke_acdc no_floats mix toy time0 (s! "m") no_rng (purse no_floats owner_keys ledger2) rpre0 pre0 said_i = Ok revoked_texts /\
  fst revoked_texts = d_raw e_v1 ++ attached e_v1 (fst revoked_texts) /\ snd revoked_texts = d_raw e_v2 ++ attached e_v2 (snd revoked_texts) /\
  written g_v1 (attached e_v1 (fst revoked_texts)) /\ written g_v2 (attached e_v2 (snd revoked_texts)) /\ Forall readable [e_v1; e_v2] /\
  carried parcel parcel_text (d_raw e_v1) g_v1 (attached e_v1 (fst revoked_texts)) /\ carried parcel parcel_text (d_raw e_v2) g_v2 (attached e_v2 (snd revoked_texts)).
Proof.
  split; [exact controls2|]. split; [exact owns2|]. split; [eexists; vm_compute; reflexivity|]. split; [exact revoke_done|].
  destruct all_parts as (_ & _ & _ & _ & _ & P1 & P2). split; [exact P1|]. split; [exact P2|]. destruct more_written as (_ & _ & W1 & W2). split; [exact W1|]. split; [exact W2|].
  pose proof all_readable as R. rewrite Forall_forall in R. split; [apply Forall_forall; intros e [<-|[<-|[]]]; apply R; cbn; tauto|]. destruct all_carried as (_ & _ & _ & _ & _ & C1 & C2). auto.
Qed.
#*)
Lemma C143_l (canon : bytes -> option bytes) (hash : bytes -> bytes -> bytes) (cr : crypto) (keys : bytes -> R keyset) (l : ledger) (k : keyset) (now nonce : bytes) (rng : N -> bytes)
    (status issuer said ixn rev : bytes) (p : matter) :
  correct cr -> sized_hash hash -> controls canon hash cr l issuer k -> keys issuer = Ok k -> owns canon l issuer status -> len (l_kel l issuer) < 2 ^ 32 -> prefixer_with_qb64 hash said = Ok p ->
  revoke_acdc canon hash cr now nonce rng (purse canon keys l) status issuer said = Ok (ixn, rev) -> len ixn < 2 ^ 32 ->
  exists e1 g1 t1 e2 g2 t2, ixn = d_raw e1 ++ t1 /\ written g1 t1 /\ rev = d_raw e2 ++ t2 /\ written g2 t2 /\
    forall messages_of group_text schema_check age seen_said fuel verify,
    readable e1 -> readable e2 -> textual group_text -> carried messages_of group_text (d_raw e1) g1 t1 -> carried messages_of group_text (d_raw e2) g2 t2 -> verify <> Some false ->
    let l1 := insert_key_event l issuer ixn in let l2 := insert_transaction_event l1 said rev in
    ingest_messages canon hash cr messages_of group_text schema_check age seen_said (S (S fuel)) l ixn (Some false) verify = (l1, Ok tt) /\
    ingest_messages canon hash cr messages_of group_text schema_check age seen_said (S (S fuel)) l1 rev (Some false) verify = (l2, Ok tt) /\
    controls canon hash cr l2 issuer k /\ owns canon l2 issuer status /\
    forall c f g deep seen r, sad_said c = Ok said -> verify_acdc canon hash cr messages_of schema_check age f (view canon l2) c g deep seen <> Ok r.
Proof.
  intros CR SH CT KI OW LB PS H LX. unfold revoke_acdc in H. cbn [purse w_count w_said w_keys w_tel] in H. rewrite bind_Ok in H. destruct (l_tel l said) as [|prior [|]] eqn:TE; try discriminate.
  bok H pe PE. bok H psaid PSD. bok H is IS. destruct is as (own, istext). cbn [fst snd] in H. rewrite bind_Ok in H. bok H dig DG. bok H key_set KSS. assert (key_set = k) as -> by congruence.
  bok H ix IX. destruct ix as (xs, xt). cbn [fst snd] in H. bok H it IT. injection H as -> ->.
  destruct (revoke_shape _ _ _ _ _ _ _ _ _ SH IS) as (e2 & vs2 & -> & U2 & (R1 & R2 & R3 & R4) & SV2 & K2).
  destruct (interaction_taken canon hash cr rng l issuer k dig _ _ _ _ CR SH CT eq_refl LB DG IX LX) as (e1 & sigs1 & t1 & -> & W1 & SD1 & X1 & A1 & P1 & TY1 & G1).
  destruct (place_written _ _ _ (d_saider e1) _ IT LB SD1) as (sq2 & t2 & -> & W2 & SQ2).
  exists e1, (GQuadlets [GSigs sigs1]), t1, e2, (GSources [(sq2, d_saider e1)]), t2.
  split; auto. split; auto. split; auto. split; auto.
  intros mo gt sc age seen fuel verify RD1 (D2 & N2 & L2) TX (M1 & GT1) (M2 & GT2) NV l1 l2.
  destruct (G1 RD1) as (B1 & CT1 & T1). clear G1. pose proof (back _ _ R4 D2 N2 L2) as B2. pose proof (TX _ _ GT1) as UT1. pose proof (TX _ _ GT2) as UT2. specialize (CT1 UT1).
  destruct OW as (rtext & reg & rr & RT & RR & RI).
  assert (serder_with_raw canon (d_raw e2 ++ t2) = Ok e2) as B2' by now apply (read_on canon (d_raw e2)).
  assert (serder_with_raw canon (d_raw e1 ++ t1) = Ok e1) as B1' by now apply (read_on canon (d_raw e1)).
  assert (text_at (d_ked e2) (s! "t") = Ok (s! "rev")) as TY2 by (unfold text_at; rewrite K2; reflexivity).
  split; [unfold ingest_messages; rewrite M1; apply T1; auto; discriminate|].
  assert (l_kel l1 issuer = l_kel l issuer ++ [d_raw e1 ++ t1]) as LK1 by (cbn; unfold added; now rewrite beq_refl).
  split; [|split; [|split]].
  - unfold ingest_messages. rewrite M2. eapply (take_tel canon hash cr mo gt sc age seen (S (S fuel)) (Some false) verify l1 e2 (sq2, d_saider e1) said own (s! "rev") t2); eauto.
    + unfold serder_pre. rewrite K2. reflexivity.
    + cbn. auto.
    + eapply (revoke_taken canon hash cr mo (S fuel) (view canon l1) e2 vs2 own said status psaid now nonce sq2 (d_saider e1) [own] _ (d_raw e1 ++ t1) e1 xs issuer reg rtext pe prior); eauto.
      * cbn. now rewrite TE.
      * cbn. now rewrite TE.
      * cbn. unfold at_sn. now rewrite RT.
      * cbn [view get_key_event]. rewrite LK1. now apply at_last.
  - exact CT1.
  - destruct (beq status said) eqn:B.
    + exists rtext, reg, (rr ++ [d_raw e2 ++ t2]). split; auto. cbn. unfold added. rewrite B, RT. reflexivity.
    + exists rtext, reg, rr. split; auto. cbn. unfold added. now rewrite B.
  - intros c [|f] g deep seen0 (there, sn) SC V; [discriminate|]. apply passed_iff in V as (st & vcid & sch & event & prov & saider & state & secs & ssaid & t & edges & seen1 & seen2 & V).
    pose proof (c_vcid _ _ _ _ _ _ _ _ _ _ _ _ _ _ _ _ _ _ _ _ _ _ _ _ _ _ _ V) as V1.
    assert (vcid = said) as -> by congruence. pose proof (c_event _ _ _ _ _ _ _ _ _ _ _ _ _ _ _ _ _ _ _ _ _ _ _ _ _ _ _ V) as V2.
    cbn [view get_latest_transaction_event] in V2. change (l_tel l2 said) with (added (l_tel l) said (d_raw e2 ++ t2) said) in V2. unfold added in V2. rewrite beq_refl, last_of_snoc in V2. injection V2 as <-.
    pose proof (c_state _ _ _ _ _ _ _ _ _ _ _ _ _ _ _ _ _ _ _ _ _ _ _ _ _ _ _ V) as V3. rewrite B2' in V3. injection V3 as <-.
    destruct (c_type _ _ _ _ _ _ _ _ _ _ _ _ _ _ _ _ _ _ _ _ _ _ _ _ _ _ _ V) as (V4 & V5). rewrite TY2 in V4. injection V4 as <-. apply V5. now left.
Qed.

(*# C144_registry_accepted
   The inception of a registry, anchored by an interaction of its owner and followed by the place of this interaction, is accepted, and the owner owns the registry.
##
Example C144_case : controls no_floats mix toy ledger0 pre0 keys0 /\ l_tel ledger0 rpre0 = [] /\ registry_incept no_floats mix pre0 = Ok (rpre0, d_raw e_r2) /\
  w_said (purse no_floats (fun _ => Ok keys0) ledger0) pre0 = Ok (got [] (sad_said event0)) /\
  do_interact mix toy no_floats no_rng keys0 pre0 (got [] (sad_said event0)) (len (l_kel ledger0 pre0)) (one_seal rpre0 (s! "0") rpre0) = Ok anchor_text1 /\
  anchored_text (d_raw e_r2) (len (l_kel ledger0 pre0)) (fst anchor_text1) = Ok registry_text /\
  written g_r1 (attached e_r1 (snd anchor_text1)) /\ written g_r2 (attached e_r2 registry_text) /\ Forall readable [e_r1; e_r2] /\
  carried parcel parcel_text (d_raw e_r1) g_r1 (attached e_r1 (snd anchor_text1)) /\ carried parcel parcel_text (d_raw e_r2) g_r2 (attached e_r2 registry_text).
Proof.
  destruct registry_done as (D1 & D2 & D3). split; [exact controls0|]. split; [reflexivity|]. split; [exact D1|]. split; [vm_compute; reflexivity|].
  assert (len (l_kel ledger0 pre0) = 1) as -> by (vm_compute; reflexivity). split; [exact D2|]. split; [exact D3|]. destruct more_written as (W1 & W2 & _). split; [exact W1|]. split; [exact W2|].
  pose proof all_readable as R. rewrite Forall_forall in R. split; [apply Forall_forall; intros e [<-|[<-|[]]]; apply R; cbn; tauto|]. destruct all_carried as (C1 & C2 & _). auto.
Qed.
#*)
Lemma C144_l (canon : bytes -> option bytes) (hash : bytes -> bytes -> bytes) (cr : crypto) (l : ledger) (k : keyset) (rng : N -> bytes) (owner dig registry event anchor ixn text : bytes) :
  correct cr -> sized_hash hash -> controls canon hash cr l owner k -> len (l_kel l owner) < 2 ^ 32 -> l_tel l registry = [] ->
  registry_incept canon hash owner = Ok (registry, event) -> w_said (purse canon (fun _ => Ok k) l) owner = Ok dig ->
  do_interact hash cr canon rng k owner dig (len (l_kel l owner)) (one_seal registry (s! "0") registry) = Ok (anchor, ixn) ->
  anchored_text event (len (l_kel l owner)) anchor = Ok text -> len ixn < 2 ^ 32 ->
  exists e1 g1 t1 e2 g2 t2, ixn = d_raw e1 ++ t1 /\ written g1 t1 /\ text = d_raw e2 ++ t2 /\ written g2 t2 /\
    forall messages_of group_text schema_check age seen_said fuel verify,
    readable e1 -> readable e2 -> textual group_text -> carried messages_of group_text (d_raw e1) g1 t1 -> carried messages_of group_text (d_raw e2) g2 t2 -> verify <> Some false ->
    let l1 := insert_key_event l owner ixn in let l2 := insert_transaction_event l1 registry text in
    ingest_messages canon hash cr messages_of group_text schema_check age seen_said (S (S fuel)) l ixn (Some false) verify = (l1, Ok tt) /\
    ingest_messages canon hash cr messages_of group_text schema_check age seen_said (S (S fuel)) l1 text (Some false) verify = (l2, Ok tt) /\
    controls canon hash cr l2 owner k /\ owns canon l2 owner registry.
Proof.
  intros CR SH CT LB TE IS DG IX IT LX. cbn [purse w_said] in DG.
  destruct (registry_shape _ _ _ _ _ SH IS) as (e2 & vs2 & p & -> & U2 & (R1 & R2 & R3 & R4) & PX & PV & K2).
  destruct (interaction_taken canon hash cr rng l owner k dig _ _ _ _ CR SH CT eq_refl LB DG IX LX) as (e1 & sigs1 & t1 & -> & W1 & SD1 & X1 & A1 & P1 & TY1 & G1).
  destruct (place_written _ _ _ (d_saider e1) _ IT LB SD1) as (sq2 & t2 & -> & W2 & SQ2).
  exists e1, (GQuadlets [GSigs sigs1]), t1, e2, (GSources [(sq2, d_saider e1)]), t2.
  split; auto. split; auto. split; auto. split; auto.
  intros mo gt sc age seen fuel verify RD1 (D2 & N2 & L2) TX (M1 & GT1) (M2 & GT2) NV l1 l2.
  destruct (G1 RD1) as (B1 & CT1 & T1). clear G1. pose proof (back _ _ R4 D2 N2 L2) as B2. pose proof (TX _ _ GT1) as UT1. pose proof (TX _ _ GT2) as UT2. specialize (CT1 UT1).
  assert (serder_with_raw canon (d_raw e2 ++ t2) = Ok e2) as B2' by now apply (read_on canon (d_raw e2)).
  assert (serder_with_raw canon (d_raw e1 ++ t1) = Ok e1) as B1' by now apply (read_on canon (d_raw e1)).
  split; [unfold ingest_messages; rewrite M1; apply T1; auto; discriminate|].
  assert (l_kel l1 owner = l_kel l owner ++ [d_raw e1 ++ t1]) as LK1 by (cbn; unfold added; now rewrite beq_refl).
  split; [|split].
  - unfold ingest_messages. rewrite M2. eapply (take_tel canon hash cr mo gt sc age seen (S (S fuel)) (Some false) verify l1 e2 (sq2, d_saider e1) registry registry (s! "vcp") t2); eauto.
    + unfold serder_pre. rewrite K2. reflexivity.
    + unfold text_at. rewrite K2. reflexivity.
    + cbn. auto.
    + eapply (registry_taken canon hash cr mo (S fuel) (view canon l1) e2 vs2 registry owner p sq2 (d_saider e1) [registry] _ (d_raw e1 ++ t1) e1 anchor); eauto.
      * cbn. now rewrite TE.
      * cbn [view get_key_event]. rewrite LK1. now apply at_last.
  - exact CT1.
  - exists (d_raw e2 ++ t2), e2, []. split; [cbn; unfold added; now rewrite beq_refl, TE|]. split; auto. rewrite K2. apply field_assoc. reflexivity.
Qed.
