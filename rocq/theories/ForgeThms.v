(** Property C132, continued: anyone can forge credentials. *)
From Coq Require Import String.
From Coq Require Import NArith ZArith QArith Bool List Lia.
From Verif Require Import Base Util Tables Matter Indexer Counter Prims Json Tholder Common Saider Diger Sadder Signer Prefixer Pather Messaging Short Verify Ingest Events Issue.
From Verif Require Import Spec SpecPrims SpecJson SpecCommon SpecTholder SpecSaider SpecSadder SpecPrefixer SpecSigner SpecLog SpecIngest SpecCred SpecBuild SpecIssue SpecForge World.
From Verif Require Import BaseFacts UtilFacts MatterFacts MatterText PrimsFacts PrimsThms JsonFacts SadderFacts SadderThms SaiderThms VerifyFacts VerifyThms LogThms IngestThms CredThms FollowFacts FollowThms LifeThms IssueFacts IssueThms.
Import ListNotations.
Open Scope N_scope.

(*# C132_anyone_forges
   It is false of every issuer that only they can make credentials that name them. Take any ledger and anyone who controls an identifier there and owns a registry. They make a credential that names anyone as its
   issuer and any registry, anchor its issuance in their own registry, and sign it with their own keys: the anchor, the issuance and the credential are taken in, with verification on, and the credential is held,
   with the issuer and the registry it names. Nothing at all is asked of these: the ledger may know them, and all they ever did, or not.
##
Example C132_forge_case : correct toy /\ sized_hash mix /\ controls no_floats mix toy ledger1 pre0 keys0 /\ owner_keys pre0 = Ok keys0 /\ owns no_floats ledger1 pre0 rpre0 /\ pre_m <> pre0 /\ l_kel ledger1 pre_m = [] /\
  exists said ixn iss signed, forge no_floats mix toy (time0, time0) ([], []) (s! "n") no_rng no_rng (purse no_floats owner_keys ledger1) rpre0 pre0 pre_m rpre_m (s! "schema") (VObj [(s! "name", VStr (s! "x"))]) None None None None =
    Ok (said, ixn, iss, signed) /\ l_tel ledger1 said = [] /\ unheld no_floats ledger1 said /\ len ixn < 2 ^ 32 /\ len signed < 2 ^ 32.
Proof.
  split; [exact toy_correct|]. split; [exact mix_sized|]. split; [exact controls1|]. split; [reflexivity|]. split; [exact owns1|]. split; [vm_compute; discriminate|]. split; [vm_compute; reflexivity|].
  assert (is_ok (forge no_floats mix toy (time0, time0) ([], []) (s! "n") no_rng no_rng (purse no_floats owner_keys ledger1) rpre0 pre0 pre_m rpre_m (s! "schema") (VObj [(s! "name", VStr (s! "x"))]) None None None None) = true /\
    match forge no_floats mix toy (time0, time0) ([], []) (s! "n") no_rng no_rng (purse no_floats owner_keys ledger1) rpre0 pre0 pre_m rpre_m (s! "schema") (VObj [(s! "name", VStr (s! "x"))]) None None None None with
    | Ok (said, ixn, iss, signed) => match l_tel ledger1 said with [] => (len ixn <? 2 ^ 32) && (len signed <? 2 ^ 32) | _ => false end | _ => false end = true) as (A & B) by (split; vm_compute; reflexivity).
  destruct (forge no_floats mix toy (time0, time0) ([], []) (s! "n") no_rng no_rng (purse no_floats owner_keys ledger1) rpre0 pre0 pre_m rpre_m (s! "schema") (VObj [(s! "name", VStr (s! "x"))]) None None None None) as [(((said, ixn), iss), signed)| |]; try discriminate A.
  exists said, ixn, iss, signed. split; [reflexivity|]. destruct (l_tel ledger1 said); [|discriminate B]. apply andb_true_iff in B as (B1 & B2). split; [reflexivity|]. split; [intros t e []|]. split; apply N.ltb_lt; assumption.
Qed.
#*)
Lemma C132_forge_l (canon : bytes -> option bytes) (hash : bytes -> bytes -> bytes) (cr : crypto) (keys : bytes -> R keyset) (l : ledger) (k : keyset) (now salts : bytes * bytes) (nonce : bytes) (rng1 rng2 : N -> bytes)
    (mine forger named registry schema : bytes) (data : value) (recipient : option bytes) (private : option bool) (source rules : option value) (said ixn iss signed : bytes) :
  correct cr -> sized_hash hash -> controls canon hash cr l forger k -> keys forger = Ok k -> owns canon l forger mine -> len (l_kel l forger) < 2 ^ 32 ->
  forge canon hash cr now salts nonce rng1 rng2 (purse canon keys l) mine forger named registry schema data recipient private source rules = Ok (said, ixn, iss, signed) ->
  l_tel l said = [] -> unheld canon l said -> len ixn < 2 ^ 32 -> len signed < 2 ^ 32 ->
  exists e1 g1 t1 e2 g2 t2 c g3 t3, ixn = d_raw e1 ++ t1 /\ written g1 t1 /\ iss = d_raw e2 ++ t2 /\ written g2 t2 /\ signed = d_raw c ++ t3 /\ written g3 t3 /\ sad_said c = Ok said /\
    field_of (d_ked c) (s! "i") (VStr named) /\ field_of (d_ked c) (s! "ri") (VStr registry) /\
    forall messages_of group_text schema_check age seen_said fuel verify secs,
    readable e1 -> readable e2 -> readable c -> sectioned (d_ked c) -> (forall node, edge (d_ked c) node -> edge_fits canon schema_check l named node) -> schema_check schema (d_raw c) = Ok true ->
    age (snd now) = Ok secs -> (secs <= 36000000000)%Z -> textual group_text ->
    carried messages_of group_text (d_raw e1) g1 t1 -> carried messages_of group_text (d_raw e2) g2 t2 -> carried messages_of group_text (d_raw c) g3 t3 -> verify <> Some false ->
    let l1 := insert_key_event l forger ixn in let l2 := insert_transaction_event l1 said iss in let l3 := insert_acdc l2 signed in
    ingest_messages canon hash cr messages_of group_text schema_check age seen_said (S (S fuel)) l ixn (Some false) verify = (l1, Ok tt) /\
    ingest_messages canon hash cr messages_of group_text schema_check age seen_said (S (S fuel)) l1 iss (Some false) verify = (l2, Ok tt) /\
    ingest_messages canon hash cr messages_of group_text schema_check age seen_said (S (S fuel)) l2 signed (Some false) verify = (l3, Ok tt) /\
    held canon (view canon l3) said c.
Proof.
  intros CR SH CT KI OW LB H TE UH LX LS. pose proof CT as ((p & PX & PI) & KO & _). unfold forge in H. bok H c C. bok H said0 SD. bok H is IS. destruct is as (own, istext). cbn [fst snd] in H.
  cbn [purse w_count w_said w_keys w_tel] in H. rewrite bind_Ok in H. bok H dig DG. bok H key_set KSS. assert (key_set = k) as -> by congruence. bok H sg SG. bok H ix IX. destruct ix as (xs, xt). cbn [fst snd] in H.
  bok H it IT. bok H est EST. destruct est as (esaid, en). cbn [fst snd] in H. bok H sq SQ. bok H proof PR. bok H stx STX. injection H as -> -> -> ->.
  destruct (create_shape _ _ _ _ _ _ _ _ _ _ _ _ _ SH C) as (vs & m & t & CK & CRI & CS & CI & CE & CSD & CX & CC & CSV & CA). rewrite SD in CSD. injection CSD as <-.
  destruct (issue_shape _ _ _ _ _ _ _ _ SH IS) as (e2 & vs2 & -> & U2 & (R1 & R2 & R3 & R4) & SV2 & K2).
  destruct (interaction_taken canon hash cr rng2 l forger k dig _ _ _ _ CR SH CT eq_refl LB DG IX LX) as (e1 & sigs1 & t1 & -> & W1 & SD1 & X1 & A1 & P1 & TY1 & G1).
  destruct (place_written _ _ _ (d_saider e1) _ IT LB SD1) as (sq2 & t2 & -> & W2 & SQ2).
  destruct (controls_place canon hash cr keys l forger k CT) as (etext & ee & kk & j & esaid' & [(EP & JL & AT & RE & SE & KV & SK)|NO]). 2:{ destruct (NO _ EST). }
  rewrite EST in EP. injection EP as <- <-.
  assert (en < 2 ^ 32) as EB by lia. pose proof (seqner_back _ _ SQ EB) as SQN.
  destruct (keyset_indices _ _ _ _ _ _ _ CR KO KV SG) as (IXS & LSG). assert (len sg < 2 ^ 32) as LSG' by (change (2 ^ 32) with 4294967296; lia).
  destruct (path_written forger sq esaid sg proof c _ p (d_saider ee) PR STX PI SE LSG' LS) as (pa & t3 & -> & W3 & BX).
  exists e1, (GQuadlets [GSigs sigs1]), t1, e2, (GSources [(sq2, d_saider e1)]), t2, c, (GQuadlets [GPaths [Sps pa p sq (d_saider ee) (map fst sg)]]), t3.
  split; auto. split; auto. split; auto. split; auto. split; auto. split; auto. split; auto. split; [rewrite CK; apply field_assoc; exact CI|]. split; [rewrite CK; apply field_assoc; exact CRI|].
  intros mo gt sc age seen fuel verify secs RD1 (D2 & N2 & L2) (D3 & N3 & L3) SEC ED SCH AGE AL TX (M1 & GT1) (M2 & GT2) (M3 & GT3) NV l1 l2 l3.
  destruct (G1 RD1) as (B1 & CT1 & T1). clear G1. pose proof (back _ _ R4 D2 N2 L2) as B2. pose proof (cback _ _ CA D3 N3 L3) as B3.
  pose proof (TX _ _ GT1) as UT1. pose proof (TX _ _ GT2) as UT2. pose proof (TX _ _ GT3) as UT3. specialize (CT1 UT1).
  destruct OW as (rtext & reg & rr & RT & RR & RI). assert (beq mine said = false) as NS by (eapply tel_said; [exists rtext, reg, rr; eauto|exact TE]).
  assert (beq said mine = false) as NS' by (destruct (beq said mine) eqn:B; auto; apply beq_eq in B; subst; now rewrite beq_refl in NS).
  assert (l_tel l2 said = [d_raw e2 ++ t2]) as LT2 by (cbn; unfold added; rewrite beq_refl, TE; reflexivity).
  assert (l_tel l2 mine = rtext :: rr) as LT2s by (cbn; unfold added; rewrite NS; exact RT).
  assert (serder_with_raw canon (d_raw e2 ++ t2) = Ok e2) as B2' by now apply (read_on canon (d_raw e2)).
  assert (serder_with_raw canon (d_raw e1 ++ t1) = Ok e1) as B1' by now apply (read_on canon (d_raw e1)).
  split; [unfold ingest_messages; rewrite M1; apply T1; auto; discriminate|].
  assert (l_kel l1 forger = l_kel l forger ++ [d_raw e1 ++ t1]) as LK1 by (cbn; unfold added; now rewrite beq_refl).
  split.
  { unfold ingest_messages. rewrite M2. eapply (take_tel canon hash cr mo gt sc age seen (S (S fuel)) (Some false) verify l1 e2 (sq2, d_saider e1) said own (s! "iss") t2); eauto.
    - unfold serder_pre. rewrite K2. reflexivity.
    - unfold text_at. rewrite K2. reflexivity.
    - cbn. auto.
    - eapply (issue_taken canon hash cr mo (S fuel) (view canon l1) e2 vs2 own said mine (snd now) nonce sq2 (d_saider e1) [own] _ (d_raw e1 ++ t1) e1 xs forger reg rtext); eauto.
      + cbn. now rewrite TE.
      + cbn. unfold at_sn. now rewrite RT.
      + cbn [view get_key_event]. rewrite LK1. now apply at_last. }
  split.
  - unfold ingest_messages. rewrite M3. apply (take_acdc canon hash cr mo gt sc age seen (S (S fuel)) (Some false) verify l2 c [GPaths [Sps pa p sq (d_saider ee) (map fst sg)]] said t3); auto.
    apply passed_iff.
    set (edges := match source with _ => match assoc (s! "e") ((s! "v", VStr vs) :: m) with Some (VArr l) => l | Some v => [v] | None => [VObj []] end end).
    exists registry, said, schema, (d_raw e2 ++ t2), (match assoc (s! "e") ((s! "v", VStr vs) :: m) with Some v => v | None => VObj [] end), (d_saider c), e2, secs, own, (s! "iss"), edges, [said], [said].
    assert (field_of (d_ked c) (s! "i") (VStr named)) as FI by (rewrite CK; apply field_assoc; exact CI).
    assert (creder_chains c = Ok (match assoc (s! "e") ((s! "v", VStr vs) :: m) with Some v => v | None => VObj [] end)) as CHN by (unfold creder_chains; rewrite CK; reflexivity).
    assert (Forall (fun x => exists m, x = VObj m) edges /\ match (match assoc (s! "e") ((s! "v", VStr vs) :: m) with Some v => v | None => VObj [] end) with VObj _ => edges = [match assoc (s! "e") ((s! "v", VStr vs) :: m) with Some v => v | None => VObj [] end] | VArr l => edges = l | _ => False end) as (FO & EM).
    { subst edges. rewrite CK in SEC. destruct SEC as [LK|[(mm & F)|(ll & F & FA)]].
      - assert (assoc (s! "e") ((s! "v", VStr vs) :: m) = None) as ->. { destruct (assoc (s! "e") ((s! "v", VStr vs) :: m)) as [x|] eqn:AE; auto. exfalso. apply (LK x). now apply field_assoc. }
        split; auto. constructor; eauto.
      - apply field_assoc in F. rewrite F. split; auto. constructor; eauto.
      - apply field_assoc in F. rewrite F. split; auto. }
    split; auto.
    + unfold creder_status. rewrite CK. cbn [to_map]. rewrite bind_Ok. cbn [assoc]. change (beq (s! "v") (s! "ri")) with false. cbv iota. rewrite CRI. reflexivity.
    + unfold creder_schema. assert (index_str (d_ked c) (s! "s") = Ok (VStr schema)) as -> by (apply index_field; rewrite CK; apply field_assoc; exact CS). reflexivity.
    + apply SadderFacts.said_text. split; auto. rewrite CC. cbn. auto 8.
    + cbn [view get_latest_transaction_event]. rewrite LT2. reflexivity.
    + exists (snd now). split; [unfold text_at; rewrite K2; reflexivity|auto].
    + split; [unfold text_at; rewrite K2; reflexivity|]. cbn. intuition discriminate.
    + split; auto. unfold from_utf8. destruct (cread_facts _ _ B3) as (-> & _). reflexivity.
    + destruct (keyset_signs _ _ _ _ _ _ _ CR KO KV SG) as (vs3 & F3 & TX3 & LK3 & CG). destruct (FollowThms.keys_read _ _ _ _ SK TX3 LK3) as (tt3 & SK3 & SAT).
      eapply (path_intro canon hash cr mo (S fuel) (view canon l2) c _ [said] forger en etext ee esaid vs3 tt3); eauto.
      * cbn [view get_key_event]. change (l_kel l2 forger) with (l_kel l1 forger). rewrite LK1. unfold at_sn in *. rewrite nth_error_app1; [exact AT|]. unfold len in JL. lia.
      * cbn [sp_sigers]. apply (NoDup_of_map i_index). rewrite IXS. apply upto_NoDup.
    + apply (edges_intro canon hash cr mo sc age (S fuel) l2 named c _ edges FI CHN FO EM). intros node HN. exact (ED node HN).
    + unfold there_of. cbn [view get_acdc]. change (l_acdc l2) with (l_acdc l). destruct (not_held _ _ _ UH) as (x & ->). reflexivity.
  - exists (d_raw c ++ t3). cbn [view get_acdc]. change (l_acdc l3) with (l_acdc l ++ [d_raw c ++ t3]). assert (creder_with_raw canon (d_raw c ++ t3) = Ok c) as B3' by now apply (read_on_creder canon (d_raw c)).
    split; auto. rewrite last_of_snoc. unfold names. rewrite B3', SD, beq_refl. reflexivity.
Qed.

