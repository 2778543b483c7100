(** Proofs of the theorems on which key and registry events are accepted. *)
From Coq Require Import String.
From Coq Require Import NArith ZArith QArith Bool List Lia.
From Verif Require Import Base Tables Matter Indexer Prims Json Tholder Common Saider Diger Sadder Signer Prefixer Pather Short Verify Ingest Events.
From Verif Require Import Spec SpecPrims SpecJson SpecCommon SpecTholder SpecSaider SpecSadder SpecPrefixer SpecSigner SpecLog SpecIngest SpecCred SpecExtra SpecEndorse SpecExact World Forgery Chain.
From Verif Require Import BaseFacts MatterFacts MatterText PrimsFacts SaiderFacts SaiderThms CommonFacts PrefixerThms MatterThms ShortThms StaleThms SadderFacts SadderThms TholderFacts TholderThms VerifyFacts VerifyThms ExtraFacts LogThms IngestThms CredThms ChainThms EndorseThms.
Import ListNotations.
Open Scope N_scope.

(** ** Key events *)
Lemma governing_iff canon st e pre n ks t ilk : of_type (d_ked e) ilk -> In ilk establishing \/ 1 <= asked_for n -> (keys_for canon st e pre n = Ok (ks, t) <-> governing canon st pre n e ks t).
Proof.
  intros T L. split; [intros H; now apply (governing_keys _ _ _ _ _ _ _ _ T H)|]. intros (ilk' & e' & T' & D & V & TH). rewrite (type_once _ _ _ T' T) in *. clear T' ilk'.
  assert (signing_keys canon e' = Ok (ks, t)) as SK by (unfold signing_keys; now rewrite TH, bind_Ok, V, bind_Ok). unfold keys_for.
  destruct D as [(I & ->)|(I & text & G & S)].
  - assert (serder_est e = Ok true) as ->; [|rewrite bind_Ok; exact SK]. apply est_field. exists ilk. split; auto. tauto.
  - assert (serder_est e = Ok false) as ->. { apply est_field. exists ilk. split; auto. split; [discriminate|contradiction]. }
    rewrite bind_Ok. assert (before n = Ok (asked_for n - 1)) as -> by (apply before_ok; destruct L; [contradiction|auto]). rewrite bind_Ok, G, bind_Ok, S, bind_Ok. exact SK.
Qed.
Lemma answered_below cr ks raw sigs : Forall (answered cr ks raw) sigs -> Forall (fun x => i_index x < len ks) sigs.
Proof. apply Forall_impl. intros x (v & b & V & _). assert (N.to_nat (i_index x) < length ks)%nat by (apply nth_error_Some; congruence). unfold len. lia. Qed.
Lemma groups_found cr ks raw g found : check_groups cr ks raw g = Ok found <->
  exists sigs good, attached g sigs /\ Forall (answered cr ks raw) sigs /\ those (verifies cr ks raw) sigs good /\ found = map (fun x => (i_index x, i_ondex x)) good.
Proof.
  split.
  - intros H. apply groups_ok in H as (G & H). apply check_iff in H as (F & ->). exists (all_sigs g), (filter (okb cr ks raw) (all_sigs g)). split; [now apply attached_all|]. split; [exact F|]. split; [apply filter_is, okb_verifies|reflexivity].
  - intros (sigs & good & A & F & T & ->). pose proof (attached_sigs _ _ A) as ->. assert (good = filter (okb cr ks raw) (all_sigs g)) as -> by (apply (those_filter _ (okb cr ks raw)) in T; auto; apply okb_verifies).
    assert (check_sigs cr ks raw (all_sigs g) = Ok (map (fun x => (i_index x, i_ondex x)) (filter (okb cr ks raw) (all_sigs g)))) as C by (apply check_iff; auto).
    assert (check_groups cr ks raw g = check_sigs cr ks raw (all_sigs g)) as ->; [|exact C]. destruct A as (ls & -> & _). clear. induction ls as [|l ls IH]; cbn [map check_groups all_sigs]; [reflexivity|]. rewrite IH, sigs_app. reflexivity.
Qed.
Lemma revealed_iff hash ks ds good l : sized_hash hash -> Forall (fun v => exists t, exfil t = Ok v) ds ->
  (revealed hash ks ds (map (fun x => (i_index x, i_ondex x)) good) = Ok l <-> Forall (comparable ks ds) good /\ exists shown, those (reveals hash ks ds) good shown /\ l = map i_ondex shown).
Proof.
  intros SH RD. split.
  - intros H. split; [|now apply (revealed_ok hash ks ds good l)]. revert l H. induction good as [|x r IH]; intros l H; [constructor|]. cbn [map revealed] in H. apply bind_ok in H as (same & S & H). apply bind_ok in H as (l' & L & H). constructor; [|now apply (IH l')].
    intros O. destruct (N.ltb_spec (i_ondex x) (len ds)); [|lia]. destruct (nth_error ks _) as [v|]; [|discriminate]. destruct (nth_error ds _) as [d|]; [|discriminate]. apply bind_ok in S as (tv & V & S). apply bind_ok in S as (dg & _ & S).
    apply bind_ok in S as (a & _ & S). apply bind_ok in S as (td & D & _). exists v, d, tv, td. auto.
  - intros (C & shown & T & ->). induction T as [|x r k P T IH|x r k P T IH]; cbn [map revealed]; [reflexivity| |]; inversion C as [|? ? C1 C2]; subst; specialize (IH C2).
    + destruct P as (v & d & t & V & D & I & E). assert (N.to_nat (i_ondex x) < length ds)%nat as O by (apply nth_error_Some; congruence). destruct (N.ltb_spec (i_ondex x) (len ds)); [|unfold len in *; lia].
      rewrite V, D, I, bind_Ok, (default_digest hash t SH), bind_Ok, <- E. destruct (C1 H) as (v' & d' & tv & td & _ & D' & _ & I'). assert (d' = d) as -> by congruence. rewrite I', !bind_Ok, IH, bind_Ok, beq_refl. reflexivity.
    + destruct (N.ltb_spec (i_ondex x) (len ds)) as [O|O].
      * destruct (C1 O) as (v & d & tv & td & V & D & I & J). rewrite V, D, I, bind_Ok, (default_digest hash tv SH), bind_Ok.
        assert (has_code said_codes (s! "E") = true) as HS by reflexivity. destruct (said_built hash (s! "E") tv SH HS) as (_ & W). destruct (wf_round _ W) as (t1 & b1 & T1 & _ & X1 & _).
        rewrite Forall_forall in RD. destruct (RD d (nth_error_In _ _ D)) as (q & Q). destruct (exfil_infil _ _ _ Q J) as (W' & _). destruct (wf_round _ W') as (t2 & b2 & T2 & _ & X2 & _).
        rewrite T1, bind_Ok, J, !bind_Ok, IH, bind_Ok. destruct (beq t1 td) eqn:B; [|reflexivity]. exfalso. apply beq_eq in B. apply P. exists v, d, tv. repeat (split; [assumption|]). congruence.
      * rewrite bind_Ok, IH, bind_Ok. reflexivity.
Qed.
Lemma rotation_iff canon hash st e pe pre n ks good ilk n' text said : sized_hash hash -> of_type (d_ked e) ilk -> In ilk establishing -> before n = Ok n' ->
  get_key_event st pre n' = Ok text -> serder_with_raw canon text = Ok pe -> sad_said pe = Ok said ->
  (check_rotation canon hash st e pe pre n ks (map (fun x => (i_index x, i_ondex x)) good) = Ok tt <-> honoured canon hash st pre n ks good).
Proof.
  intros SH T I BN G1 G2 G3. assert (serder_est e = Ok true) as ES. { apply est_field. exists ilk. split; auto. tauto. } split.
  - intros H. destruct (rotation_ok _ _ _ _ _ _ _ _ _ _ _ _ _ SH T I BN G1 G2 G3 H) as (e' & ds & nt & shown & A & D & NT & TH & S). exists e', ds, nt, shown. repeat (split; [assumption|]). split; auto.
    unfold check_rotation in H. rewrite ES, bind_Ok in H. apply bind_ok in H as (pest & P & H). apply est_field in P as (ilkp & Tp & Bp). apply bind_ok in H as ((ds' & t') & NX & H). apply bind_ok in H as (idx & R & H). cbn [fst] in R.
    apply (revealed_iff hash ks ds good idx SH (digests_read _ _ D)). assert (ds' = ds) as <-; [|exact R].
    assert (forall x, next_keys canon x = Ok (ds', t') -> serder_digers x = Ok ds') as G. { intros x X. unfold next_keys in X. apply bind_ok in X as (d & D' & X). apply bind_ok in X as (o & O & X). now injection X as -> X. }
    destruct A as (b & sb & ilkb & LG & TB & W). destruct LG as (tb & A1 & A2 & A3). pose proof BN as BN'. apply before_ok in BN' as (_ & E'). change (n mod 4294967296) with (asked_for n) in E'. rewrite <- E' in A1. assert (b = pe) as -> by congruence.
    rewrite (type_once _ _ _ Tp TB) in *. destruct pest.
    + apply G in NX. destruct W as [(_ & ->)|(W & _)]; [congruence|]. destruct W. now apply Bp.
    + rewrite BN, bind_Ok in NX. apply bind_ok in NX as (tx & X & NX). apply bind_ok in NX as (e2 & Y & NX). apply G in NX. destruct W as [(W & _)|(_ & tx' & X' & Y')]; [apply Bp in W; discriminate|]. rewrite <- E' in X'. congruence.
  - intros (e' & ds & nt & shown & (b & sb & ilkb & LG & TB & W) & D & NT & CO & TH & S). destruct LG as (tb & A1 & A2 & A3). pose proof BN as BN'. apply before_ok in BN' as (_ & E'). change (n mod 4294967296) with (asked_for n) in E'.
    rewrite <- E' in *. assert (b = pe) as -> by congruence. unfold check_rotation. rewrite ES, bind_Ok. assert (next_keys canon e' = Ok (ds, nt)) as NK by (unfold next_keys; now rewrite D, bind_Ok, NT, bind_Ok).
    assert (revealed hash ks ds (map (fun x => (i_index x, i_ondex x)) good) = Ok (map i_ondex shown)) as RV by (apply (revealed_iff hash ks ds good _ SH (digests_read _ _ D)); eauto).
    destruct W as [(W & ->)|(W & tx & X & Y)].
    + assert (serder_est pe = Ok true) as -> by (apply est_field; exists ilkb; split; auto; tauto). rewrite bind_Ok, NK, bind_Ok. cbn [fst snd]. rewrite RV, bind_Ok, S. reflexivity.
    + assert (serder_est pe = Ok false) as -> by (apply est_field; exists ilkb; split; auto; split; [discriminate|contradiction]). rewrite bind_Ok, BN, bind_Ok, X, bind_Ok, Y, bind_Ok, NK, bind_Ok. cbn [fst snd]. rewrite RV, bind_Ok, S. reflexivity.
Qed.
Lemma not_rotating canon hash st e pe pre n ks found ilk : of_type (d_ked e) ilk -> ~ In ilk establishing -> check_rotation canon hash st e pe pre n ks found = Ok tt.
Proof. intros T I. unfold check_rotation. assert (serder_est e = Ok false) as ->; [|reflexivity]. apply est_field. exists ilk. split; auto. split; [discriminate|contradiction]. Qed.

(*# C165_accepted_key_events_exactly
   With the store trusted, a key event is accepted exactly when it is in order and continues the log: it has the fields of its type; only indexed signatures are attached, all of which can be checked, and the
   good ones satisfy the threshold in force; an inception has number 0 and as its identifier the prefix, which is the one derived from it; any other event has the identifier derived from it and names in p the event stored
   under the number before; and a rotation reveals enough of the keys announced by the last establishment event. The answer says whether it was there: its number is the length of the log, or is below and the event stored
   under it has the same identifier.
##
Example C165_case : proper no_floats mix toy (view no_floats log1) event1 [GSigs sigs1] pre0 1 (got [] (sad_said event1)) /\ count_key_events (view no_floats log1) pre0 = Ok 1.
Proof.
  assert (verify_key_event no_floats mix toy no_messages 1 (view no_floats log1) event1 [GSigs sigs1] None [] = Ok (false, [])) as V by (vm_compute; reflexivity).
  apply (C165_l no_floats mix toy no_messages 0 (view no_floats log1) event1 [GSigs sigs1] None [] [] false mix_sized ltac:(discriminate)) in V as (_ & pre & n & said & count & P & _).
  assert (sad_said event1 = Ok (got [] (sad_said event1)) /\ serder_pre event1 = Ok pre0 /\ serder_sn event1 = Ok 1) as (E1 & E2 & E3) by (split; [vm_compute; reflexivity|]; split; vm_compute; reflexivity).
  split; [|vm_compute; reflexivity]. pose proof P as (a1 & a2 & a3 & a4 & a5 & a6 & a7 & D1 & _ & D2 & D3 & _). apply pre_field in D1. apply sn_field in D2.
  assert (pre = pre0) as <- by congruence. assert (n = 1) as <- by congruence. assert (said = got [] (sad_said event1)) as <- by congruence. exact P.
Qed.
#*)
Lemma C165_l (canon : bytes -> option bytes) (hash : bytes -> bytes -> bytes) (cr : crypto) (messages_of : bytes -> R (list message)) (fuel : nat) (st : store) (e : sadder)
    (g : list group) (deep : option bool) (seen seen' : list bytes) (there : bool) :
  sized_hash hash -> deep <> Some true ->
  (verify_key_event canon hash cr messages_of (S fuel) st e g deep seen = Ok (there, seen') <->
   seen' = seen /\ exists pre n said count, proper canon hash cr st e g pre n said /\ count_key_events st pre = Ok count /\
     (there = false /\ n = count \/ there = true /\ n < count /\ exists e', logged canon st pre (asked_for n) e' said)).
Proof.
  intros SH DP. assert (or_else deep false = false) as DF by (destruct deep as [[]|]; [congruence|reflexivity|reflexivity]). split.
  - intros H. apply accepted_inv in H as (f & pre & p & sn & ilk & said & (ks & t) & found & _ & A). destruct A as [Hpre Hp Hsn Hilk Hsaid Hplace Hkeys Hfound He (labels & HL & HV) Hprior Hst]. cbn [fst snd] in *.
    apply type_text in Hilk. destruct (place_ok _ _ _ _ _ _ _ _ _ Hplace Hpre) as (count & HC & D). apply groups_found in Hfound as (sigs & good & AT & AN & TH & ->). rewrite map_map in He. cbn [fst] in He.
    apply labels_listed in HL. apply labels_required in HV as (HV & _).
    assert (seen' = seen) as -> by (destruct Hprior as [(_ & E)|(_ & n & ev & pe & ps & _ & _ & _ & _ & _ & _ & [(X & _)|(_ & E)])]; auto; rewrite DF in X; discriminate). split; auto.
    exists pre, sn, said, count. split; [|split; auto].
    2:{ destruct D as [(B & _ & -> & -> & ->)|(B & _ & L1 & L2 & ->)].
        - destruct (N.eqb_spec count 0) as [E|E]; [left; auto|]. right. split; auto. split; [lia|]. apply stored_logged. now apply Hst.
        - destruct (N.eqb_spec sn count); [left; auto|]. right. split; auto. split; [lia|]. apply stored_logged. now apply Hst. }
    exists ilk, labels, p, ks, t, sigs, good. rewrite <- pre_field, <- sn_field. repeat (split; [assumption|]). split. { now apply (governing_keys _ _ _ _ _ _ _ _ Hilk Hkeys). } repeat (split; [assumption|]).
    destruct D as [(B & V & -> & -> & _)|(B & V & L1 & L2 & _)].
    + apply beq_eq in B. subst ilk. split; auto. split; [intros []; reflexivity|discriminate].
    + split. { intros ->. rewrite beq_refl in B. discriminate. } destruct Hprior as [(B' & _)|(_ & n & event & pe & psaid & P1 & P2 & P3 & P4 & P5 & P6 & _)]; [congruence|]. split.
      * intros _. pose proof P1 as P1'. apply before_ok in P1' as (Q & ->). split; [exact Q|]. split; auto. exists pe, psaid. split; [exists event; auto|now apply text_field].
      * intros ->. eapply (rotation_iff canon hash st e pe pre sn ks good (s! "rot") n event psaid); eauto. cbn. auto.
  - intros (-> & pre & n & said & count & (ilk & labels & p & ks & t & sigs & good & HI & Hp & HN & HS & HT & HL & HV & HG & AT & AN & TH & SA & CI & CN & CR) & HC & W).
    apply (accepted_intro canon hash cr messages_of fuel st e g deep seen there seen pre p n ilk said (ks, t) (map (fun x => (i_index x, i_ondex x)) good)).
    pose proof HI as HI'. apply pre_field in HI'. assert (exists m, d_ked e = VObj m) as MO by (apply field_obj in HI as (m & -> & _); eauto).
    assert (beq ilk (s! "icp") = true /\ ilk = s! "icp" \/ beq ilk (s! "icp") = false /\ ilk <> s! "icp") as B. { destruct (beq ilk (s! "icp")) eqn:Q; [apply beq_eq in Q; auto|]. right. split; auto. intros ->. rewrite beq_refl in Q. discriminate. }
    split; auto.
    + now apply sn_field.
    + now apply type_text.
    + unfold place_event. rewrite HC, bind_Ok. destruct B as [(-> & B)|(-> & B)].
      * destruct (CI B) as (-> & -> & ->). rewrite bind_Ok. cbn [negb N.eqb]. rewrite HI', bind_Ok, beq_refl. cbn [negb]. f_equal. destruct W as [(-> & <-)|(-> & L & _)]; [reflexivity|]. destruct (N.eqb_spec count 0); [lia|reflexivity].
      * destruct (CN B) as (L & -> & _). rewrite bind_Ok. cbn [negb]. assert (1 <= n) as L1. { unfold asked_for in L. destruct (N.eq_dec n 0) as [->|]; [cbn in L; lia|lia]. } destruct (N.ltb_spec n 1); [lia|].
        destruct W as [(-> & <-)|(-> & L' & _)]; [rewrite N.ltb_irrefl, N.eqb_refl; reflexivity|]. destruct (N.ltb_spec count n); [lia|]. destruct (N.eqb_spec n count); [lia|reflexivity].
    + apply (governing_iff canon st e pre n ks t ilk HT); auto. destruct B as [(_ & ->)|(_ & B)]; [left; cbn; auto|right; now apply CN].
    + cbn [fst]. apply groups_found. eauto 8.
    + cbn [fst snd]. rewrite map_map. exact SA.
    + exists labels. split; [now apply labels_listed|]. apply labels_required. auto.
    + destruct B as [(-> & B)|(-> & B)]; [left; auto|right]. split; auto. destruct (CN B) as (L & V & b & q & (tx & T1 & T2 & T3) & FP). exists (asked_for n - 1), tx, b, q. split; [apply before_ok; auto|]. repeat (split; [assumption|]). split; [now apply text_field|]. split.
      * assert (before n = Ok (asked_for n - 1)) as BN by (apply before_ok; auto). destruct HL as [[= <- <-]|[[= <- <-]|[[= <- <-]|[]]]]; [congruence| |].
        -- eapply (rotation_iff canon hash st e b pre n ks good (s! "rot")); eauto. cbn. auto.
        -- apply (not_rotating canon hash st e b pre n ks _ (s! "ixn")); auto. cbn. intuition discriminate.
      * right. rewrite DF. auto.
    + intros ->. destruct W as [(W & _)|(_ & _ & W)]; [discriminate|]. now apply stored_logged.
Qed.

(** ** Registry events *)
Lemma anchor_intro canon hash cr mo fuel st owner sq sd e seen n t anchor pre h said : seqner_sn sq = Ok n -> infil sd = Ok t -> logged canon st owner (asked_for n) anchor t -> serder_pre e = Ok pre ->
  text_at (d_ked e) (s! "s") = Ok h -> sad_said e = Ok said -> sealed (d_ked anchor) pre h said -> verify_anchor canon hash cr mo fuel st owner sq sd e (Some false) seen = Ok (true, seen).
Proof.
  intros SN T (text & G & S & A) P H D (seal & F & S1 & S2 & S3). unfold verify_anchor. rewrite SN, bind_Ok, asked_mod, G, bind_Ok, S, bind_Ok, A, bind_Ok, T, bind_Ok, beq_refl. cbn [negb].
  apply index_field in F. apply text_field in S1, S2, S3. rewrite F, bind_Ok. cbn [to_vec]. rewrite bind_Ok, S1, bind_Ok, S2, bind_Ok, S3, bind_Ok. cbn [or_else andb]. rewrite bind_Ok, H, bind_Ok, beq_refl. cbn [negb].
  rewrite P, bind_Ok, beq_refl. cbn [negb]. rewrite D, bind_Ok, beq_refl. reflexivity.
Qed.
Lemma anchor_seen canon hash cr mo fuel st owner sq sd e seen b seen' : verify_anchor canon hash cr mo fuel st owner sq sd e (Some false) seen = Ok (b, seen') -> seen' = seen.
Proof.
  unfold verify_anchor. intros H. apply bind_ok in H as (n & Hn & H). apply bind_ok in H as (event & HE & H). apply bind_ok in H as (a & HA & H). apply bind_ok in H as (asaid & HS & H). apply bind_ok in H as (t & HT & H).
  destruct (negb (beq asaid t)); [congruence|]. apply bind_ok in H as (v & HV & H). apply bind_ok in H as (seals & HL & H). destruct seals as [|seal [|]]; try congruence.
  apply bind_ok in H as (spre & H1 & H). apply bind_ok in H as (ssn & H2 & H). apply bind_ok in H as (sdig & H3 & H). cbn [or_else andb] in H. rewrite bind_Ok in H. apply bind_ok in H as (h & Hh & H).
  destruct (negb (beq ssn h)); [congruence|]. apply bind_ok in H as (pre & HP & H). destruct (negb (beq spre pre)); [congruence|]. apply bind_ok in H as (said & HD & H). congruence.
Qed.
Lemma checked_right canon hash st e p ilk ri apre : anchoring canon hash st e p ilk ri = Ok apre ->
  (ilk = s! "vcp" -> prefixer_verify hash p (d_ked e) (Some true) = Ok true) /\ (ilk <> s! "vcp" -> said_verify hash (d_saider e) (d_ked e) (Some false) (Some true) None None [] = Ok true).
Proof.
  unfold anchoring. intros H. destruct (beq ilk (s! "vcp")) eqn:B.
  - apply beq_eq in B. subst. split; [|congruence]. intros _. apply bind_ok in H as (ok & V & H). destruct ok; [exact V|discriminate].
  - split. { intros ->. rewrite beq_refl in B. discriminate. } intros _. destruct (_ || _) in H; [|discriminate]. apply bind_ok in H as (ok & V & H). destruct ok; [exact V|discriminate].
Qed.
Lemma stored_iff canon st pre said sn : check_stored_transaction canon st pre said sn = Ok tt <-> exists e, recorded canon st pre (asked_for sn) e /\ sad_said e = Ok said.
Proof.
  split; [apply stored_recorded|]. intros (e & (text & A & B) & C). unfold check_stored_transaction. rewrite asked_mod, A, bind_Ok, B, bind_Ok, C, bind_Ok, beq_refl. reflexivity.
Qed.

Lemma registered_well canon hash cr mo fuel st e couples deep seen seen' there : verify_transaction_event canon hash cr mo fuel st e couples deep seen = Ok (there, seen') ->
  exists pre n said count, anchored_well canon hash st e couples pre n said /\ count_transaction_events st pre = Ok count /\
     (there = false /\ n = count \/ there = true /\ n < count /\ exists e', recorded canon st pre (asked_for n) e' /\ sad_said e' = Ok said).
Proof.
  intros H. apply tel_inv in H as (f & pre & p & sn & ilk & said & ri & labels & count & apre & sq & sd & seen1 & _ & -> & HP & HX & SN & T & S & R & L & V & C & A & AN & ST & W).
    apply anchor_inv in AN as (k & t & anchor & pre' & h & said' & A1 & A2 & A3 & A4 & A5 & A6 & A7). assert (pre' = pre) as -> by congruence. assert (said' = said) as -> by congruence.
    pose proof (anchoring_owned _ _ _ _ _ _ _ _ T R A) as OW. destruct (checked_right _ _ _ _ _ _ _ _ A) as (R1 & R2). apply registry_types in L. apply labels_required in V as (V & _).
    assert (beq ilk (s! "vcp") || beq ilk (s! "iss") = true <-> ilk <> s! "rev") as NR. { destruct L as [[= <- _]|[[= <- _]|[[= <- _]|[]]]]; cbn; split; try discriminate; auto. }
    exists pre, sn, said, count. split; [|split; auto].
    2:{ destruct W as [(B & -> & ->)|(B & L1 & L2 & -> & _)].
        - destruct (N.eqb_spec count 0) as [E|E]; [left; auto|]. right. split; auto. split; [lia|]. apply stored_iff. now apply ST.
        - destruct (N.eqb_spec sn count) as [E|E]; [left; auto|]. right. split; auto. split; [lia|]. apply stored_iff. now apply ST. }
    exists ilk, labels, p, h, sq, sd, apre, k, t, anchor. rewrite <- pre_field, <- sn_field, <- text_field. apply type_text in T. repeat (split; [assumption||reflexivity|]).
    destruct W as [(B & -> & _)|(B & L1 & L2 & _ & n & event & pe & psaid & P1 & P2 & P3 & P4 & P5 & _)].
    + split; [auto|]. intros ->. discriminate.
    + split. { intros Q. apply NR in Q. congruence. } intros _. apply before_ok in P1 as (Q & ->). split; [exact Q|]. exists pe, psaid. split; [exists event; auto|]. split; auto. now apply text_field.
Qed.

(*# C166_accepted_registry_events_exactly
   With the store trusted, a registry event is accepted exactly when it is in order and continues its log: it has the fields of its type; one couple is attached, which names a key event stored in the log of the
   registry's owner, with one seal and no more, that has the event's prefix, number and identifier; a registry's inception has the prefix derived from it, an issuance or revocation the identifier; inceptions and issuances have number 0,
   and a revocation names in p the event stored under the number before. The answer says whether it was there: its number is the length of the log, or is below and the event stored under it has the same identifier.
##
Example C166_case : let st := view no_floats issued in anchored_well no_floats mix st iss0 [couple 2 anchor2] csaid0 0 (got [] (sad_said iss0)) /\ count_transaction_events st csaid0 = Ok 1 /\
  exists e, recorded no_floats st csaid0 (asked_for 0) e /\ sad_said e = Ok (got [] (sad_said iss0)).
Proof.
  cbv zeta. split; [|split; [vm_compute; reflexivity|]]; apply (registered_as no_floats mix toy runic 8 (view no_floats issued) iss0 [couple 2 anchor2] [] [] csaid0 0 (got [] (sad_said iss0))); vm_compute; reflexivity.
Qed.
#*)
Lemma C166_l (canon : bytes -> option bytes) (hash : bytes -> bytes -> bytes) (cr : crypto) (messages_of : bytes -> R (list message)) (fuel : nat) (st : store) (e : sadder)
    (couples : list (matter * matter)) (seen seen' : list bytes) (there : bool) :
  verify_transaction_event canon hash cr messages_of (S fuel) st e couples (Some false) seen = Ok (there, seen') <->
   seen' = seen /\ exists pre n said count, anchored_well canon hash st e couples pre n said /\ count_transaction_events st pre = Ok count /\
     (there = false /\ n = count \/ there = true /\ n < count /\ exists e', recorded canon st pre (asked_for n) e' /\ sad_said e' = Ok said).
Proof.
  split.
  - intros H. assert (seen' = seen) as ->.
    { cbn [verify_transaction_event] in H. repeat (let x := fresh "x" in let X := fresh "X" in apply bind_ok in H as (x & X & H)). destruct couples as [|(sq & sd) [|]]; try discriminate.
      apply bind_ok in H as (labels & HL & H). apply bind_ok in H as (ok & HV & H). destruct (negb ok); [discriminate|]. cbv zeta in H. apply bind_ok in H as (count & C & H). apply bind_ok in H as (apre & HA & H). apply bind_ok in H as ((an & seen1) & AN & H).
      cbn [fst snd] in H. pose proof (anchor_seen _ _ _ _ _ _ _ _ _ _ _ _ _ AN) as ->. destruct (negb an); [discriminate|]. apply bind_ok in H as ((th & seen2) & ES & H). cbn [fst] in H. apply bind_ok in H as (u & U & H). injection H as -> ->.
      destruct (beq _ _ || beq _ _) in ES. { destruct (negb _) in ES; [discriminate|]. now injection ES as _ <-. }
      destruct (_ <? _) in ES; [discriminate|]. destruct (_ <? _) in ES; [discriminate|]. apply bind_ok in ES as (n & Hn & ES). apply bind_ok in ES as (event & A & ES). apply bind_ok in ES as (pe & B & ES). apply bind_ok in ES as (psaid & D & ES).
      cbn [or_else andb] in ES. rewrite bind_Ok in ES. apply bind_ok in ES as (q & Q & ES). destruct (negb _) in ES; [discriminate|]. now injection ES as _ <-. }
    split; auto. now apply registered_well in H.
  - intros (-> & pre & n & said & count & (ilk & labels & p & h & sq & sd & owner & k & t & anchor & -> & HI & HX & HN & HS & SD & T & L & V & OW & K & TT & LG & SE & C1 & C2 & C3 & C4) & HC & W).
    assert (exists m, d_ked e = VObj m) as MO by (apply field_obj in HI as (m & -> & _); eauto). pose proof HI as HI'. apply pre_field in HI'. cbn [verify_transaction_event]. rewrite HI', bind_Ok, HX, bind_Ok, (proj2 (sn_field _ _) HN), bind_Ok.
    pose proof T as T'. apply type_text in T'. rewrite T', bind_Ok, SD, bind_Ok. pose proof L as L'. apply registry_types in L'.
    assert (exists ri, registry_of ilk e = Ok ri /\ anchoring canon hash st e p ilk ri = Ok owner) as (ri & RI & AN).
    { unfold registry_of, anchoring. destruct OW as [(O1 & O2)|(O1 & ri & e0 & O2 & (tx & O3 & O4) & O5)].
      - rewrite (type_once _ _ _ O1 T) in *. rewrite beq_refl, HI'. exists pre. split; auto. rewrite (C1 eq_refl), bind_Ok. cbn [negb]. now apply text_field.
      - assert (beq ilk (s! "vcp") = false /\ beq ilk (s! "iss") || beq ilk (s! "rev") = true /\ ilk <> s! "vcp") as (-> & -> & NV). { destruct O1 as [O1|O1]; rewrite <- (type_once _ _ _ O1 T); repeat split; discriminate. }
        exists ri. split; [now apply text_field|]. rewrite (C2 NV), bind_Ok. cbn [negb]. rewrite O3, bind_Ok, O4, bind_Ok. now apply text_field. }
    rewrite RI, bind_Ok, L', bind_Ok. assert (verify_ked_labels (d_ked e) labels = Ok true) as -> by (apply labels_required; auto). rewrite bind_Ok. cbn [negb]. rewrite HC, bind_Ok, AN, bind_Ok.
    apply text_field in HS. rewrite (anchor_intro canon hash cr messages_of fuel st owner sq sd e seen k t anchor pre h said K TT LG HI' HS SD SE), bind_Ok. cbn [fst snd negb].
    assert (forall b : bool, b = there -> (let* _u := if b then check_stored_transaction canon st pre said n else Ok tt in Ok (b, seen)) = Ok (there, seen)) as FIN.
    { intros b ->. destruct W as [(-> & _)|(-> & _ & W)]; [reflexivity|]. rewrite (proj2 (stored_iff canon st pre said n) W). reflexivity. }
    assert (beq ilk (s! "vcp") || beq ilk (s! "iss") = true /\ ilk <> s! "rev" \/ beq ilk (s! "vcp") || beq ilk (s! "iss") = false /\ ilk = s! "rev") as [(-> & NR)|(-> & NR)].
    { destruct L as [[= <- _]|[[= <- _]|[[= <- _]|[]]]]; [left|left|right]; split; try reflexivity; discriminate. }
    + rewrite (C3 NR) in *. rewrite N.eqb_refl. cbn [negb]. rewrite bind_Ok. cbn [fst]. apply FIN. destruct W as [(-> & <-)|(-> & W & _)]; [reflexivity|]. destruct (N.eqb_spec count 0); [lia|reflexivity].
    + destruct (C4 NR) as (Q & b & q & (tx & X1 & X2) & X3 & X4). assert (1 <= n) as L1. { unfold asked_for in Q. destruct (N.eq_dec n 0) as [->|]; [cbn in Q; lia|lia]. } destruct (N.ltb_spec n 1); [lia|].
      destruct (N.ltb_spec count n); [destruct W as [(_ & W)|(_ & W & _)]; lia|]. assert (before n = Ok (asked_for n - 1)) as -> by (apply before_ok; auto). rewrite bind_Ok, X1, bind_Ok, X2, bind_Ok, X3, bind_Ok. cbn [or_else andb].
      rewrite bind_Ok. apply text_field in X4. rewrite X4, bind_Ok, beq_refl. cbn [negb]. rewrite bind_Ok. cbn [fst]. apply FIN. destruct W as [(-> & <-)|(-> & W & _)]; [now rewrite N.eqb_refl|]. destruct (N.eqb_spec n count); [lia|reflexivity].
Qed.

Lemma registered_as canon hash cr mo fuel st e c seen seen' pre n said : verify_transaction_event canon hash cr mo (S fuel) st e c (Some false) seen = Ok (true, seen') -> serder_pre e = Ok pre -> serder_sn e = Ok n -> sad_said e = Ok said ->
  anchored_well canon hash st e c pre n said /\ exists e', recorded canon st pre (asked_for n) e' /\ sad_said e' = Ok said.
Proof.
  intros V E1 E2 E3. apply C166_l in V as (_ & pre' & n' & said' & count & P & C & W). pose proof P as (a1 & a2 & a3 & a4 & a5 & a6 & a7 & a8 & a9 & aa & _ & D1 & _ & D2 & _ & D3 & _). apply pre_field in D1. apply sn_field in D2.
  assert (pre' = pre) as -> by congruence. assert (n' = n) as -> by congruence. assert (said' = said) as -> by congruence. split; auto. destruct W as [(W & _)|(_ & _ & W)]; [discriminate|exact W].
Qed.

(** ** Events that bring the verifier down *)
Lemma text_np v k : ~ lacks v k -> text_at v k <> Panic.
Proof. intros L H. apply L. now apply text_panic. Qed.
Lemma read_clean t m : clean t -> exfil t = Ok m -> built m.
Proof. intros (_ & C) X. destruct (C m X) as (q & Q). destruct (exfil_infil _ _ _ X Q) as (W & _). now apply wf_again. Qed.
Lemma said_np canon raw e : serder_with_raw canon raw = Ok e -> harmless canon e -> built (d_saider e).
Proof. intros R (_ & C & _). apply read_said in R as (t & F & X & _). apply (read_clean t); auto. apply (C (s! "d")); cbn; auto. Qed.
Lemma printed m : built m -> infil m <> Panic.
Proof. intros B. apply infil_built in B as (q & ->). discriminate. Qed.
Lemma verfers_np e : clean_list (d_ked e) (s! "k") -> serder_verfers e <> Panic /\ forall ks, serder_verfers e = Ok ks -> printable ks.
Proof.
  intros C. split.
  - intros H. apply C110_list_l in H as (a & t & b & ms & F & _ & X). destruct (C _ t F) as (C1 & _); auto. apply in_or_app. right. now left.
  - intros ks H. assert (exists m, d_ked e = VObj m) as M. { unfold serder_verfers in H. apply bind_ok in H as (m & M & _). destruct (d_ked e); try discriminate. eauto. }
    apply C88_l in H as [(ts & F & T)|(_ & ->)]; [|constructor|exact M]. specialize (fun t => C ts t F). clear F. unfold texts_of in T. induction T as [|y z a b R T IH]; [constructor|]. constructor.
    + destruct R as (q & -> & R & _). destruct (C q (or_introl eq_refl)) as (_ & Q). auto.
    + apply IH. intros t I. apply C. now right.
Qed.
Lemma digers_np e : clean_list (d_ked e) (s! "n") -> serder_digers e <> Panic /\ forall ks, serder_digers e = Ok ks -> printable ks.
Proof.
  intros C. split.
  - intros H. apply C110_list_l in H as (a & t & b & ms & F & _ & X). destruct (C _ t F) as (C1 & _); auto. apply in_or_app. right. now left.
  - intros ks H. assert (exists m, d_ked e = VObj m) as M. { unfold serder_digers in H. apply bind_ok in H as (m & M & _). destruct (d_ked e); try discriminate. eauto. }
    apply C88_l in H as [(ts & F & T)|(_ & ->)]; [|constructor|exact M]. specialize (fun t => C ts t F). clear F. unfold texts_of in T. induction T as [|y z a b R T IH]; [constructor|]. constructor.
    + destruct R as (q & -> & R & _). destruct (C q (or_introl eq_refl)) as (_ & Q). auto.
    + apply IH. intros t I. apply C. now right.
Qed.
Lemma signing_np canon e : harmless canon e -> signing_keys canon e <> Panic /\ forall ks t, signing_keys canon e = Ok (ks, t) -> printable ks /\ steady t (len ks) /\ exists v, tholder_new canon None None (Some v) = Ok t.
Proof.
  intros (_ & _ & C & _ & (T & S) & _). destruct (verfers_np e C) as (V & P). unfold signing_keys. split.
  - apply bind_np'; auto. intros [t|] _; [|discriminate]. apply bind_np'; auto. discriminate.
  - intros ks t H. apply bind_ok in H as (o & O & H). destruct o as [t'|]; [|discriminate]. apply bind_ok in H as (v & V' & H). injection H as -> ->. split; auto. split; auto. now apply threshold_new in O.
Qed.
Lemma next_np canon e : harmless canon e -> next_keys canon e <> Panic /\ forall ds t, next_keys canon e = Ok (ds, t) -> printable ds /\ forall idx, Forall (fun o => o < len ds) idx -> satisfy t idx <> Panic.
Proof.
  intros (_ & _ & _ & C & _ & (T & S)). destruct (digers_np e C) as (V & P). unfold next_keys. split.
  - apply bind_np'; auto. intros ds _. apply bind_np'; auto. discriminate.
  - intros ds t H. apply bind_ok in H as (d & D & H). apply bind_ok in H as (o & O & H). injection H as -> <-. split; auto. intros idx F. destruct o as [t|]; cbn [or_else]; [|discriminate].
    destruct (next_new _ _ _ O) as (v & N). destruct (steady_answers canon v t (len ds) idx N (S _ _ O D) F) as (b & ->). discriminate.
Qed.
Lemma rotation_np canon hash st e pe pre n ks found : sized_hash hash -> harmless canon e -> harmless canon pe -> sound_log canon st pre -> 1 <= asked_for n -> printable ks -> Forall (fun p => fst p < len ks) found ->
  check_rotation canon hash st e pe pre n ks found <> Panic.
Proof.
  intros SH HE HP SL L PK FB. unfold check_rotation. assert (forall x, harmless canon x -> serder_est x <> Panic) as NE. { intros x (X & _) H. apply (C110_l x [] 0 true) in H. revert H. apply X. cbn. auto. }
  apply bind_np'; [now apply NE|]. intros [|] _; [|discriminate]. apply bind_np'; [now apply NE|]. intros pest _.
  assert ((if pest then next_keys canon pe else let* n0 := before n in let* raw := get_latest_establishment_event_as_of_sn st pre n0 in let* e0 := serder_with_raw canon raw in next_keys canon e0) <> Panic /\
    forall nk, (if pest then next_keys canon pe else let* n0 := before n in let* raw := get_latest_establishment_event_as_of_sn st pre n0 in let* e0 := serder_with_raw canon raw in next_keys canon e0) = Ok nk ->
      exists x, harmless canon x /\ next_keys canon x = Ok nk) as (N1 & N2).
  { destruct pest. { split; [now apply next_np|]. intros nk H. eauto. } assert (before n = Ok (asked_for n - 1)) as -> by (apply before_ok; auto). rewrite bind_Ok. destruct SL as (_ & _ & SL). destruct (SL (asked_for n - 1)) as (_ & G & SR). split.
    - apply bind_np'; auto. intros text TX. destruct (SR text (or_intror TX)) as (R & HX). apply bind_np'; auto. intros x X. apply next_np. auto.
    - intros nk H. apply bind_ok in H as (text & TX & H). destruct (SR text (or_intror TX)) as (R & HX). apply bind_ok in H as (x & X & H). eauto. }
  apply bind_np'; [exact N1|]. intros (ds, t) H. destruct (N2 _ H) as (x & HX & NX). destruct (next_np _ _ HX) as (_ & K). destruct (K _ _ NX) as (PD & ST). cbn [fst snd]. destruct (shown_answers hash ks ds found SH PK PD FB) as (idx & -> & B). rewrite bind_Ok.
  apply bind_np'; [now apply ST|]. intros [|] _; discriminate.
Qed.

(** An inception with a threshold of no meaning, otherwise made with due care. *)
Definition event_k := Eval vm_compute in got no_event (
  let* k1 := set_str (d_ked event0) (s! "kt") (VArr [VStr (s! "0/0")]) in
  let* p := prefixer_with_ked mix k1 None (Some (s! "E")) in
  let* pre := infil p in
  let* k2 := set_str k1 (s! "i") (VStr pre) in
  let* k3 := set_str k2 (s! "d") (VStr pre) in
  serder_with_ked no_floats k3 None None).
Lemma clean_by t : is_ok (let* m := exfil t in infil m) = true -> clean t.
Proof. intros H. split. { intros X. rewrite X in H. discriminate. } intros m X. rewrite X, bind_Ok in H. destruct (infil m) as [q| |]; [eauto|discriminate|discriminate]. Qed.
Definition texts_at (v : value) (label : bytes) : list bytes := match index_str v label with Ok (VArr l) => concat (map (fun x => match x with VStr t => [t] | _ => [] end) l) | Ok (VStr t) => [t] | _ => [] end.
Lemma texts_in v label l t : field_of v label (VArr l) -> In (VStr t) l -> In t (texts_at v label).
Proof. intros F I. apply index_field in F. unfold texts_at. rewrite F. apply in_concat. exists [t]. split; [|now left]. apply in_map_iff. exists (VStr t). auto. Qed.
Lemma text_in v label t : field_of v label (VStr t) -> In t (texts_at v label).
Proof. intros F. apply index_field in F. unfold texts_at. rewrite F. now left. Qed.
Lemma harmless_by canon e : forallb (fun k => is_ok (index_str (d_ked e) k)) [s! "i"; s! "s"; s! "t"] = true ->
  forallb (fun k => forallb (fun t => is_ok (let* m := exfil t in infil m)) (texts_at (d_ked e) k)) [s! "i"; s! "d"; s! "k"; s! "n"] = true ->
  (exists t, serder_tholder canon e = Ok (Some t) /\ t_weighted t = false) -> (exists t, serder_ntholder canon e = Ok (Some t) /\ t_weighted t = false) -> harmless canon e.
Proof.
  intros A B (t & T & W) (t' & T' & W'). rewrite forallb_forall in A, B. assert (forall k t0, In k [s! "i"; s! "d"; s! "k"; s! "n"] -> In t0 (texts_at (d_ked e) k) -> clean t0) as C.
  { intros k t0 I J. apply clean_by. specialize (B k I). rewrite forallb_forall in B. auto. }
  split. { intros k I L. apply index_lacks in L. specialize (A k I). rewrite L in A. discriminate. }
  split. { intros k t0 I F. apply (C k); [destruct I as [<-|[<-|[]]]; cbn; auto|now apply text_in]. }
  split. { intros l t0 F I. apply (C (s! "k")); [cbn; auto|now apply (texts_in _ _ l)]. }
  split. { intros l t0 F I. apply (C (s! "n")); [cbn; auto|now apply (texts_in _ _ l)]. }
  split; (split; [congruence|]); intros t0 l T0 _ Q; congruence.
Qed.
Lemma harmless0 : harmless no_floats event0.
Proof.
  apply harmless_by; [vm_compute; reflexivity|vm_compute; reflexivity| |]; eexists; (split; [vm_compute; reflexivity|]); vm_compute; reflexivity.
Qed.
Lemma harmless1 : harmless no_floats event1.
Proof.
  apply harmless_by; [vm_compute; reflexivity|vm_compute; reflexivity| |]; eexists; (split; [vm_compute; reflexivity|]); vm_compute; reflexivity.
Qed.
Lemma last_in keep l : last_of keep l <> Panic /\ forall t, last_of keep l = Ok t -> In t l.
Proof.
  induction l as [|x r (A & B)]; cbn [last_of]; [split; discriminate|]. destruct (last_of keep r) as [y| |]; [|destruct (keep x); (split; [discriminate|]); intros t; intros [= <-]; now left|congruence].
  split; [discriminate|]. intros t [= <-]. right. now apply B.
Qed.
Lemma ledger_sound canon l pre : len (l_kel l pre) < 2 ^ 32 -> (forall text, In text (l_kel l pre) -> exists e, serder_with_raw canon text = Ok e /\ harmless canon e) -> sound_log canon (view canon l) pre.
Proof.
  intros L H. split; [discriminate|]. split; [intros c [= <-]; exact L|]. intros n. cbn [view get_key_event get_latest_establishment_event_as_of_sn]. split. { unfold at_sn. destruct (nth_error (l_kel l pre) (N.to_nat n)); discriminate. } split; [apply last_in|]. intros text T.
  assert (In text (l_kel l pre)) as I. { destruct T as [T|T]; [unfold at_sn in T; destruct (nth_error (l_kel l pre) (N.to_nat n)) as [y|] eqn:Y; [injection T as <-; now apply nth_error_In in Y|discriminate]|].
    apply last_in in T. rewrite <- (firstn_skipn (S (N.to_nat n)) (l_kel l pre)). apply in_or_app. now left. }
  destruct (H _ I) as (e & -> & HE). split; [discriminate|]. intros e' [= <-]. exact HE.
Qed.
Lemma sound1 : sound_log no_floats (view no_floats log1) pre0.
Proof.
  apply ledger_sound. { vm_compute. reflexivity. } assert (l_kel log1 pre0 = [d_raw event0]) as -> by (vm_compute; reflexivity). intros text [<-|[]]. exists event0. split; [vm_compute; reflexivity|exact harmless0].
Qed.

(*# C167_key_events_answer_refuted
   Nobody's key is needed to bring the verifier of key events down. An event without prefix makes it panic, whatever is attached, in every store and at every depth; so does an event with a clean prefix but without number, or without type.
   And so does an inception, made with due care, whose signing threshold is one that makes the thresholds panic (see C47_panics_exactly): the threshold is read before the first signature is looked at.
##
Example C167_case : tholder_new no_floats None None (Some (VArr [VStr (s! "0/0")])) = Panic /\ serder_with_raw no_floats (d_raw event_k) = Ok event_k /\
  field_of (d_ked event_k) (s! "kt") (VArr [VStr (s! "0/0")]) /\ serder_pre event_k = sad_said event_k /\ (exists p, prefixer_with_qb64 mix (got [] (sad_said event_k)) = Ok p /\ prefixer_verify mix p (d_ked event_k) (Some true) = Ok true) /\
  verify_key_event no_floats mix toy no_messages 1 (view no_floats empty) event_k [] None [] = Panic.
Proof.
  do 2 (split; [vm_compute; reflexivity|]). split; [apply index_field; vm_compute; reflexivity|]. split; [vm_compute; reflexivity|]. split; [|vm_compute; reflexivity]. eexists. split; [vm_compute; reflexivity|]. vm_compute. reflexivity.
Qed.
#*)
Lemma C167_refuted_l (canon : bytes -> option bytes) (hash : bytes -> bytes -> bytes) (cr : crypto) (messages_of : bytes -> R (list message)) (fuel : nat) (st : store) (e : sadder)
    (g : list group) (deep : option bool) (seen : list bytes) :
  (lacks (d_ked e) (s! "i") -> verify_key_event canon hash cr messages_of (S fuel) st e g deep seen = Panic) /\
  (forall pre p, field_of (d_ked e) (s! "i") (VStr pre) -> prefixer_with_qb64 hash pre = Ok p ->
     (lacks (d_ked e) (s! "s") \/ (exists n, ordinal (d_ked e) n) /\ lacks (d_ked e) (s! "t") -> verify_key_event canon hash cr messages_of (S fuel) st e g deep seen = Panic) /\
     (forall c v, of_type (d_ked e) (s! "icp") -> ordinal (d_ked e) 0 -> sad_said e = Ok pre -> prefixer_verify hash p (d_ked e) (Some true) = Ok true -> count_key_events st pre = Ok c ->
        field_of (d_ked e) (s! "kt") v -> tholder_new canon None None (Some v) = Panic -> verify_key_event canon hash cr messages_of (S fuel) st e g deep seen = Panic)).
Proof.
  cbn [verify_key_event]. split. { intros L. apply (C110_l e [] 0 true) in L. now rewrite L. } intros pre p F P. apply pre_field in F as F'. rewrite F', bind_Ok, P, bind_Ok. split.
  - intros [L|((n & O) & L)]. { apply (C110_l e [] 0 true) in L. now rewrite L. } apply sn_field in O. rewrite O, bind_Ok. apply text_panic in L. unfold text_at. now rewrite L.
  - intros c v T O S V C K N. apply sn_field in O. pose proof T as T'. apply type_text in T'. rewrite O, bind_Ok, T', bind_Ok, S, bind_Ok. rewrite beq_refl. unfold place_event. rewrite C, bind_Ok, V, bind_Ok. cbn [negb]. rewrite N.eqb_refl. cbn [negb].
    rewrite F', bind_Ok, beq_refl. cbn [negb]. rewrite bind_Ok. unfold keys_for. assert (serder_est e = Ok true) as ->. { apply est_field. exists (s! "icp"). split; auto. split; auto. intros _. now left. } rewrite bind_Ok.
    unfold signing_keys, serder_tholder, threshold_at. apply field_obj in K as K'. destruct K' as (m & E & _). rewrite E in *. cbn [to_map]. rewrite bind_Ok. assert (contains_key (s! "kt") m = true) as ->. { apply contains_field. eauto. }
    apply index_field in K. rewrite K, bind_Ok, N. reflexivity.
Qed.

(*# C167_key_events_answer_partial
   What holds, with the store trusted: whatever is attached, verifying an event that was read gives an answer or an error if the event is harmless, the log of its prefix is sound, and no signature has the number of the keys in force as its
   index. Harmless: it has a prefix, number and type, its primitives are clean, its thresholds do not make the thresholds panic and have a small weight for each key. Sound: the store answers, with fewer than 2^32 events, all harmless.
   Missing for the full statement: verification at depth; the cases of C167_key_events_answer_refuted are among those excluded.
##
Example C167_answers_case : serder_with_raw no_floats (d_raw event1) = Ok event1 /\ harmless no_floats event1 /\ serder_pre event1 = Ok pre0 /\ sound_log no_floats (view no_floats log1) pre0 /\
  verify_key_event no_floats mix toy no_messages 1 (view no_floats log1) event1 [GSigs sigs1] None [] = Ok (false, []) /\
  is_err (verify_key_event no_floats mix toy no_messages 1 (view no_floats log1) event1 [GSigs sigs0; GSigs [Ix (s! "A") [] 7 7]] None []) = true /\ is_err (verify_key_event no_floats mix toy no_messages 1 (view no_floats log1) event1 [] None []) = true.
Proof.
  split; [vm_compute; reflexivity|]. split; [exact harmless1|]. split; [vm_compute; reflexivity|]. split; [exact sound1|]. do 2 (split; [vm_compute; reflexivity|]). vm_compute. reflexivity.
Qed.
#*)
Lemma C167_partial_l (canon : bytes -> option bytes) (hash : bytes -> bytes -> bytes) (cr : crypto) (messages_of : bytes -> R (list message)) (fuel : nat) (st : store) (raw : bytes) (e : sadder)
    (g : list group) (deep : option bool) (seen : list bytes) :
  sized_hash hash -> deep <> Some true -> serder_with_raw canon raw = Ok e -> harmless canon e -> (forall pre, field_of (d_ked e) (s! "i") (VStr pre) -> sound_log canon st pre) ->
  (forall pre n ks t, field_of (d_ked e) (s! "i") (VStr pre) -> ordinal (d_ked e) n -> governing canon st pre n e ks t -> ~ indexed g (len ks)) ->
  verify_key_event canon hash cr messages_of (S fuel) st e g deep seen <> Panic.
Proof.
  intros SH ND RD HE SLA NIA. pose proof HE as (HL & HC & _). pose proof (said_np _ _ _ RD HE) as BS. cbn [verify_key_event].
  apply bind_np'. { intros H. apply (C110_l e [] 0 true) in H. revert H. apply HL. cbn. auto. } intros pre HP. apply pre_field in HP as FP. pose proof (SLA pre FP) as SL.
  pose proof (HC (s! "i") pre ltac:(cbn; auto) FP) as CP. assert (exists m, d_ked e = VObj m) as (m & MO) by (apply field_obj in FP as (m & -> & _); eauto).
  assert (prefixer_with_qb64 hash pre <> Panic /\ forall p, prefixer_with_qb64 hash pre = Ok p -> built p) as (PX & PB).
  { unfold prefixer_with_qb64, prefixer_new. change (validate prefix_codes (or_else None (s! "B"))) with (Ok tt). rewrite bind_Ok. cbn [matter_new]. split; [apply CP|]. intros p X. now apply (read_clean pre). }
  apply bind_np'; auto. intros p HPX. specialize (PB p HPX). apply bind_np'. { intros H. apply (C110_l e [] 0 true) in H. revert H. apply HL. cbn. auto. } intros n SN. apply sn_field in SN.
  assert (~ lacks (d_ked e) (s! "t")) as NT by (apply HL; cbn; auto). apply bind_np'; [now apply text_np|]. intros ilk T. apply type_text in T. apply bind_np'; [now apply printed|]. intros said SD.
  destruct SL as (SC & SB & SE). apply bind_np'.
  { unfold place_event. apply bind_np'; auto. intros c HC'. destruct (beq ilk _).
    - apply bind_np'. { intros V. now apply (C89a_l hash p (d_ked e) (Some true) PB) in V. } intros [|] _; [|discriminate]. cbn [negb]. destruct (negb _); [discriminate|]. rewrite HP, bind_Ok. destruct (negb _); discriminate.
    - apply bind_np'. { rewrite MO. change (said_verify hash (d_saider e) (VObj m) (Some false) (Some true) None None []) with (said_verify hash (d_saider e) (VObj m) (Some false) (Some true) None (Some (s! "d")) []). apply C61_l; [exact BS|discriminate]. }
      intros [|] _; [|discriminate]. cbn [negb]. destruct (_ <? _); [discriminate|]. destruct (_ <? _); discriminate. }
  intros there PL.
  assert (beq ilk (s! "icp") = false -> 1 <= asked_for n) as NZ.
  { intros B. rewrite B in PL. unfold place_event in PL. apply bind_ok in PL as (c & C & PL). apply bind_ok in PL as (ok & _ & PL). destruct (negb ok); [discriminate|]. destruct (N.ltb_spec n 1); [discriminate|]. destruct (N.ltb_spec c n) as [|L2]; [discriminate|].
    unfold asked_for. pose proof (SB _ C) as L. change (2 ^ 32) with 4294967296 in *. rewrite N.mod_small; lia. }
  assert (keys_for canon st e pre n <> Panic /\ forall ks t, keys_for canon st e pre n = Ok (ks, t) -> exists x, harmless canon x /\ signing_keys canon x = Ok (ks, t)) as (KN & KH).
  { unfold keys_for. destruct (serder_est e) as [[|]| |] eqn:ES.
    - rewrite bind_Ok. split; [now apply signing_np|]. eauto.
    - rewrite bind_Ok. apply est_field in ES as (ilk' & T' & B). rewrite (type_once _ _ _ T' T) in *. assert (beq ilk (s! "icp") = false) as BI. { destruct (beq ilk (s! "icp")) eqn:Q; auto. apply beq_eq in Q. subst. assert (false = true) by (apply B; now left). discriminate. }
      specialize (NZ BI). assert (before n = Ok (asked_for n - 1)) as -> by (apply before_ok; auto). rewrite bind_Ok. destruct (SE (asked_for n - 1)) as (_ & G & SR). split.
      + apply bind_np'; auto. intros text TX. destruct (SR text (or_intror TX)) as (R & HX). apply bind_np'; auto. intros x X. apply signing_np. auto.
      + intros ks t H. apply bind_ok in H as (text & TX & H). destruct (SR text (or_intror TX)) as (R & HX). apply bind_ok in H as (x & X & H). eauto.
    - split; [discriminate|discriminate].
    - exfalso. apply (C110_l e [] 0 true) in ES. contradiction. }
  apply bind_np'; auto. intros (ks, t) K. destruct (KH _ _ K) as (x & HX & SK). destruct (signing_np _ _ HX) as (_ & SKK). destruct (SKK _ _ SK) as (PK & ST & v & TN). cbn [fst snd].
  destruct (governing_keys _ _ _ _ _ _ _ _ T K) as (GV & _). apply bind_np'; [apply groups_answer; now apply (NIA pre n ks t)|]. intros found CG. apply found_below in CG as FB.
  destruct (steady_answers canon v t (len ks) (map fst found) TN ST) as (b & ->). { apply Forall_map. exact FB. } rewrite bind_Ok. destruct b; [|discriminate]. cbn [negb].
  apply bind_np'. { unfold labels_of. destruct (beq _ _); [discriminate|]. destruct (beq _ _); [discriminate|]. destruct (beq _ _); discriminate. } intros labels HLB. apply bind_np'. { unfold verify_ked_labels. rewrite MO. discriminate. }
  intros ok CL. destruct ok; [|discriminate]. cbn [negb]. assert (or_else deep false = false) as DF by (destruct deep as [[|]|]; auto; congruence). apply bind_np'.
  - destruct (beq ilk (s! "icp")) eqn:BI; [discriminate|]. specialize (NZ eq_refl). assert (before n = Ok (asked_for n - 1)) as -> by (apply before_ok; auto). rewrite bind_Ok. destruct (SE (asked_for n - 1)) as (G & _ & SR).
    apply bind_np'; auto. intros text TX. destruct (SR text (or_introl TX)) as (R & HXX). apply bind_np'; auto. intros pe PE. specialize (HXX pe PE). apply bind_np'. { apply printed. now apply (said_np canon text). } intros psaid PS.
    apply bind_np'. { apply text_np. intros L. apply labels_required in CL as (CL & _). unfold labels_of in HLB. rewrite BI in HLB.
      assert (In (s! "p") labels) as IP. { destruct (beq _ _) in HLB; [injection HLB as <-; cbn; tauto|]. destruct (beq _ _) in HLB; [injection HLB as <-; cbn; tauto|discriminate]. }
      rewrite Forall_forall in CL. destruct (CL _ IP) as (y & Y). now apply (L y). }
    intros q Q. destruct (negb _); [discriminate|]. apply bind_np'. { apply rotation_np; auto. } intros u _. rewrite DF. discriminate.
  - intros seen' _. apply bind_np'; [|discriminate]. destruct there; [|discriminate]. unfold check_stored. destruct (SE (as_u32 n)) as (G & _ & SR). apply bind_np'; auto. intros text TX. destruct (SR text (or_introl TX)) as (R & HXX).
    apply bind_np'; auto. intros e' RE. apply bind_np'. { apply printed. apply (said_np canon text); auto. } intros es _. destruct (negb _); discriminate.
Qed.
