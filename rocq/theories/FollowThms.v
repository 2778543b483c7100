(** Proofs of the theorems on the acceptance of built key events. *)
From Coq Require Import String.
From Coq Require Import NArith ZArith QArith Bool List Lia.
From Verif Require Import Base Tables Matter Indexer Prims Json Tholder Common Saider Diger Sadder Signer Prefixer Pather Short Verify Ingest Events.
From Verif Require Import Spec SpecPrims SpecJson SpecCommon SpecTholder SpecSaider SpecSadder SpecPrefixer SpecSigner SpecFlow SpecLog SpecIngest SpecBuild World.
From Verif Require Import BaseFacts MatterFacts MatterText PrimsFacts PrimsThms JsonFacts CommonFacts SadderFacts SaiderFacts SadderThms SaiderThms FieldThms PrefixerThms SignerThms FlowThms ShortThms TholderFacts TholderThms VerifyFacts VerifyThms LogThms FollowFacts.
Import ListNotations.
Open Scope N_scope.

Lemma number_back sn snr snh : number_with_num sn = Ok snr -> sn < 2 ^ 128 -> number_num snr = Ok sn /\ (number_numh snr = Ok snh -> snh = to_hex sn /\ number_with_numh snh = Ok snr).
Proof.
  unfold number_with_num. intros H L. destruct (C34_l sn L) as (m & t & b & M & N & _). rewrite H in M. injection M as <-. split; auto.
  unfold number_numh. rewrite N, bind_Ok. intros [= <-]. split; auto. unfold number_with_numh. rewrite <- H. unfold number_new. cbn [is_none andb].
  assert (sn <= u128_max) as LE by (unfold u128_max; change (2 ^ 128) with 340282366920938463463374607431768211456 in L; lia).
  destruct (to_hex sn) eqn:E; [destruct (to_hex_spec sn LE) as (X & _); congruence|]. rewrite <- E, hex_round_trip by auto. reflexivity.
Qed.
Ltac fld K := rewrite K; apply field_assoc; reflexivity.
Lemma texts_unique codes ts l l' : texts_of codes ts l -> texts_of codes ts l' -> l = l'.
Proof.
  intros H. revert l'. induction H as [|t m ts l (q & -> & X & _) H IH]; intros l' H'; inversion H' as [|? m' ? k (q' & E & X' & _) HH]; subst; auto. injection E as <-. f_equal; [congruence|auto].
Qed.
Lemma keys_read canon e keys vs : sets_keys canon e keys -> texts_of [s! "B"; s! "D"; s! "1AAA"; s! "1AAB"; s! "1AAI"; s! "1AAJ"] (map VStr keys) vs -> len keys <= 4096 ->
  exists t, signing_keys canon e = Ok (vs, t) /\ satisfy t (upto 0 (length keys)) = Ok true.
Proof.
  intros (FK & v & FV & t & T & NZ & S & W) TX L. assert (exists m, d_ked e = VObj m) as O by (destruct FK as (a & b & -> & _); eauto). exists t. split.
  - unfold signing_keys. destruct (C102_thresholds_l canon e (Some t) O) as (A & _). rewrite (proj2 A) by (left; eauto). rewrite bind_Ok.
    destruct (C88_l e vs O) as (B & _). rewrite (proj2 B) by (left; eauto). reflexivity.
  - pose proof T as A. apply accepted in A as AT. destruct (tholder_num t) as [nu| |] eqn:NU.
    + eapply (all_enough canon v t nu); eauto.
      * destruct nu as [k|]; cbn [or_else]; [|lia]. pose proof (num_numeric _ _ _ _ _ _ T NU) as [_ (n & _ & ->)]. cbn in NZ. destruct k; [now elim NZ|lia].
      * change (2 ^ 27) with 134217728. unfold len in L. lia.
    + exfalso. destruct AT as [(k & [B (n & _ & ->)])|(cs & TT)]; unfold tholder_num in NU; [|rewrite (wt_weighted _ _ TT) in NU; discriminate].
      cbn [t_weighted t_thold to_i64] in NU. rewrite bind_Ok in NU. replace ((_ <? _)%Z || _) with false in NU by (symmetry; apply orb_false_iff; lia). discriminate.
    + exfalso. destruct AT as [(k & [B (n & _ & ->)])|(cs & TT)]; unfold tholder_num in NU; [|rewrite (wt_weighted _ _ TT) in NU; discriminate].
      cbn [t_weighted t_thold to_i64] in NU. rewrite bind_Ok in NU. destruct (_ || _) in NU; discriminate.
Qed.
Lemma suits_written canon dflt sith n v t nu iv kt : covers canon sith n -> v = or_else sith dflt -> tholder_with_sith canon v = Ok t -> tholder_num t = Ok nu -> 1 <= or_else nu 1 -> t_size t <= n -> n < 2 ^ 27 ->
  (exists z, dflt = VInt z) -> threshold_value iv t = Ok kt -> suits canon kt n.
Proof.
  intros CV E T NU L S B (z & D) KT. assert (t_weighted t = true -> SpecTholder.keys (t_thold t) = n) as W.
  { destruct sith as [v'|]; cbn in E; subst v; [apply (CV v' t); auto|]. subst dflt. unfold tholder_with_sith in T. rewrite sith_new in T. unfold process_sith in T. cbn [to_i64] in T.
    unfold process_unweighted in T. destruct (_ <? _)%Z; [discriminate|]. destruct (_ <? _)%Z; [discriminate|]. apply bind_ok in T as (x & _ & T). injection T as <-. discriminate. }
  assert (SpecTholder.keys (t_thold t) < 2 ^ 27) as K.
  { pose proof (T : tholder_new canon None None (Some v) = Ok t) as A. apply accepted in A as [(k & [_ (x & _ & ->)])|(cs & TT)]; [reflexivity|]. rewrite W; auto. apply (wt_weighted _ _ TT). }
  exists t. split; [exact (reread _ _ _ _ _ T K KT)|]. split; [|auto].
  intros E0. destruct nu as [k|]; cbn [or_else] in L.
  - pose proof (num_numeric canon None None (Some v) _ _ T NU) as [_ (x & _ & ->)]. cbn in E0. injection E0 as E0. lia.
  - pose proof (T : tholder_new canon None None (Some v) = Ok t) as A. apply accepted in A as [(k & [KB (x & _ & ->)])|(cs & TT)]; [|rewrite (wt_thold _ _ TT) in E0; discriminate].
    unfold tholder_num in NU. cbn [t_weighted t_thold to_i64] in NU. rewrite bind_Ok in NU. destruct (_ || _) in NU; discriminate.
Qed.

(*# C138_inception_accepted_partial
   What holds: an inception built for the public keys of a key set, with a self-addressing identifier (code E) and no delegator, with no threshold given or one that is not
   zero and has a weight for each key, and signed by the whole key set, is accepted by every store that has no events of its identifier. The event's field i is its own
   identifier, and it sets those keys with a threshold they reach together. Missing: other codes of the identifier, no code with a single key, delegated inceptions, and
   fewer weights than keys, for all of which the statement is false.
##
Example C138_case : exists ks nd, ks_verfers_qb64 toy keys0 = Ok ks /\ ks_digers_qb64 mix toy keys1 = Ok nd /\
  incept no_floats mix ks (Some (VStr (s! "2"))) (Some nd) (Some (VStr (s! "2"))) None None None None None None (Some (s! "E")) None None = Ok event0 /\
  (exists sigs, ks_sign mix toy (fun _ => []) keys0 (d_raw event0) None = Ok sigs) /\ correct toy /\ sized_hash mix /\ covers no_floats (Some (VStr (s! "2"))) (len ks) /\
  count_key_events (view no_floats empty) pre0 = Ok 0.
Proof.
  do 2 eexists. split; [vm_compute; reflexivity|]. split; [vm_compute; reflexivity|]. split; [vm_compute; reflexivity|]. split; [eexists; vm_compute; reflexivity|].
  split; [exact toy_correct|]. split; [exact mix_sized|]. split; [|vm_compute; reflexivity]. intros v t [= <-] T. vm_compute in T. injection T as <-. split; discriminate.
Qed.
#*)
Lemma C138_l (canon : bytes -> option bytes) (hash : bytes -> bytes -> bytes) (cr : crypto) (messages_of : bytes -> R (list message)) (k : keyset) (keys : list bytes) (sith : option value)
    (ndigs : option (list bytes)) (nsith : option value) (toad : option N) (wits cnfg : option (list bytes)) (data : option (list value)) (ver : option version) (kind : option bytes)
    (intive : option bool) (rng : N -> bytes) (e : sadder) (sigs : list (indexer * matter)) :
  correct cr -> sized_hash hash -> k_offset k = 0 -> ks_verfers_qb64 cr k = Ok keys -> covers canon sith (len keys) ->
  incept canon hash keys sith ndigs nsith toad wits cnfg data ver kind (Some (s! "E")) intive None = Ok e -> ks_sign hash cr rng k (d_raw e) None = Ok sigs ->
  exists pre, field_of (d_ked e) (s! "i") (VStr pre) /\ sad_said e = Ok pre /\ sets_keys canon e keys /\
    forall st fuel deep seen, count_key_events st pre = Ok 0 ->
      verify_key_event canon hash cr messages_of (S fuel) st e [GSigs (map fst sigs)] deep seen = Ok (false, seen).
Proof.
  intros CR SH O KS CV H SG. destruct (incept_shape _ _ _ _ _ _ _ _ _ _ _ _ _ _ SH H) as (vs & t & p & th & nu & xt & toader & kt & nt & bt & TH & NU & L1 & S1 & _ & _ & _ & KT & _ & _ & K & IP & XP & EP & SD & CP & PV).
  destruct (keyset_signs _ _ _ _ _ _ _ CR O KS SG) as (vf & VF & TX & LK & CG).
  assert (sets_keys canon e keys) as SK.
  { split; [fld K|]. exists kt. split; [fld K|]. eapply suits_written; eauto; [|unfold half; eauto]. change (2 ^ 27) with 134217728. lia. }
  exists t. split; [fld K|]. split; auto. split; auto. intros st fuel deep seen CT. destruct (keys_read _ _ _ _ SK TX LK) as (tt' & SGK & EN).
  apply (accepted_intro canon hash cr messages_of fuel st e _ deep seen false seen t p 0 (s! "icp") t (vf, tt') (map (fun i => (i, i)) (upto 0 (length keys)))). split.
  - unfold serder_pre. rewrite K. reflexivity.
  - unfold prefixer_with_qb64, prefixer_new. exact XP.
  - unfold serder_sn, serder_sner. rewrite K. vm_compute. reflexivity.
  - unfold text_at. rewrite K. reflexivity.
  - exact SD.
  - unfold place_event. rewrite CT, bind_Ok. cbn [beq]. change (beq (s! "icp") (s! "icp")) with true. cbv iota. rewrite PV, bind_Ok. cbn [negb]. change (0 =? 0) with true. cbn [negb].
    unfold serder_pre. rewrite K. cbn. rewrite beq_refl. reflexivity.
  - unfold keys_for. assert (serder_est e = Ok true) as -> by (unfold serder_est; rewrite K; reflexivity). exact SGK.
  - exact CG.
  - cbn [snd]. rewrite map_map, map_id. exact EN.
  - exists icp_labels. split; [reflexivity|]. unfold verify_ked_labels. rewrite K. reflexivity.
  - left. auto.
  - discriminate.
Qed.

(*# C138_only_self_addressing_accepted
   An inception that was built is accepted, by whatever store and with whatever signatures, only if its identifier was asked for with the code E and it has no delegator.
##
Example C138_only_case : exists ks nd, incept no_floats mix ks (Some (VStr (s! "2"))) (Some nd) (Some (VStr (s! "2"))) None None None None None None (Some (s! "E")) None None = Ok event0 /\
  verify_key_event no_floats mix toy no_messages 1 (view no_floats empty) event0 [GSigs sigs0] None [] = Ok (false, []).
Proof. exists (got [] (ks_verfers_qb64 toy keys0)), (got [] (ks_digers_qb64 mix toy keys1)). split; vm_compute; reflexivity. Qed.
#*)
Lemma C138_only_l (canon : bytes -> option bytes) (hash : bytes -> bytes -> bytes) (cr : crypto) (messages_of : bytes -> R (list message)) (keys : list bytes) (sith : option value)
    (ndigs : option (list bytes)) (nsith : option value) (toad : option N) (wits cnfg : option (list bytes)) (data : option (list value)) (ver : option version) (kind : option bytes)
    (code : option bytes) (intive : option bool) (delpre : option bytes) (e : sadder) (fuel : nat) (st : store) (g : list group) (deep : option bool) (seen : list bytes) (there : bool * list bytes) :
  sized_hash hash -> incept canon hash keys sith ndigs nsith toad wits cnfg data ver kind code intive delpre = Ok e ->
  verify_key_event canon hash cr messages_of fuel st e g deep seen = Ok there -> code = Some (s! "E") /\ delpre = None.
Proof.
  intros SH H V. destruct there as (there & seen'). apply accepted_inv in V as (f & pre & p & sn & ilk & said & ks & found & -> & A).
  destruct (incept_other _ _ _ _ _ _ _ _ _ _ _ _ _ _ _ _ SH H) as [C|[(q & Q & ->)|(Q & p' & pre' & t & P & X & D & S & XT & CT)]]; auto; exfalso; destruct A as [Hpre Hp Hsn Hilk Hsaid Hplace Hkeys Hfound He (labels & HL & HV) Hprior Hst].
  - rewrite Q in Hilk. injection Hilk as <-. discriminate.
  - rewrite Q in Hilk. injection Hilk as <-. destruct (place_ok _ _ _ _ _ _ _ _ _ Hplace Hpre) as (count & _ & [(_ & _ & _ & -> & _)|(B & _)]); [|discriminate].
    rewrite P in Hpre. injection Hpre as ->. rewrite S in Hsaid. injection Hsaid as ->. rewrite X in XT. injection XT as ->. unfold digestive in D. rewrite CT in D. discriminate.
Qed.

(*# C138_inception_accepted_refuted
   False as stated: an inception built with the defaults for a single key, whose identifier is then the key itself, is refused by an empty store although the key signed it,
   because field d differs from field i; and verifying an inception for two keys with one weight panics when both have signed.
#*)
Lemma C138_no_l : correct toy /\ sized_hash mix /\
  (exists ks e sigs, ks_verfers_qb64 toy keys2 = Ok ks /\ incept no_floats mix ks None None None None None None None None None None None None = Ok e /\ ks_sign mix toy (fun _ => []) keys2 (d_raw e) None = Ok sigs /\
    serder_with_raw no_floats (d_raw e) = Ok e /\ verify_key_event no_floats mix toy no_messages 1 (view no_floats empty) e [GSigs (map fst sigs)] None [] = Err EVerification) /\
  (exists ks e sigs, ks_verfers_qb64 toy keys0 = Ok ks /\ incept no_floats mix ks (Some (VArr [VStr (s! "1")])) None None None None None None None None (Some (s! "E")) None None = Ok e /\
    ks_sign mix toy (fun _ => []) keys0 (d_raw e) None = Ok sigs /\ serder_with_raw no_floats (d_raw e) = Ok e /\
    verify_key_event no_floats mix toy no_messages 1 (view no_floats empty) e [GSigs (map fst sigs)] None [] = Panic).
Proof.
  split; [exact toy_correct|]. split; [exact mix_sized|]. split; do 3 eexists; (split; [vm_compute; reflexivity|]; split; [vm_compute; reflexivity|]; split; [vm_compute; reflexivity|]; split; vm_compute; reflexivity).
Qed.

Lemma not_deep f canon hash cr mo st event pe psaid deep seen : deep <> Some true -> deeper canon hash cr mo f st event pe psaid deep seen seen.
Proof. unfold deeper. destruct deep as [[]|]; cbn; intros; try congruence; auto. Qed.

(*# C139_interaction_accepted
   An interaction built for an identifier with the number of its next event (below 2^32) and the identifier of its last event, and signed by the whole key set whose keys the
   last establishment event set, with a threshold they reach together, is accepted.
##
Example C139_case : exists ks dig e sigs p, ks_verfers_qb64 toy keys1 = Ok ks /\ sad_said event1 = Ok dig /\ interact no_floats mix pre0 dig (Some 2) None None None = Ok e /\
  ks_sign mix toy (fun _ => []) keys1 (d_raw e) None = Ok sigs /\ prefixer_with_qb64 mix pre0 = Ok p /\ count_key_events (view no_floats log2) pre0 = Ok 2 /\
  logged no_floats (view no_floats log2) pre0 1 event1 dig /\ established no_floats (view no_floats log2) pre0 1 event1 /\ sets_keys no_floats event1 ks /\ correct toy /\ sized_hash mix.
Proof.
  do 5 eexists. do 6 (split; [vm_compute; reflexivity|]). split. { exists (d_raw event1). split; [vm_compute; reflexivity|]. split; vm_compute; reflexivity. }
  split. { exists (d_raw event1). split; vm_compute; reflexivity. } split; [|split; [exact toy_correct|exact mix_sized]].
  split; [apply field_assoc; vm_compute; reflexivity|]. eexists. split; [apply field_assoc; vm_compute; reflexivity|]. eexists. split; [vm_compute; reflexivity|].
  split; [discriminate|]. split; [vm_compute; discriminate|discriminate].
Qed.
#*)
Lemma C139_l (canon : bytes -> option bytes) (hash : bytes -> bytes -> bytes) (cr : crypto) (messages_of : bytes -> R (list message)) (k : keyset) (keys : list bytes) (pre dig : bytes) (sn : N)
    (data : option value) (ver : option version) (kind : option bytes) (rng : N -> bytes) (e : sadder) (sigs : list (indexer * matter)) (p : matter) (st : store) (pe ee : sadder)
    (fuel : nat) (deep : option bool) (seen : list bytes) :
  correct cr -> sized_hash hash -> k_offset k = 0 -> ks_verfers_qb64 cr k = Ok keys -> interact canon hash pre dig (Some sn) data ver kind = Ok e -> ks_sign hash cr rng k (d_raw e) None = Ok sigs ->
  prefixer_with_qb64 hash pre = Ok p -> sn < 2 ^ 32 -> count_key_events st pre = Ok sn -> logged canon st pre (sn - 1) pe dig -> established canon st pre (sn - 1) ee -> sets_keys canon ee keys ->
  deep <> Some true -> verify_key_event canon hash cr messages_of (S fuel) st e [GSigs (map fst sigs)] deep seen = Ok (false, seen).
Proof.
  intros CR SH O KS H SG PX B CT (text & GE & PS & PD) (text' & GL & ES) SK ND.
  destruct (interact_shape _ _ _ _ _ _ _ _ _ SH H) as (vs & snr & snh & t & NS & NH & (n & NN & N1) & K & SD & XT & CT' & SV). cbn [or_else] in *.
  destruct (keyset_signs _ _ _ _ _ _ _ CR O KS SG) as (vf & VF & TX & LK & CG).
  destruct (number_back sn snr snh NS) as (NB & BK). { change (2 ^ 32) with 4294967296 in B. change (2 ^ 128) with 340282366920938463463374607431768211456. lia. }
  destruct (BK NH) as (_ & RB). rewrite NB in NN. injection NN as <-. destruct (keys_read _ _ _ _ SK TX LK) as (tt' & SGK & EN).
  assert (sn mod 4294967296 = sn) as MS by (apply N.mod_small; exact B). assert (before sn = Ok (sn - 1)) as BF by (apply before_ok; rewrite MS; split; auto).
  apply (accepted_intro canon hash cr messages_of fuel st e _ deep seen false seen pre p sn (s! "ixn") t (vf, tt') (map (fun i => (i, i)) (upto 0 (length keys)))). split.
  - unfold serder_pre. rewrite K. reflexivity.
  - exact PX.
  - assert (serder_sner e = Ok snr) as SN by (unfold serder_sner; rewrite K; exact RB). unfold serder_sn. rewrite SN. exact NB.
  - unfold text_at. rewrite K. reflexivity.
  - exact SD.
  - unfold place_event. rewrite CT, bind_Ok. change (beq (s! "ixn") (s! "icp")) with false. cbv iota. rewrite SV, bind_Ok. cbn [negb]. replace (sn <? 1) with false by (symmetry; apply N.ltb_ge; auto).
    rewrite N.ltb_irrefl, N.eqb_refl. reflexivity.
  - unfold keys_for. assert (serder_est e = Ok false) as -> by (unfold serder_est; rewrite K; reflexivity). rewrite bind_Ok, BF, bind_Ok, GL, bind_Ok, ES, bind_Ok. exact SGK.
  - exact CG.
  - cbn [snd]. rewrite map_map, map_id. exact EN.
  - exists ixn_labels. split; [reflexivity|]. unfold verify_ked_labels. rewrite K. reflexivity.
  - right. split; [reflexivity|]. exists (sn - 1), text, pe, dig. do 4 (split; [assumption|]). split; [unfold text_at; rewrite K; reflexivity|]. split; [|now apply not_deep].
    unfold check_rotation. assert (serder_est e = Ok false) as -> by (unfold serder_est; rewrite K; reflexivity). reflexivity.
  - discriminate.
Qed.

Lemma next_read canon hash cr ae k keys : sized_hash hash -> names_next canon hash cr ae k -> ks_verfers_qb64 cr k = Ok keys -> len keys <= 4096 ->
  exists t, next_keys canon ae = Ok (map (fun t => Mt (s! "E") 0 (hash (s! "E") t)) keys, t) /\ satisfy t (upto 0 (length keys)) = Ok true.
Proof.
  intros SH (nd & v & DG & FN & FV & t & T & NZ & S & W) KS L. pose proof (keyset_digests _ _ _ _ _ SH KS DG) as TX. assert (exists m, d_ked ae = VObj m) as O by (destruct FN as (a & b & -> & _); eauto).
  assert (length nd = length keys) as LN. { clear - TX. apply length_pair in TX. rewrite !map_length in TX. exact TX. }
  assert (len nd = len keys) as LN' by (unfold len; congruence). exists t. split.
  - unfold next_keys. destruct (C88_l ae (map (fun t => Mt (s! "E") 0 (hash (s! "E") t)) keys) O) as (_ & B & _). rewrite (proj2 B) by (left; eauto). rewrite bind_Ok.
    destruct (C102_thresholds_l canon ae (Some t) O) as (_ & A). rewrite (proj2 A) by (left; eauto). reflexivity.
  - rewrite LN' in *. pose proof T as A. apply accepted in A as AT. destruct (tholder_num t) as [nu| |] eqn:NU.
    + eapply (all_enough canon v t nu); eauto.
      * destruct nu as [j|]; cbn [or_else]; [|lia]. pose proof (num_numeric _ _ _ _ _ _ T NU) as [_ (n & _ & ->)]. cbn in NZ. destruct j; [now elim NZ|lia].
      * change (2 ^ 27) with 134217728. unfold len in L. lia.
    + exfalso. destruct AT as [(j & [B (n & _ & ->)])|(cs & TT)]; unfold tholder_num in NU; [|rewrite (wt_weighted _ _ TT) in NU; discriminate].
      cbn [t_weighted t_thold to_i64] in NU. rewrite bind_Ok in NU. replace ((_ <? _)%Z || _) with false in NU by (symmetry; apply orb_false_iff; lia). discriminate.
    + exfalso. destruct AT as [(j & [B (n & _ & ->)])|(cs & TT)]; unfold tholder_num in NU; [|rewrite (wt_weighted _ _ TT) in NU; discriminate].
      cbn [t_weighted t_thold to_i64] in NU. rewrite bind_Ok in NU. destruct (_ || _) in NU; discriminate.
Qed.

(*# C140_rotation_accepted
   A rotation, not a delegated one, built for an identifier with the number of its next event (below 2^32) and the identifier of its last event, for the keys of a key set
   whose digests, all of them and in order, the last establishment event announced with a threshold they reach together, with no threshold given or one that is not zero and
   has a weight for each key, and signed by the whole key set, is accepted; and it sets those keys with a threshold they reach together.
##
Example C140_case : exists ks nd dig e sigs p, ks_verfers_qb64 toy keys1 = Ok ks /\ ks_digers_qb64 mix toy keys2 = Ok nd /\ sad_said event0 = Ok dig /\
  rotate no_floats mix pre0 ks dig None 1 None (Some nd) None None None None None None None None None = Ok e /\
  ks_sign mix toy (fun _ => []) keys1 (d_raw e) None = Ok sigs /\ prefixer_with_qb64 mix pre0 = Ok p /\ count_key_events (view no_floats log1) pre0 = Ok 1 /\
  logged no_floats (view no_floats log1) pre0 0 event0 dig /\ announcing no_floats (view no_floats log1) pre0 1 event0 /\ names_next no_floats mix toy event0 keys1.
Proof.
  do 6 eexists. do 7 (split; [vm_compute; reflexivity|]). assert (logged no_floats (view no_floats log1) pre0 0 event0 pre0) as L. { exists (d_raw event0). split; [vm_compute; reflexivity|]. split; vm_compute; reflexivity. }
  split; [exact L|]. split. { exists event0, pre0, (s! "icp"). split; [exact L|]. split; [apply field_assoc; vm_compute; reflexivity|]. left. split; [now left|reflexivity]. }
  eexists _, (VStr (s! "2")). split; [vm_compute; reflexivity|]. split; [apply field_assoc; vm_compute; reflexivity|]. split; [apply field_assoc; vm_compute; reflexivity|]. eexists. split; [vm_compute; reflexivity|].
  split; [discriminate|]. split; [vm_compute; discriminate|discriminate].
Qed.
#*)
Lemma C140_l (canon : bytes -> option bytes) (hash : bytes -> bytes -> bytes) (cr : crypto) (messages_of : bytes -> R (list message)) (k : keyset) (keys : list bytes) (pre dig : bytes)
    (ilk : option bytes) (sn : N) (sith : option value) (ndigs : option (list bytes)) (nsith : option value) (toad : option N) (wits cuts adds : option (list bytes)) (data : option (list value))
    (ver : option version) (kind : option bytes) (intive : option bool) (rng : N -> bytes) (e : sadder) (sigs : list (indexer * matter)) (p : matter) (st : store) (pe ae : sadder)
    (fuel : nat) (deep : option bool) (seen : list bytes) :
  correct cr -> sized_hash hash -> k_offset k = 0 -> ks_verfers_qb64 cr k = Ok keys -> covers canon sith (len keys) ->
  rotate canon hash pre keys dig ilk sn sith ndigs nsith toad wits cuts adds data ver kind intive = Ok e -> ilk <> Some (s! "drt") -> ks_sign hash cr rng k (d_raw e) None = Ok sigs ->
  prefixer_with_qb64 hash pre = Ok p -> sn < 2 ^ 32 -> count_key_events st pre = Ok sn -> logged canon st pre (sn - 1) pe dig -> announcing canon st pre sn ae -> names_next canon hash cr ae k ->
  deep <> Some true -> sets_keys canon e keys /\ verify_key_event canon hash cr messages_of (S fuel) st e [GSigs (map fst sigs)] deep seen = Ok (false, seen).
Proof.
  intros CR SH O KS CV H NI SG PX B CT (text & GE & PS & PD) AN NN ND.
  destruct (rotate_shape _ _ _ _ _ _ _ _ _ _ _ _ _ _ _ _ _ _ _ SH H) as (vs & snr & snh & t & th & nu & xt & xu & toader & newits & kt & nt & bt & NS & NH & (n & NM & N1) & TH & NU & L1 & S1 & _ & _ & _ & _ & _ & _ & KT & _ & _ & IL & K & SD & XT & CT' & SV).
  assert (or_else ilk (s! "rot") = s! "rot") as IR. { destruct ilk as [i|]; [|reflexivity]. cbn [or_else] in *. destruct IL as [<-|[<-|[]]]; congruence. } rewrite IR in K.
  destruct (keyset_signs _ _ _ _ _ _ _ CR O KS SG) as (vf & VF & TX & LK & CG).
  assert (sets_keys canon e keys) as SK.
  { split; [fld K|]. exists kt. split; [fld K|]. eapply suits_written; eauto; [|unfold half; eauto]. change (2 ^ 27) with 134217728. lia. }
  split; [exact SK|].
  destruct (number_back sn snr snh NS) as (NB & BK). { change (2 ^ 32) with 4294967296 in B. change (2 ^ 128) with 340282366920938463463374607431768211456. lia. }
  destruct (BK NH) as (_ & RB). rewrite NB in NM. injection NM as <-. destruct (keys_read _ _ _ _ SK TX LK) as (tt' & SGK & EN).
  destruct (next_read _ _ _ _ _ _ SH NN KS LK) as (nth' & NK & ENN).
  assert (sn mod 4294967296 = sn) as MS by (apply N.mod_small; exact B). assert (before sn = Ok (sn - 1)) as BF by (apply before_ok; rewrite MS; split; auto).
  assert (serder_est e = Ok true) as EST by (unfold serder_est; rewrite K; reflexivity).
  apply (accepted_intro canon hash cr messages_of fuel st e _ deep seen false seen pre p sn (s! "rot") t (vf, tt') (map (fun i => (i, i)) (upto 0 (length keys)))). split.
  - unfold serder_pre. rewrite K. reflexivity.
  - exact PX.
  - assert (serder_sner e = Ok snr) as SN by (unfold serder_sner; rewrite K; exact RB). unfold serder_sn. rewrite SN. exact NB.
  - unfold text_at. rewrite K. reflexivity.
  - exact SD.
  - unfold place_event. rewrite CT, bind_Ok. change (beq (s! "rot") (s! "icp")) with false. cbv iota. rewrite SV, bind_Ok. cbn [negb]. replace (sn <? 1) with false by (symmetry; apply N.ltb_ge; auto).
    rewrite N.ltb_irrefl, N.eqb_refl. reflexivity.
  - unfold keys_for. rewrite EST. exact SGK.
  - exact CG.
  - cbn [snd]. rewrite map_map, map_id. exact EN.
  - exists rot_labels. split; [reflexivity|]. unfold verify_ked_labels. rewrite K. reflexivity.
  - right. split; [reflexivity|]. exists (sn - 1), text, pe, dig. do 4 (split; [assumption|]). split; [unfold text_at; rewrite K; reflexivity|]. split; [|now apply not_deep].
    unfold check_rotation. rewrite EST, bind_Ok. destruct AN as (pe' & said & il & (text' & GE' & PS' & PD') & TY & AN). unfold asked_for in *. change (2 ^ 32) with 4294967296 in *. rewrite MS in *.
    rewrite GE in GE'. injection GE' as <-. rewrite PS in PS'. injection PS' as <-. cbn [fst]. 
    assert (serder_est pe = Ok (has_code establishing il)) as ->. { apply est_field. exists il. split; auto. apply has_code_In. } rewrite bind_Ok.
    assert ((let* next := if has_code establishing il then next_keys canon pe else let* n := before sn in let* raw := get_latest_establishment_event_as_of_sn st pre n in let* e0 := serder_with_raw canon raw in next_keys canon e0 in Ok next) = Ok (map (fun t => Mt (s! "E") 0 (hash (s! "E") t)) keys, nth')) as NX.
    { destruct AN as [(I & ->)|(I & text'' & GL & ES)].
      - apply has_code_In in I. rewrite I, NK. reflexivity.
      - destruct (has_code establishing il) eqn:Q; [apply has_code_In in Q; contradiction|]. rewrite BF, bind_Ok, GL, bind_Ok, ES, bind_Ok, NK. reflexivity. }
    destruct (if has_code establishing il then _ else _) as [nx| |]; try discriminate. rewrite bind_Ok in NX. injection NX as ->. rewrite bind_Ok. cbn [fst snd].
    rewrite (revealed_all hash vf keys SH VF (length keys)), bind_Ok by (auto; unfold len; lia). rewrite ENN. reflexivity.
  - discriminate.
Qed.
