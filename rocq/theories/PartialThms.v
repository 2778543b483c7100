(** Proofs of the theorems on events with reserve keys. *)
From Coq Require Import String.
From Coq Require Import NArith ZArith QArith Bool List Lia.
From Verif Require Import Base Util Tables Matter Indexer Counter Prims Json Tholder Common Saider Diger Sadder Signer Prefixer Pather Short Verify Ingest Events Partial.
From Verif Require Import Spec SpecPrims SpecJson SpecCommon SpecTholder SpecSaider SpecSadder SpecPrefixer SpecSigner SpecFlow SpecLog SpecIngest SpecBuild SpecLife SpecPartial World.
From Verif Require Import BaseFacts MatterFacts MatterText PrimsFacts PrimsThms JsonFacts CommonFacts SadderFacts SaiderFacts SadderThms SaiderThms FieldThms PrefixerThms SignerThms CreatorThms FlowThms ShortThms TholderFacts TholderThms VerifyFacts VerifyThms LogThms IngestThms RoundThms FollowFacts FollowThms LifeThms PartialFacts PartialCases.
Import ListNotations.
Open Scope N_scope.

(** ** Key sets that were generated *)
Lemma generated_keys cr kdf salter code count offset made tr path temp k keys : generated cr kdf salter code (Some count) offset made tr path temp = Ok k -> k_offset k = offset /\
  (ks_verfers_qb64 cr k = Ok keys -> len keys = count).
Proof.
  unfold generated. intros H. bok H sa SA. bok H l SL. bok H ks KS. injection H as <-. split; auto. intros V.
  unfold salter_signers in SL. destruct (signers_nth _ _ _ _ _ _ _ _ _ _ _ _ SL) as (A & _). apply prints_each, length_pair in KS. rewrite map_length in KS.
  unfold ks_verfers_qb64, ks_verfers, ks_signers in V. bok V vs G. bok G gs GS. injection G as <-. cbn [k_transferable k_keys] in GS. destruct (signers_made _ _ _ _ GS) as (_ & L). apply prints_each, length_pair in V. rewrite map_length in V.
  cbn [or_else] in A. unfold len. lia.
Qed.
Lemma covers_shares canon z n : n < 10 ^ 40 -> covers canon (Some (shares z n)) (z + n).
Proof.
  intros B v t [= <-] T. destruct (shares_read canon z n t B T) as (P & W). split; [rewrite (wt_thold _ _ W); discriminate|]. intros _. rewrite (keys_thold _ _ W). cbn [concat]. now rewrite app_nil_r, weighed_len.
Qed.
Lemma shares_back canon z n th iv kt : z + n < 2 ^ 27 -> tholder_with_sith canon (shares z n) = Ok th -> threshold_value iv th = Ok kt -> tholder_with_sith canon kt = Ok th.
Proof.
  intros B T V. assert (n < 10 ^ 40) as BN by (change (2 ^ 27) with 134217728 in B; change (10 ^ 40) with 10000000000000000000000000000000000000000; lia).
  destruct (shares_read canon z n th BN T) as (_ & W). eapply reread; eauto. rewrite (keys_thold _ _ W). cbn [concat]. now rewrite app_nil_r, weighed_len.
Qed.
(** ** The say of a key set *)
Lemma empowered canon cr e k others keys vo vk th z n v : ks_verfers_qb64 cr k = Ok keys -> k_offset k = z -> len others = z -> len keys = n -> z + n < 2 ^ 27 -> 0 < n -> weighted_t [weighed z n] th ->
  field_of (d_ked e) (s! "k") (VArr (map VStr (others ++ keys))) -> field_of (d_ked e) (s! "kt") v -> tholder_with_sith canon v = Ok th ->
  texts_of [s! "B"; s! "D"; s! "1AAA"; s! "1AAB"; s! "1AAI"; s! "1AAJ"] (map VStr others) vo -> texts_of [s! "B"; s! "D"; s! "1AAA"; s! "1AAB"; s! "1AAI"; s! "1AAJ"] (map VStr keys) vk ->
  empowers canon cr e k /\ signing_keys canon e = Ok (vo ++ vk, th).
Proof.
  intros KS <- LO <- B P W FK FV T TO TK. assert (exists m, d_ked e = VObj m) as O by (destruct FK as (a & b & -> & _); eauto).
  assert (serder_verfers e = Ok (vo ++ vk)) as SV. { destruct (C88_l e (vo ++ vk) O) as (X & _). apply X. left. eexists. split; [exact FK|]. rewrite map_app. apply Forall2_app; auto. }
  assert (serder_tholder canon e = Ok (Some th)) as ST. { destruct (C102_thresholds_l canon e (Some th) O) as (A & _). rewrite (proj2 A); auto. left. eauto. }
  split; [|unfold signing_keys; rewrite ST, bind_Ok, SV; reflexivity].
  exists others, keys, (vo ++ vk), th. do 5 (split; auto). intros idx I. apply (shares_enough (k_offset k) (len keys)); auto. change (2 ^ 27) with 134217728 in B. change (2 ^ 32) with 4294967296. lia.
Qed.
Lemma empowers_signs canon cr hash rng e k ser sigs : correct cr -> empowers canon cr e k -> k_offset k < 2 ^ 32 -> ks_sign hash cr rng k ser None = Ok sigs ->
  exists vs t found, signing_keys canon e = Ok (vs, t) /\ check_groups cr vs ser [GSigs (map fst sigs)] = Ok found /\ satisfy t (map fst found) = Ok true.
Proof.
  intros CR (others & keys & vs & t & KS & LO & FK & SV & ST & EN) B SG. destruct (keyset_read _ _ _ CR KS) as (vk & KV & _ & TK).
  assert (exists m, d_ked e = VObj m) as O by (destruct FK as (a & b & -> & _); eauto). pose proof SV as SV'. destruct (C88_l e vs O) as (X & _). apply X in SV' as [(l & FK' & TX)|(L & _)]; [|now elim (L _ FK)].
  destruct O as (m & OM). rewrite OM in FK, FK'. apply field_assoc in FK. apply field_assoc in FK'. rewrite FK in FK'. injection FK' as <-. rewrite map_app in TX. apply Forall2_app_inv_l in TX as (vo & vk' & TO & TK' & ->).
  assert (vk' = vk) as -> by exact (texts_unique _ _ _ _ TK' TK).
  assert (len vo = k_offset k) as LV. { unfold len. apply length_pair in TO. rewrite map_length in TO. rewrite <- TO. exact LO. }
  assert (len vk = len keys) as LK. { unfold len. apply length_pair in TK. rewrite map_length in TK. now rewrite TK. }
  destruct (keyset_signs_in cr hash rng k ser vk sigs vo [] CR (eq_sym LV) ltac:(now rewrite LV) KV SG) as (CS & _). rewrite app_nil_r in CS.
  exists (vo ++ vk), t, (map (fun i => (i, i)) (upto (len vo) (length vk))). split; [unfold signing_keys; rewrite ST, bind_Ok, SV; reflexivity|]. split; [cbn [check_groups]; rewrite CS, !bind_Ok, app_nil_r; reflexivity|].
  rewrite map_map, map_id. apply EN. intros i. rewrite upto_in, LV. unfold len in LK |- *. lia.
Qed.

(** ** Partial rotation *)
Lemma built_parts hash cr kdf canon random pre dig sn key_sn code scount rcount tier salt next_salt current next_keys next_sith e sk ck :
  rotate_built hash cr kdf canon random pre dig sn key_sn code scount rcount tier salt next_salt current next_keys next_sith = Ok (e, sk, ck) ->
  exists public ndigs cc rc fresh nsith, reserves hash cr kdf key_sn code (or_else rcount 3) tier salt next_salt current next_keys next_sith = Ok (public, ndigs, cc, rc, ck) /\
    len public = cc /\ k_offset sk = cc /\ ks_verfers_qb64 cr sk = Ok fresh /\ len fresh = or_else scount 2 /\ next_threshold canon next_sith rc = Ok nsith /\
    rotate canon hash pre (public ++ fresh) dig None sn (Some (shares cc (or_else scount 2))) (Some ndigs) (Some nsith) (Some 0) None None None None None None None = Ok e.
Proof.
  intros H. unfold rotate_built in H. cbv zeta in H. bok H x X. destruct x as ((((public & ndigs) & cc) & rc) & ck'). bok H sk' SK. bok H frs FR. bok H nsith NS. bok H e' RT. injection H as <- <- <-.
  exists public, ndigs, cc, rc, frs, nsith. split; auto. unfold generate_keys in SK. destruct (generated_keys _ _ _ _ _ _ _ _ _ _ _ frs SK) as (O & L). split; [|auto 8].
  unfold reserves in X. destruct salt as [salt|].
  - destruct (_ || _) in X; [discriminate|]. destruct next_salt as [ns|]; [|discriminate]. bok X ck KC. bok X after AF. bok X rk RK. bok X pb PB. bok X nd DG. injection X as <- <- <- <- <-.
    unfold keys_from_salt in KC. destruct (generated_keys _ _ _ _ _ _ _ _ _ _ _ pb KC) as (_ & L'). auto.
  - destruct current as [cu|]; [|discriminate]. destruct next_keys as [nk|]; [|discriminate]. destruct next_sith; [|discriminate]. destruct (negb _) in X; [discriminate|]. now injection X as <- <- <- <- <-.
Qed.
Lemma shown_keys hash cr kdf key_sn code rcount tier salt next_salt current next_keys next_sith public ndigs cc rc ck k :
  reserves hash cr kdf key_sn code rcount tier salt next_salt current next_keys next_sith = Ok (public, ndigs, cc, rc, ck) -> shows cr ck current k -> k_offset k = 0 /\ ks_verfers_qb64 cr k = Ok public.
Proof.
  intros X S. unfold reserves in X. destruct salt as [salt|].
  - destruct (_ || _) in X; [discriminate|]. destruct next_salt as [ns|]; [|discriminate]. bok X ck' KC. bok X after AF. bok X rk RK. bok X pb PB. bok X nd DG. injection X as <- <- <- <- <-.
    unfold keys_from_salt in KC. destruct (generated_keys _ _ _ _ _ _ _ _ _ _ _ pb KC) as (O & _). destruct S as [[= <-]|([=] & _)]. auto.
  - destruct current as [cu|]; [|discriminate]. destruct next_keys as [nk|]; [|discriminate]. destruct next_sith; [|discriminate]. destruct (negb _) in X; [discriminate|]. injection X as <- <- <- <- <-.
    destruct S as [[=]|(_ & O & sh & [= <-] & K)]. auto.
Qed.

(*# C145_reserve_rotation_accepted
   A rotation that shows reserve keys and brings new signing keys, built for an identifier with the number of its next event (below 2^32) and the identifier of its last event,
   is accepted once the key set of the reserve keys and the new key set have signed it, if the last establishment event announced the digests of the reserve keys, all of them
   and in order, with a threshold they reach together. The reserve keys may come from a salt or be given as texts. The event gives the say to the new key set.
##
Example C145_rotation_case : rotate_built mix toy toy_kdf no_floats salt1 ppre ppre 1 1 None None None None (Some salt0) (Some salt1) None None None = Ok (part1, pkeys1, Some shown1) /\
  shows toy (Some shown1) None shown1 /\ both_sign mix toy no_rng shown1 pkeys1 (d_raw part1) = Ok psigs1 /\ is_ok (prefixer_with_qb64 mix ppre) = true /\ count_key_events (view no_floats plog1) ppre = Ok 1 /\
  logged no_floats (view no_floats plog1) ppre 0 part0 ppre /\ announcing no_floats (view no_floats plog1) ppre 1 part0 /\ names_next no_floats mix toy part0 shown1 /\ correct toy /\ sized_hash mix.
Proof.
  split; [exact rotated|]. split; [now left|]. split; [exact rotated_signed|]. split; [vm_compute; reflexivity|]. split; [exact (proj2 plog1_logged)|]. split; [exact (proj1 plog1_logged)|].
  split; [exact part0_announces|]. split; [exact part0_names|]. split; [exact toy_correct|exact mix_sized].
Qed.
#*)
Lemma C145_l (canon : bytes -> option bytes) (hash : bytes -> bytes -> bytes) (cr : crypto) (kdf : bytes -> bytes -> N -> N -> N -> option bytes) (messages_of : bytes -> R (list message))
    (random : bytes) (rng : N -> bytes) (pre dig : bytes) (sn key_sn : N) (code : option bytes) (scount rcount : option N) (tier salt next_salt : option bytes)
    (current next_keys : option (list bytes)) (next_sith : option bytes) (e : sadder) (sk : keyset) (ck : option keyset) (k : keyset) (sigs : list (indexer * matter)) (p : matter)
    (st : store) (pe ae : sadder) (fuel : nat) (deep : option bool) (seen : list bytes) :
  correct cr -> sized_hash hash -> rotate_built hash cr kdf canon random pre dig sn key_sn code scount rcount tier salt next_salt current next_keys next_sith = Ok (e, sk, ck) ->
  shows cr ck current k -> both_sign hash cr rng k sk (d_raw e) = Ok sigs ->
  prefixer_with_qb64 hash pre = Ok p -> sn < 2 ^ 32 -> count_key_events st pre = Ok sn -> logged canon st pre (sn - 1) pe dig -> announcing canon st pre sn ae -> names_next canon hash cr ae k ->
  deep <> Some true ->
  k_offset sk < 2 ^ 32 /\ empowers canon cr e sk /\ verify_key_event canon hash cr messages_of (S fuel) st e [GSigs (map fst sigs)] deep seen = Ok (false, seen).
Proof.
  intros CR SH H S SG PX B CT LG AN NN ND. destruct (built_parts _ _ _ _ _ _ _ _ _ _ _ _ _ _ _ _ _ _ _ _ _ H) as (public & ndigs & cc & rc & fresh & nsith & RS & LP & O & KS & LF & NT & RT).
  destruct (shown_keys _ _ _ _ _ _ _ _ _ _ _ _ _ _ _ _ _ _ RS S) as (OK & KP). unfold both_sign in SG. bok SG a SA. bok SG b SB. injection SG as <-.
  destruct (keyset_read _ _ _ CR KP) as (vo & KO & FO & TO). destruct (keyset_read _ _ _ CR KS) as (vk & KV & FK & TK).
  assert (len vo = cc) as LV. { unfold len. rewrite (length_pair _ _ _ FO). exact LP. }
  assert (len vk = or_else scount 2) as LK. { unfold len. rewrite (length_pair _ _ _ FK). exact LF. }
  destruct (rotate_shape _ _ _ _ _ _ _ _ _ _ _ _ _ _ _ _ _ _ _ SH RT) as (vs & snr & snh & t & th & nu & xt & xu & toader & newits & kt & nt & bt & _ & _ & _ & TH & _ & _ & _ & _ & _ & _ & _ & _ & _ & KT & _ & _ & _ & K & _).
  cbn [or_else] in TH.
  destruct (keyset_signs_in cr hash rng k (d_raw e) vo a [] vk CR OK ltac:(reflexivity) KO SA) as (CA & BA). cbn [app] in CA. change (len (@nil matter)) with 0 in *.
  assert (cc <= 4096) as BC. { rewrite <- LV. destruct vo as [|x vo]; [rewrite len_nil; lia|]. assert (x :: vo <> []) as Q by discriminate. apply BA in Q. lia. }
  assert (len vo < 2 ^ 32) as BV by (rewrite LV; change (2 ^ 32) with 4294967296; lia).
  destruct (keyset_signs_in cr hash rng sk (d_raw e) vk b vo [] CR (eq_trans O (eq_sym LV)) BV KV SB) as (CB & BB). rewrite app_nil_r in CB.
  assert (or_else scount 2 <= 4096) as BS. { rewrite <- LK. destruct vk as [|x vk]; [rewrite len_nil; lia|]. assert (x :: vk <> []) as Q by discriminate. apply BB in Q. lia. }
  assert (cc + or_else scount 2 < 2 ^ 27) as BT by (change (2 ^ 27) with 134217728; lia).
  assert (or_else scount 2 < 10 ^ 40) as BD by (change (10 ^ 40) with 10000000000000000000000000000000000000000; lia).
  destruct (shares_read canon cc (or_else scount 2) th BD TH) as (PS & W). pose proof (shares_back canon _ _ _ _ _ BT TH KT) as RB.
  destruct (empowered canon cr e sk public fresh vo vk th cc (or_else scount 2) kt KS O LP LF BT PS W) as (EM & SK); auto; [fld K|fld K|].
  split; [now rewrite O, <- LV|]. split; [exact EM|].
  assert (len public <= 4096) as LP' by lia. destruct (next_read _ _ _ _ _ _ SH NN KP LP') as (nth' & NK & ENN).
  assert (len public = len vo) as LPV by congruence. assert (length public = length vo) as LPV' by (unfold len in LPV; lia).
  eapply (rotation_taken canon hash cr messages_of pre (public ++ fresh) dig None sn) with (found := map (fun i => (i, i)) (upto 0 (length vo)) ++ map (fun i => (i, i)) (upto (len vo) (length vk))) (idx := upto 0 (length public)); eauto.
  - discriminate.
  - cbn [check_groups]. rewrite map_app, (check_sigs_app _ _ _ _ _ _ _ CA CB), !bind_Ok, app_nil_r. reflexivity.
  - rewrite <- map_app, map_map, map_id. replace (len vo) with (0 + N.of_nat (length vo)) by (unfold len; lia). rewrite <- upto_app.
    apply (C45_l canon None (Some (shares cc (or_else scount 2))) None); [exact TH|rewrite (wt_thold _ _ W); discriminate| |].
    + rewrite (keys_thold _ _ W). cbn [concat]. rewrite app_nil_r, weighed_len. change (2 ^ 27) with 134217728 in BT. change (2 ^ 32) with 4294967296. lia.
    + intros i. rewrite upto_in, (size_keys _ _ W); cbn [concat]; rewrite app_nil_r, weighed_len; [unfold len in *; lia|]. change (2 ^ 27) with 134217728 in BT. change (2 ^ 32) with 4294967296. lia.
  - rewrite <- (app_nil_r (upto 0 (length public))). apply revealed_app.
    + rewrite <- LPV'. apply (revealed_first hash vo vk public SH FO); auto.
    + apply revealed_beyond. rewrite len_map. lia.
Qed.

Lemma part0_names : names_next no_floats mix toy part0 shown1.
Proof.
  eexists. eexists. split; [vm_compute; reflexivity|]. split; [apply field_assoc; vm_compute; reflexivity|]. split; [apply field_assoc; vm_compute; reflexivity|]. eexists. split; [vm_compute; reflexivity|].
  split; [discriminate|]. split; [vm_compute; discriminate|]. vm_compute. reflexivity.
Qed.
Lemma part0_announces : announcing no_floats (view no_floats plog1) ppre 1 part0.
Proof. exists part0, ppre, (s! "icp"). split; [exact (proj1 plog1_logged)|]. split; [apply field_assoc; vm_compute; reflexivity|]. left. split; [now left|reflexivity]. Qed.
Lemma part1_empowers : empowers no_floats toy part1 pkeys1.
Proof.
  assert (exists p, prefixer_with_qb64 mix ppre = Ok p) as (p & P) by (eexists; vm_compute; reflexivity).
  refine (proj1 (proj2 (C145_l no_floats mix toy toy_kdf (fun _ => Err EValue) salt1 no_rng ppre ppre 1 1 None None None None (Some salt0) (Some salt1) None None None part1 pkeys1 (Some shown1) shown1 psigs1 p
    (view no_floats plog1) part0 part0 0 None [] toy_correct mix_sized rotated (or_introl eq_refl) rotated_signed P _ (proj2 plog1_logged) (proj1 plog1_logged) part0_announces part0_names _))); [reflexivity|discriminate].
Qed.

(*# C145_interaction_by_later_keys_accepted
   An interaction built for an identifier with the number of its next event (below 2^32) and the identifier of its last event, and signed by a key set whose keys stand in the
   last establishment event after others, as many as the offset of the key set, and reach the threshold together, is accepted.
##
Example C145_interaction_case : k_offset pkeys1 = 3 /\ interact no_floats mix ppre psaid1 (Some 2) None None None = Ok part2 /\ ks_sign mix toy no_rng pkeys1 (d_raw part2) None = Ok psigs2 /\
  is_ok (prefixer_with_qb64 mix ppre) = true /\ count_key_events (view no_floats plog2) ppre = Ok 2 /\ logged no_floats (view no_floats plog2) ppre 1 part1 psaid1 /\
  established no_floats (view no_floats plog2) ppre 1 part1 /\ empowers no_floats toy part1 pkeys1 /\ correct toy /\ sized_hash mix.
Proof.
  split; [reflexivity|]. split; [exact used|]. split; [exact used_signed|]. split; [vm_compute; reflexivity|]. split; [exact (proj2 (proj2 plog2_logged))|]. split; [exact (proj1 plog2_logged)|].
  split; [exact (proj1 (proj2 plog2_logged))|]. split; [exact part1_empowers|]. split; [exact toy_correct|exact mix_sized].
Qed.
#*)
Lemma C145_used_l (canon : bytes -> option bytes) (hash : bytes -> bytes -> bytes) (cr : crypto) (messages_of : bytes -> R (list message)) (k : keyset) (pre dig : bytes) (sn : N)
    (data : option value) (ver : option version) (kind : option bytes) (rng : N -> bytes) (e : sadder) (sigs : list (indexer * matter)) (p : matter) (st : store) (pe ee : sadder)
    (fuel : nat) (deep : option bool) (seen : list bytes) :
  correct cr -> sized_hash hash -> interact canon hash pre dig (Some sn) data ver kind = Ok e -> ks_sign hash cr rng k (d_raw e) None = Ok sigs ->
  prefixer_with_qb64 hash pre = Ok p -> sn < 2 ^ 32 -> count_key_events st pre = Ok sn -> logged canon st pre (sn - 1) pe dig -> established canon st pre (sn - 1) ee ->
  empowers canon cr ee k -> k_offset k < 2 ^ 32 -> deep <> Some true ->
  verify_key_event canon hash cr messages_of (S fuel) st e [GSigs (map fst sigs)] deep seen = Ok (false, seen).
Proof.
  intros CR SH H SG PX B CT LG ES EM BO ND. destruct (empowers_signs _ _ _ _ _ _ _ _ CR EM BO SG) as (vs & t & found & SK & CG & EN). exact (interaction_taken _ _ _ _ _ _ _ _ _ _ _ _ _ _ _ _ _ _ _ _ _ _ SH H PX B CT LG ES SK CG EN ND).
Qed.

(** ** Whole lives *)
Record stands (canon : bytes -> option bytes) (hash : bytes -> bytes -> bytes) (P : sadder -> Prop) (l : ledger) (pre : bytes) (n : N) (dig : bytes) : Prop := {
  s_prefix : exists p, prefixer_with_qb64 hash pre = Ok p;
  s_first : 1 <= n;
  s_count : len (l_kel l pre) = n;
  s_last : exists pe ilk ee, logged canon (view canon l) pre (n - 1) pe dig /\ of_type (d_ked pe) ilk /\ established canon (view canon l) pre (n - 1) ee /\ (In ilk establishing -> ee = pe) /\ P ee }.
Lemma stands_set canon hash (P : sadder -> Prop) l pre n e text ilk said : (exists p, prefixer_with_qb64 hash pre = Ok p) -> len (l_kel l pre) = n -> textual (fun _ => Ok text) ->
  serder_with_raw canon (d_raw e) = Ok e -> sad_said e = Ok said -> text_at (d_ked e) (s! "t") = Ok ilk -> In ilk establishing -> P e ->
  stands canon hash P (insert_key_event l pre (d_raw e ++ text)) pre (n + 1) said.
Proof.
  intros PX LN TX RR S T I PE. assert (serder_with_raw canon (d_raw e ++ text) = Ok e) as RD by (apply (read_on canon (d_raw e)); auto; apply (TX GOther); auto).
  assert (l_kel (insert_key_event l pre (d_raw e ++ text)) pre = l_kel l pre ++ [d_raw e ++ text]) as LK by (cbn; unfold added; now rewrite beq_refl).
  split; auto; [lia|rewrite LK, len_app, LN; reflexivity|]. exists e, ilk, e. replace (n + 1 - 1) with n by lia. split; [|split; [now apply type_of|split; [|split; auto]]].
  - exists (d_raw e ++ text). cbn [view get_key_event]. rewrite LK. split; auto. now apply at_last.
  - exists (d_raw e ++ text). split; auto. cbn [view get_latest_establishment_event_as_of_sn]. rewrite LK. rewrite firstn_all2 by (rewrite app_length; cbn; unfold len in LN; lia). rewrite last_of_snoc.
    unfold establishes. rewrite RD. assert (serder_est e = Ok true) as ->; [|reflexivity]. apply est_field. exists ilk. split; [now apply type_of|]. tauto.
Qed.
Lemma stands_kept canon hash (P : sadder -> Prop) l pre n dig e text ilk said : stands canon hash P l pre n dig -> textual (fun _ => Ok text) ->
  serder_with_raw canon (d_raw e) = Ok e -> sad_said e = Ok said -> text_at (d_ked e) (s! "t") = Ok ilk -> ~ In ilk establishing ->
  stands canon hash P (insert_key_event l pre (d_raw e ++ text)) pre (n + 1) said.
Proof.
  intros [PX F LN (pe & il & ee & LG & TY & (tx & GL & ES) & _ & PE)] TX RR S T I. assert (serder_with_raw canon (d_raw e ++ text) = Ok e) as RD by (apply (read_on canon (d_raw e)); auto; apply (TX GOther); auto).
  assert (l_kel (insert_key_event l pre (d_raw e ++ text)) pre = l_kel l pre ++ [d_raw e ++ text]) as LK by (cbn; unfold added; now rewrite beq_refl).
  split; auto; [lia|rewrite LK, len_app, LN; reflexivity|]. exists e, ilk, ee. replace (n + 1 - 1) with n by lia. split; [|split; [now apply type_of|split; [|split; [contradiction|auto]]]].
  - exists (d_raw e ++ text). cbn [view get_key_event]. rewrite LK. split; auto. now apply at_last.
  - exists tx. split; auto. cbn [view get_latest_establishment_event_as_of_sn] in *. rewrite LK. rewrite firstn_all2 by (rewrite app_length; cbn; unfold len in LN; lia). rewrite last_of_snoc.
    unfold establishes at 1. rewrite RD. assert (serder_est e = Ok false) as ->.
    { destruct (proj2 (est_field e false)); auto. exists ilk. split; [now apply type_of|]. split; [discriminate|contradiction]. }
    rewrite firstn_all2 in GL by (unfold len in LN; lia). exact GL.
Qed.
Lemma incept_parted hash cr kdf canon random rng code scount rcount transferable pcode tier salt next_keys next_sith e k sigs :
  incept_parts hash cr kdf canon random rng code scount rcount transferable pcode tier salt next_keys next_sith = Ok (e, k, sigs) ->
  exists keys ndigs rc nsith, k_offset k = 0 /\ ks_verfers_qb64 cr k = Ok keys /\ len keys = or_else scount 2 /\ next_threshold canon next_sith rc = Ok nsith /\
    incept canon hash keys (Some (shares 0 (or_else scount 2))) (Some ndigs) (Some nsith) (Some 0) None None None None None pcode None None = Ok e /\ ks_sign hash cr rng k (d_raw e) None = Ok sigs /\
    (next_keys = Some ndigs /\ rc = len ndigs \/ next_keys = None /\ rc = or_else rcount 3 /\ exists s, salt = Some s /\
      (or_else transferable false = false /\ ndigs = [] \/ or_else transferable false = true /\
       exists nk, keys_from_salt cr kdf [] s code (Some rc) 0 transferable (dec_text 1) tier None = Ok nk /\ ks_digers_qb64 hash cr nk = Ok ndigs)).
Proof.
  intros H. unfold incept_parts in H. cbv zeta in H. bok H ck CK. bok H kys KS. bok H next NX. destruct next as (ndigs & rc). cbn [fst snd] in *. bok H nsith NS. bok H e' IN. bok H sg SG. injection H as <- <- <-.
  unfold generate_keys in CK. destruct (generated_keys _ _ _ _ _ _ _ _ _ _ _ kys CK) as (O & L). exists kys, ndigs, rc, nsith. repeat (split; [auto; fail|]). 
  destruct next_keys as [nk|]; [injection NX as <- <-; auto|]. destruct salt as [s|]; [|discriminate]. right. split; auto. destruct (or_else transferable false) eqn:TR.
  - bok NX nk NK. bok NX d DG. injection NX as <- <-. split; auto. exists s. split; auto. right. split; auto. exists nk. auto.
  - injection NX as <- <-. split; auto. exists s. auto.
Qed.
Lemma digests_length hash cr k nd keys : sized_hash hash -> ks_verfers_qb64 cr k = Ok keys -> ks_digers_qb64 hash cr k = Ok nd -> len nd = len keys.
Proof. intros SH V D. pose proof (keyset_digests _ _ _ _ _ SH V D) as T. apply length_pair in T. rewrite !map_length in T. unfold len. now rewrite T. Qed.
Lemma digers_verfers hash cr k nd : ks_digers_qb64 hash cr k = Ok nd -> exists keys, ks_verfers_qb64 cr k = Ok keys.
Proof.
  unfold ks_digers_qb64, ks_digers, ks_verfers_qb64. intros H. bok H ds DS. bok DS vs VS. rewrite VS, bind_Ok. clear H VS. revert ds DS. induction vs as [|v vs IH]; intros ds DS; cbn [digers_of prints] in *; [eauto|].
  bok DS t T. bok DS d DD. bok DS r RR. destruct (IH _ RR) as (keys & KK). exists (t :: keys). rewrite T, bind_Ok, KK. reflexivity.
Qed.
(** What the event before says about the reserve keys. *)
Definition holds_back canon hash cr kdf code (rcount : option N) tier salt m (e : sadder) : Prop :=
  forall ck, or_else rcount 3 <= 4096 -> keys_from_salt cr kdf [] salt code (Some (or_else rcount 3)) 0 (Some true) (dec_text m) tier None = Ok ck -> names_next canon hash cr e ck.
Lemma held_back canon hash cr kdf code rcount tier salt m e nk nd xt nt iv : sized_hash hash ->
  keys_from_salt cr kdf [] salt code (Some (or_else rcount 3)) 0 (Some true) (dec_text m) tier None = Ok nk -> ks_digers_qb64 hash cr nk = Ok nd ->
  tholder_with_sith canon (shares 0 (or_else rcount 3)) = Ok xt -> t_size xt <= len nd -> threshold_value iv xt = Ok nt ->
  field_of (d_ked e) (s! "n") (texts_value nd) -> field_of (d_ked e) (s! "nt") nt -> holds_back canon hash cr kdf code rcount tier salt m e.
Proof.
  intros SH NK DG XT XS NT FN FT ck B CK. rewrite NK in CK. injection CK as <-. destruct (digers_verfers _ _ _ _ DG) as (keys & KS). pose proof (digests_length _ _ _ _ _ SH KS DG) as LD.
  unfold keys_from_salt in NK. destruct (generated_keys _ _ _ _ _ _ _ _ _ _ _ keys NK) as (_ & LK). specialize (LK KS).
  assert (or_else rcount 3 < 10 ^ 40) as BD by (change (10 ^ 40) with 10000000000000000000000000000000000000000; lia). destruct (shares_read canon 0 _ xt BD XT) as (P & _).
  eapply (announced canon hash cr e (Some nk) nd (Some (shares 0 (or_else rcount 3)))); eauto. exists nd. split; auto. split; [intros ->; rewrite len_nil in LD; lia|]. split; [change (2 ^ 27) with 134217728; lia|]. split; auto.
  replace (len nd) with (0 + or_else rcount 3) by lia. apply covers_shares, BD.
Qed.
Lemma shared_made canon hash cr kdf code rcount tier pre n dig k salt m evs : sized_hash hash -> shared_life canon hash cr kdf code rcount tier pre n dig k salt m evs -> forall e s, In (e, s) evs -> assembled canon e.
Proof.
  intros SH LF. induction LF as [random rng scount salt e0 k sigs pre H PR|pre n dig k0 salt m evs random rng scount ns e0 k ck sigs said LF IH H SG SD|pre n dig k salt m evs data ver kind rng e0 sigs said LF IH H SG SD]; intros e' s' I.
  - destruct I as [[= <- _]|[]]. destruct (incept_parted _ _ _ _ _ _ _ _ _ _ _ _ _ _ _ _ _ _ H) as (? & ? & ? & ? & _ & _ & _ & _ & IN & _). eapply incept_made; eauto.
  - apply in_app_or in I as [I|[[= <- _]|[]]]; eauto. destruct (built_parts _ _ _ _ _ _ _ _ _ _ _ _ _ _ _ _ _ _ _ _ _ H) as (? & ? & ? & ? & ? & ? & _ & _ & _ & _ & _ & _ & RT). eapply rotate_made; eauto.
  - apply in_app_or in I as [I|[[= <- _]|[]]]; eauto. eapply interact_made; eauto.
Qed.

Lemma C146_main (canon : bytes -> option bytes) (hash : bytes -> bytes -> bytes) (cr : crypto) (kdf : bytes -> bytes -> N -> N -> N -> option bytes) (messages_of : bytes -> R (list message))
    (group_text : group -> R bytes) (schema_check : bytes -> bytes -> R bool) (age : bytes -> R Z) (seen_said : ledger -> bytes -> bool) (fuel : nat) (deep verify : option bool) (l : ledger)
    (code : option bytes) (rcount : option N) (tier : option bytes) (pre : bytes) (n : N) (dig : bytes) (k : keyset) (salt : bytes) (m : N) (evs : list (sadder * list indexer)) :
  correct cr -> sized_hash hash -> textual group_text -> shared_life canon hash cr kdf code rcount tier pre n dig k salt m evs -> n <= 2 ^ 32 ->
  (forall e sigs, In (e, sigs) evs -> serder_with_raw canon (d_raw e) = Ok e /\ exists t, group_text (GQuadlets [GSigs sigs]) = Ok t) ->
  l_kel l pre = [] -> deep <> Some true -> verify <> Some false ->
  exists l', fed canon hash cr messages_of group_text schema_check age seen_said (S fuel) deep verify l evs l' /\
    k_offset k < 2 ^ 32 /\ stands canon hash (fun e => empowers canon cr e k /\ holds_back canon hash cr kdf code rcount tier salt m e) l' pre n dig /\
    Forall2 (fun ev text => exists t, group_text (GQuadlets [GSigs (snd ev)]) = Ok t /\ text = d_raw (fst ev) ++ t) evs (l_kel l' pre) /\ 
    forall other, other <> pre -> l_kel l' other = l_kel l other.
Proof.
  intros CR SH TX LF.
  assert (forall l1 pre e text other, other <> pre -> l_kel (insert_key_event l1 pre (d_raw e ++ text)) other = l_kel l1 other) as OT.
  { intros l1 pre0 e text other NE. cbn. unfold added. destruct (beq other pre0) eqn:B; auto. apply beq_eq in B. contradiction. }
  assert (forall l1 pre e text, l_kel (insert_key_event l1 pre (d_raw e ++ text)) pre = l_kel l1 pre ++ [d_raw e ++ text]) as SM by (intros; cbn; unfold added; now rewrite beq_refl).
  assert (forall g t, group_text g = Ok t -> textual (fun _ => Ok t)) as TT by (intros g t G g' t' [= <-]; exact (TX _ _ G)).
  induction LF as [random rng scount salt e k sigs pre H PR|pre n dig k0 salt m evs random rng scount ns e k ck sigs said LF IH H SG SD|pre n dig k salt m evs data ver kind rng e sigs said LF IH H SG SD]; intros B RD E0 D V.
  - destruct (RD e (map fst sigs)) as (RR & t & G); [now left|].
    destruct (incept_parted _ _ _ _ _ _ _ _ _ _ _ _ _ _ _ _ _ _ H) as (keys & ndigs & rc & nsith & O & KS & LK & NT & IN & SG & AN).
    destruct AN as [([=] & _)|(_ & -> & s & [= <-] & [([=] & _)|(_ & nk & NK & DG)])]. cbn [next_threshold] in NT. injection NT as <-.
    destruct (keyset_read _ _ _ CR KS) as (vk & KV & FK & TK).
    assert (len vk = or_else scount 2) as LV. { unfold len. rewrite (length_pair _ _ _ FK). exact LK. }
    destruct (keyset_signs_in cr hash rng k (d_raw e) vk sigs [] [] CR O ltac:(reflexivity) KV SG) as (_ & BB). change (len (@nil matter)) with 0 in BB.
    assert (or_else scount 2 <= 4096) as BS. { rewrite <- LV. destruct vk as [|x vk]; [rewrite len_nil; lia|]. assert (x :: vk <> []) as Q by discriminate. apply BB in Q. lia. }
    assert (0 + or_else scount 2 < 2 ^ 27) as BT by (change (2 ^ 27) with 134217728; lia).
    assert (or_else scount 2 < 10 ^ 40) as BD by (change (10 ^ 40) with 10000000000000000000000000000000000000000; lia).
    assert (covers canon (Some (shares 0 (or_else scount 2))) (len keys)) as CV by (rewrite LK; apply (covers_shares canon 0), BD).
    destruct (C138_l canon hash cr messages_of k keys _ _ _ _ _ _ _ _ _ _ rng e sigs CR SH O KS CV IN SG) as (pre' & FI & SD & SK & VE).
    assert (serder_pre e = Ok pre') as PR' by now apply pre_field. rewrite PR in PR'. injection PR' as <-.
    destruct (incept_shape _ _ _ _ _ _ _ _ _ _ _ _ _ _ SH IN) as (vs & pre' & p & th & nu & xt & toader & kt & nt & bt & TH & _ & _ & _ & XT & XS & _ & KT & NT & _ & K & _ & XP & _ & SD' & _).
    rewrite SD in SD'. injection SD' as <-. cbn [or_else] in TH, XT, XS.
    assert (text_at (d_ked e) (s! "t") = Ok (s! "icp")) as TI by (unfold text_at; rewrite K; reflexivity).
    destruct (shares_read canon 0 _ th BD TH) as (PS & W). pose proof (shares_back canon _ _ _ _ _ BT TH KT) as RB.
    destruct (empowered canon cr e k [] keys [] vk th 0 (or_else scount 2) kt KS O eq_refl LK BT PS W) as (EM & _); auto; [fld K|fld K|constructor|].
    exists (insert_key_event l pre (d_raw e ++ t)). split; [|split; [now rewrite O|split; [|split; [|auto]]]].
    + apply (fed_more _ _ _ _ _ _ _ _ _ _ _ l [] l e (map fst sigs)); [constructor|]. apply (take_in canon hash cr messages_of group_text schema_check age seen_said (S fuel) deep verify l e (map fst sigs) pre pre (s! "icp") t); auto; [now left|].
      apply VE. cbn. now rewrite E0.
    + apply (stands_set canon hash _ l pre 0 e t (s! "icp") pre); auto; [exists p; unfold prefixer_with_qb64, prefixer_new; exact XP|now rewrite E0|exact (TT _ _ G)|now left|].
      split; [exact EM|]. eapply held_back; eauto; fld K.
    + rewrite SM, E0. cbn [app]. constructor; [|constructor]. eauto.
  - destruct IH as (l1 & F & BO & FO & T & OO); auto; [lia|intros; apply RD; apply in_or_app; auto|]. destruct (RD e (map fst sigs)) as (RR & t & G); [apply in_or_app; right; now left|].
    pose proof FO as [(p & PX) F1 CT (pe & il & ee & LG & TY & ES & SM' & _ & HB)].
    assert (n < 2 ^ 32) as BN by lia. assert (asked_for n = n) as AF by (apply N.mod_small; exact BN).
    assert (announcing canon (view canon l1) pre n ee) as AC.
    { exists pe, dig, il. rewrite AF. split; auto. split; auto. destruct (has_code establishing il) eqn:HC; [apply has_code_In in HC; left; split; auto; symmetry; auto|right; split; auto]. intros I. apply has_code_In in I. congruence. }
    destruct (built_parts _ _ _ _ _ _ _ _ _ _ _ _ _ _ _ _ _ _ _ _ _ H) as (public & ndigs & cc & rc & frs & nsith & RS & LP & O & KS & LF' & NT & RT).
    destruct (shown_keys _ _ _ _ _ _ _ _ _ _ _ _ _ _ _ _ _ _ RS (or_introl eq_refl)) as (OK & KP).
    unfold reserves in RS. cbn [is_none negb orb] in RS. bok RS ck' CK. bok RS after AFT. bok RS rk RK. bok RS pb PB. bok RS nd DG. injection RS as <- <- <- <- <-.
    cbn [next_threshold] in NT. injection NT as <-. 
    assert (or_else rcount 3 <= 4096) as BC.
    { unfold both_sign in SG. bok SG a SA. destruct (keyset_read _ _ _ CR KP) as (vo & KO & FO' & _). destruct (keyset_signs_in cr hash rng ck' (d_raw e) vo a [] [] CR OK ltac:(reflexivity) KO SA) as (_ & BA). change (len (@nil matter)) with 0 in BA.
      assert (len vo = or_else rcount 3) as LV. { unfold len. rewrite (length_pair _ _ _ FO'). exact LP. } rewrite <- LV. destruct vo as [|x vo]; [rewrite len_nil; lia|]. assert (x :: vo <> []) as Q by discriminate. apply BA in Q. lia. }
    destruct (C145_l canon hash cr kdf messages_of random rng pre dig n m code scount rcount tier (Some salt) (Some ns) None None None e k (Some ck') ck' sigs p (view canon l1) pe ee fuel deep [said] CR SH H (or_introl eq_refl) SG PX BN) as (BO' & EM & VE); auto; [cbn; now rewrite CT|].
    destruct (rotate_shape _ _ _ _ _ _ _ _ _ _ _ _ _ _ _ _ _ _ _ SH RT) as (vs & snr & snh & t' & th & nu & xt & xu & toader & newits & kt & nt & bt & _ & _ & _ & _ & _ & _ & _ & XT & _ & _ & XS & _ & _ & _ & NT & _ & IL & K & _).
    cbn [or_else] in K, XT, XS.
    assert (text_at (d_ked e) (s! "t") = Ok (s! "rot")) as TI by (unfold text_at; rewrite K; reflexivity).
    assert (serder_pre e = Ok pre) as PR by (unfold serder_pre; rewrite K; reflexivity).
    exists (insert_key_event l1 pre (d_raw e ++ t)). split; [|split; [auto|split; [|split]]].
    + apply (fed_more _ _ _ _ _ _ _ _ _ _ _ l evs l1 e (map fst sigs)); auto. apply (take_in canon hash cr messages_of group_text schema_check age seen_said (S fuel) deep verify l1 e (map fst sigs) pre said (s! "rot") t); auto. right. now left.
    + apply (stands_set canon hash _ l1 pre n e t (s! "rot") said); auto; [eauto|exact (TT _ _ G)|right; now left|].
      split; [exact EM|]. unfold u128_add in AFT. destruct (_ <=? _) in AFT; [|discriminate]. injection AFT as <-. eapply held_back; eauto; fld K.
    + rewrite SM. apply Forall2_app; auto. constructor; [|constructor]. eauto.
    + intros other NE. rewrite OT; auto.
  - destruct IH as (l1 & F & BO & FO & T & OO); auto; [lia|intros; apply RD; apply in_or_app; auto|]. destruct (RD e (map fst sigs)) as (RR & t & G); [apply in_or_app; right; now left|].
    pose proof FO as [(p & PX) F1 CT (pe & il & ee & LG & TY & ES & SM' & EM & _)].
    assert (n < 2 ^ 32) as BN by lia.
    pose proof (C145_used_l canon hash cr messages_of k pre dig n data ver kind rng e sigs p (view canon l1) pe ee fuel deep [said] CR SH H SG PX BN ltac:(cbn; now rewrite CT) LG ES EM BO D) as VE.
    destruct (interact_shape _ _ _ _ _ _ _ _ _ SH H) as (vs & snr & snh & t' & _ & _ & _ & K & _).
    assert (text_at (d_ked e) (s! "t") = Ok (s! "ixn")) as TI by (unfold text_at; rewrite K; reflexivity).
    assert (serder_pre e = Ok pre) as PR by (unfold serder_pre; rewrite K; reflexivity).
    exists (insert_key_event l1 pre (d_raw e ++ t)). split; [|split; [auto|split; [|split]]].
    + apply (fed_more _ _ _ _ _ _ _ _ _ _ _ l evs l1 e (map fst sigs)); auto. apply (take_in canon hash cr messages_of group_text schema_check age seen_said (S fuel) deep verify l1 e (map fst sigs) pre said (s! "ixn") t); auto. right. right. now left.
    + apply (stands_kept canon hash _ l1 pre n dig e t (s! "ixn") said); auto; [exact (TT _ _ G)|]. cbn. intuition discriminate.
    + rewrite SM. apply Forall2_app; auto. constructor; [|constructor]. eauto.
    + intros other NE. rewrite OT; auto.
Qed.

(*# C146_shared_life_accepted
   The whole life of an identifier with reserve keys: it is begun with reserve keys from a salt, self-addressing and transferable, and then rotated with the salts in turn and used
   in interactions in any order and as often as its controller likes, each time with the number of the next event and the identifier of the last, numbers of key generations
   going up by one with each rotation. Then any ledger without events of that identifier takes in every message, one after the other, without an error, and in the end holds
   for that identifier exactly these events with their signatures, and for others what it held before. The events are to have no floats, to nest at most 127 deep and to be
   shorter than 2^32 bytes, and the numbers to stay below 2^32.
##
Example C146_case : correct toy /\ sized_hash mix /\ textual sigs_text /\
  shared_life no_floats mix toy toy_kdf None None None ppre 3 psaid2 pkeys1 salt1 2 [(part0, map fst psigs0); (part1, map fst psigs1); (part2, map fst psigs2)] /\
  (forall e sigs, In (e, sigs) [(part0, map fst psigs0); (part1, map fst psigs1); (part2, map fst psigs2)] ->
     data (d_ked e) /\ nests 127 (d_ked e) /\ len (d_raw e) < 2 ^ 32 /\ exists t, sigs_text (GQuadlets [GSigs sigs]) = Ok t).
Proof.
  split; [exact toy_correct|]. split; [exact mix_sized|]. split; [exact sigs_textual|]. split; [exact shared3|].
  intros e sigs I. assert (data_check (d_ked e) = true /\ nests_check 127 (d_ked e) = true /\ len (d_raw e) <? 2 ^ 32 = true /\ is_ok (sigs_text (GQuadlets [GSigs sigs])) = true) as (A & B & C & D).
  { destruct I as [[= <- <-]|[[= <- <-]|[[= <- <-]|[]]]]; (split; [vm_compute; reflexivity|split; [vm_compute; reflexivity|split; vm_compute; reflexivity]]). }
  split; [now apply data_checked|]. split; [now apply nests_checked|]. split; [now apply N.ltb_lt|]. destruct (sigs_text _) as [t| |]; try discriminate. eauto.
Qed.
#*)
Lemma C146_l (canon : bytes -> option bytes) (hash : bytes -> bytes -> bytes) (cr : crypto) (kdf : bytes -> bytes -> N -> N -> N -> option bytes) (messages_of : bytes -> R (list message))
    (group_text : group -> R bytes) (schema_check : bytes -> bytes -> R bool) (age : bytes -> R Z) (seen_said : ledger -> bytes -> bool) (fuel : nat) (deep verify : option bool) (l : ledger)
    (code : option bytes) (rcount : option N) (tier : option bytes) (pre : bytes) (n : N) (dig : bytes) (k : keyset) (salt : bytes) (m : N) (evs : list (sadder * list indexer)) :
  correct cr -> sized_hash hash -> textual group_text -> shared_life canon hash cr kdf code rcount tier pre n dig k salt m evs -> n <= 2 ^ 32 ->
  (forall e sigs, In (e, sigs) evs -> data (d_ked e) /\ nests 127 (d_ked e) /\ len (d_raw e) < 2 ^ 32 /\ exists t, group_text (GQuadlets [GSigs sigs]) = Ok t) ->
  l_kel l pre = [] -> deep <> Some true -> verify <> Some false ->
  exists l', fed canon hash cr messages_of group_text schema_check age seen_said (S fuel) deep verify l evs l' /\
    Forall2 (fun ev text => exists t, group_text (GQuadlets [GSigs (snd ev)]) = Ok t /\ text = d_raw (fst ev) ++ t) evs (l_kel l' pre) /\ len (l_kel l' pre) = n /\
    forall other, other <> pre -> l_kel l' other = l_kel l other.
Proof.
  intros CR SH TX LF B RD E0 D V. assert (forall e sigs, In (e, sigs) evs -> serder_with_raw canon (d_raw e) = Ok e /\ exists t, group_text (GQuadlets [GSigs sigs]) = Ok t) as RD'.
  { intros e sigs I. destruct (RD e sigs I) as (DA & NE & L & G). split; auto. apply back; auto. exact (shared_made _ _ _ _ _ _ _ _ _ _ _ _ _ _ SH LF e sigs I). }
  destruct (C146_main canon hash cr kdf messages_of group_text schema_check age seen_said fuel deep verify l code rcount tier pre n dig k salt m evs CR SH TX LF B RD' E0 D V) as (l' & F & _ & ST & T & O).
  exists l'. repeat (split; auto). apply (s_count _ _ _ _ _ _ _ ST).
Qed.

(** ** What reserve keys and signing keys are needed for *)
Lemma ruled canon st pre n x e keys t : governing canon st pre n x keys t -> rules canon st pre n x e -> serder_verfers e = Ok keys /\ serder_tholder canon e = Ok (Some t).
Proof.
  intros (i1 & e1 & T1 & A1 & V & H) (i2 & T2 & A2). rewrite (type_once _ _ _ T2 T1) in A2. destruct A1 as [(I1 & ->)|(I1 & t1 & G1 & S1)], A2 as [(I2 & ->)|(I2 & t2 & G2 & S2)]; try contradiction; auto.
  rewrite G1 in G2. injection G2 as <-. rewrite S1 in S2. injection S2 as <-. auto.
Qed.
Lemma announcing_once canon st pre n e e' : announcing canon st pre n e -> announcing canon st pre n e' -> e = e'.
Proof.
  intros (b1 & s1 & i1 & (x1 & L1 & R1 & _) & T1 & A1) (b2 & s2 & i2 & (x2 & L2 & R2 & _) & T2 & A2). rewrite L1 in L2. injection L2 as <-. rewrite R1 in R2. injection R2 as <-.
  rewrite (type_once _ _ _ T2 T1) in A2. destruct A1 as [(I1 & ->)|(I1 & t1 & G1 & S1)], A2 as [(I2 & ->)|(I2 & t2 & G2 & S2)]; try contradiction; auto. congruence.
Qed.
Lemma shares_size canon z n t : n < 2 ^ 64 -> tholder_with_sith canon (shares z n) = Ok t -> 0 < n /\ n < 2 ^ 31 /\ (z = 0 -> t_size t = n).
Proof.
  intros B H. assert (n < 10 ^ 40) as BD by (change (10 ^ 40) with 10000000000000000000000000000000000000000; change (2 ^ 64) with 18446744073709551616 in B; lia).
  destruct (shares_read canon z n t BD H) as (P & W). split; auto. assert (n < 2 ^ 31) as L.
  { pose proof (wt_wf _ _ W) as F. inversion F as [|? ? FW _]; subst. unfold weighed in FW. apply Forall_app in FW as (_ & FW). rewrite Forall_forall in FW.
    assert (In (share n) (repeat (share n) (N.to_nat n))) as I by (destruct (N.to_nat n) eqn:Z; [lia|now left]). apply FW in I as (I & _). apply wr_d in I. unfold i32_max in I. cbn [share snd] in I. change (2 ^ 31) with 2147483648. lia. }
  split; auto. intros ->. rewrite (size_keys _ _ W); cbn [concat]; rewrite app_nil_r, weighed_len; [lia|]. change (2 ^ 31) with 2147483648 in L. change (2 ^ 32) with 4294967296. lia.
Qed.
Lemma partly_threshold canon hash cr kdf e k n own : sized_hash hash -> partly canon hash cr kdf e k n own -> k_offset k + n < 2 ^ 27 ->
  exists th, serder_tholder canon e = Ok (Some th) /\ 0 < n /\ weighted_t [weighed (k_offset k) n] th.
Proof.
  intros SH P B.
  assert (n < 10 ^ 40) as BD by (change (10 ^ 40) with 10000000000000000000000000000000000000000; change (2 ^ 27) with 134217728 in B; lia).
  assert (forall th iv kt, tholder_with_sith canon (shares (k_offset k) n) = Ok th -> threshold_value iv th = Ok kt -> field_of (d_ked e) (s! "kt") kt ->
    exists th, serder_tholder canon e = Ok (Some th) /\ 0 < n /\ weighted_t [weighed (k_offset k) n] th) as G.
  { intros th iv kt TH KT F. destruct (shares_read canon _ _ th BD TH) as (PS & W). pose proof (shares_back canon _ _ _ _ _ B TH KT) as RB. exists th. split; [|auto].
    assert (exists m, d_ked e = VObj m) as O by (destruct F as (a & b & -> & _); eauto). destruct (C102_thresholds_l canon e (Some th) O) as (A & _). rewrite (proj2 A); auto. left. eauto. }
  destruct P as [random rng code scount rcount transferable tier salt next_keys next_sith e k sigs BU H|random pre dig sn key_sn code scount rcount tier salt next_salt current next_keys next_sith e k ck H].
  - destruct (incept_parted _ _ _ _ _ _ _ _ _ _ _ _ _ _ _ _ _ _ H) as (keys & ndigs & rc & nsith & O & KS & LK & NT & IN & SG & AN). rewrite O in G.
    destruct (incept_shape _ _ _ _ _ _ _ _ _ _ _ _ _ _ SH IN) as (vs & pre' & p & th & nu & xt & toader & kt & nt & bt & TH & _ & _ & _ & XT & XS & _ & KT & NT' & _ & K & _). rewrite O. eapply G; eauto. fld K.
  - destruct (built_parts _ _ _ _ _ _ _ _ _ _ _ _ _ _ _ _ _ _ _ _ _ H) as (public & ndigs & cc & rc & frs & nsith & RS & LP & O & KS & LF & NT & RT). rewrite O in G.
    destruct (rotate_shape _ _ _ _ _ _ _ _ _ _ _ _ _ _ _ _ _ _ _ SH RT) as (vs & snr & snh & t & th & nu & xt & xu & toader & newits & kt & nt & bt & _ & _ & _ & TH & _ & _ & _ & _ & _ & _ & _ & _ & _ & KT & _ & _ & _ & K & _).
    rewrite O. eapply G; eauto. fld K.
Qed.
Lemma partly_next canon hash cr kdf e k n digests : sized_hash hash -> partly canon hash cr kdf e k n true -> serder_digers e = Ok digests -> len digests < 2 ^ 27 ->
  exists xt, serder_ntholder canon e = Ok (Some xt) /\ 0 < len digests /\ weighted_t [weighed 0 (len digests)] xt.
Proof.
  intros SH P D B.
  assert (len digests < 10 ^ 40) as BD by (change (10 ^ 40) with 10000000000000000000000000000000000000000; change (2 ^ 27) with 134217728 in B; lia).
  assert (forall xt iv nt (nd : list bytes), len nd = len digests -> tholder_with_sith canon (shares 0 (len nd)) = Ok xt -> threshold_value iv xt = Ok nt -> field_of (d_ked e) (s! "nt") nt ->
    exists xt, serder_ntholder canon e = Ok (Some xt) /\ 0 < len digests /\ weighted_t [weighed 0 (len digests)] xt) as G.
  { intros xt iv nt nd LN XT NT F. rewrite LN in XT. destruct (shares_read canon _ _ xt BD XT) as (PS & W). pose proof (shares_back canon 0 (len digests) _ _ _ B XT NT) as RB. exists xt. split; [|auto].
    assert (exists m, d_ked e = VObj m) as O by (destruct F as (a & b & -> & _); eauto). destruct (C102_thresholds_l canon e (Some xt) O) as (_ & A). rewrite (proj2 A); auto. left. eauto. }
  assert (forall nd, field_of (d_ked e) (s! "n") (texts_value nd) -> len nd = len digests) as LN.
  { intros nd F. assert (exists m, d_ked e = VObj m) as (m & O) by (destruct F as (a & b & -> & _); eauto). destruct (C88_l e digests (ex_intro _ m O)) as (_ & X). apply X in D as [(l & F' & TX)|(L & _)]; [|now elim (L _ F)].
    rewrite O in F, F'. apply field_assoc in F. apply field_assoc in F'. rewrite F in F'. injection F' as <-. apply length_pair in TX. rewrite map_length in TX. unfold len. now rewrite TX. }
  inversion P as [random rng code scount rcount transferable tier salt next_keys next_sith e1 k1 sigs BU H E1 E2 E3 OW|random pre dig sn key_sn code scount rcount tier salt next_salt current next_keys next_sith e1 k1 ck H E1 E2 E3 OW]; subst.
  - destruct next_sith; [discriminate|]. destruct (incept_parted _ _ _ _ _ _ _ _ _ _ _ _ _ _ _ _ _ _ H) as (keys & ndigs & rc & nsith & O & KS & LK & NT & IN & SG & AN).
    destruct (incept_shape _ _ _ _ _ _ _ _ _ _ _ _ _ _ SH IN) as (vs & pre' & p & th & nu & xt & toader & kt & nt & bt & TH & _ & _ & _ & XT & XS & _ & KT & NT' & _ & K & _).
    cbn [or_else next_threshold] in *. injection NT as <-. assert (len ndigs = len digests) as LD by (apply LN; fld K). apply (G xt false nt ndigs); auto; [|fld K].
    destruct AN as [(_ & ->)|(_ & -> & s & _ & [(_ & ->)|(_ & nk & NK & DG)])]; auto.
    + destruct (shares_size canon 0 _ xt BU XT) as (PS & BR & SZ). rewrite len_nil in XS. lia.
    + destruct (digers_verfers _ _ _ _ DG) as (nks & NKS). unfold keys_from_salt in NK. destruct (generated_keys _ _ _ _ _ _ _ _ _ _ _ nks NK) as (_ & L). rewrite (digests_length _ _ _ _ _ SH NKS DG), (L NKS). exact XT.
  - destruct next_sith; [discriminate|]. destruct (built_parts _ _ _ _ _ _ _ _ _ _ _ _ _ _ _ _ _ _ _ _ _ H) as (public & ndigs & cc & rc & frs & nsith & RS & LP & O & KS & LF & NT & RT).
    destruct (rotate_shape _ _ _ _ _ _ _ _ _ _ _ _ _ _ _ _ _ _ _ SH RT) as (vs & snr & snh & t & th & nu & xt & xu & toader & newits & kt & nt & bt & _ & _ & _ & _ & _ & _ & _ & XT & _ & _ & _ & _ & _ & _ & NT' & _ & _ & K & _).
    cbn [or_else next_threshold] in *. injection NT as <-. assert (len ndigs = len digests) as LD by (apply LN; fld K). apply (G xt false nt ndigs); auto; [|fld K].
    unfold reserves in RS. destruct salt as [salt|]; [|destruct current; [|discriminate]; destruct next_keys; discriminate]. destruct (_ || _) in RS; [discriminate|]. destruct next_salt as [ns|]; [|discriminate].
    bok RS ck' CK. bok RS after AFT. bok RS rk RK. bok RS pb PB. bok RS nd DG. injection RS as <- <- <- <- <-.
    destruct (digers_verfers _ _ _ _ DG) as (nks & NKS). unfold keys_from_salt in RK. destruct (generated_keys _ _ _ _ _ _ _ _ _ _ _ nks RK) as (_ & L). rewrite (digests_length _ _ _ _ _ SH NKS DG), (L NKS). exact XT.
Qed.

(*# C147_signing_keys_all_needed
   Once an event built with reserve keys has given the say to a key set, no event is accepted under it without a signature of each key of this set: an accepted event that has to be
   signed with the keys this event sets, be it that event itself or one after it, carries for each of these keys a signature that verifies over its own bytes. Reserve keys count
   for nothing there.
##
Example C147_signing_case : partly no_floats mix toy toy_kdf part1 pkeys1 2 true /\ k_offset pkeys1 + 2 < 2 ^ 27 /\
  verify_key_event no_floats mix toy (fun _ => Err EValue) 1 (view no_floats plog2) part2 [GSigs (map fst psigs2)] None [] = Ok (false, []) /\
  verify_key_event no_floats mix toy (fun _ => Err EValue) 1 (view no_floats plog2) part2 [GSigs (tl (map fst psigs2))] None [] = Err EVerification /\
  field_of (d_ked part2) (s! "i") (VStr ppre) /\ serder_sn part2 = Ok 2 /\ rules no_floats (view no_floats plog2) ppre 2 part2 part1 /\ sized_hash mix.
Proof.
  split; [exact (partly_rotated _ _ _ _ _ _ _ _ _ _ _ _ _ _ _ _ _ _ _ _ _ rotated)|]. split; [reflexivity|]. split; [exact (proj1 accepted2)|]. split; [exact (proj2 accepted2)|].
  split; [apply field_assoc; vm_compute; reflexivity|]. split; [vm_compute; reflexivity|]. split; [|exact mix_sized]. exists (s! "ixn"). split; [apply field_assoc; vm_compute; reflexivity|]. right.
  split; [cbn; intuition discriminate|]. exact (proj1 (proj2 plog2_logged)).
Qed.
#*)
Lemma C147_signing_l (canon : bytes -> option bytes) (hash : bytes -> bytes -> bytes) (cr : crypto) (kdf : bytes -> bytes -> N -> N -> N -> option bytes) (messages_of : bytes -> R (list message))
    (fuel : nat) (st : store) (e x : sadder) (k : keyset) (count : N) (own : bool) (g : list group) (deep : option bool) (seen seen' : list bytes) (there : bool) (pre : bytes) (n : N) :
  sized_hash hash -> partly canon hash cr kdf e k count own -> k_offset k + count < 2 ^ 27 ->
  verify_key_event canon hash cr messages_of fuel st x g deep seen = Ok (there, seen') -> field_of (d_ked x) (s! "i") (VStr pre) -> ordinal (d_ked x) n -> rules canon st pre n x e ->
  exists keys sigs, serder_verfers e = Ok keys /\ attached g sigs /\
    forall i, k_offset k <= i < k_offset k + count -> exists s, In s sigs /\ i_index s = i /\ verifies cr keys (d_raw x) s.
Proof.
  intros SH P B H F O RU. destruct (partly_threshold _ _ _ _ _ _ _ _ SH P B) as (th & TH & PS & W).
  destruct (C121_l _ _ _ _ _ _ _ _ _ _ _ _ H) as (pre' & n' & keys & t & sigs & good & F' & O' & G & AT & IX & T & S).
  apply pre_field in F, F'. apply sn_field in O, O'. assert (pre' = pre) as -> by congruence. assert (n' = n) as -> by congruence.
  destruct (ruled _ _ _ _ _ _ _ _ G RU) as (V & TH'). assert (t = th) as -> by congruence. exists keys, sigs. split; auto. split; auto. intros i I.
  pose proof (shares_needed _ _ _ _ PS W S i I) as IN. apply in_map_iff in IN as (s & <- & IN). exists s. apply (those_in _ _ _ s T) in IN as (A & C). auto.
Qed.

(*# C147_reserve_keys_all_needed
   Once an event built with reserve keys has announced their digests, with equal weights, no rotation is accepted after it without all of them: for each announced digest an accepted
   rotation carries a signature that verifies over the rotation's own bytes under a key with this digest. So whoever holds the signing keys alone, or all reserve keys but one,
   cannot rotate.
##
Example C147_reserve_case : partly no_floats mix toy toy_kdf part0 pkeys0 2 true /\ (exists digests, serder_digers part0 = Ok digests /\ len digests = 3) /\
  verify_key_event no_floats mix toy (fun _ => Err EValue) 1 (view no_floats plog1) part1 [GSigs (map fst psigs1)] None [] = Ok (false, []) /\
  verify_key_event no_floats mix toy (fun _ => Err EValue) 1 (view no_floats plog1) part1 [GSigs (tl (map fst psigs1))] None [] = Err EValidation /\
  of_type (d_ked part1) (s! "rot") /\ field_of (d_ked part1) (s! "i") (VStr ppre) /\ serder_sn part1 = Ok 1 /\ announcing no_floats (view no_floats plog1) ppre 1 part0 /\ sized_hash mix.
Proof.
  split; [refine (partly_begun _ _ _ _ _ _ _ _ _ _ _ _ _ _ _ _ _ _ begun); reflexivity|]. split; [eexists; split; [vm_compute; reflexivity|reflexivity]|]. split; [exact (proj1 accepted1)|]. split; [exact (proj2 accepted1)|].
  split; [apply field_assoc; vm_compute; reflexivity|]. split; [apply field_assoc; vm_compute; reflexivity|]. split; [vm_compute; reflexivity|]. split; [exact part0_announces|exact mix_sized].
Qed.
#*)
Lemma C147_reserve_l (canon : bytes -> option bytes) (hash : bytes -> bytes -> bytes) (cr : crypto) (kdf : bytes -> bytes -> N -> N -> N -> option bytes) (messages_of : bytes -> R (list message))
    (fuel : nat) (st : store) (e x : sadder) (k : keyset) (count : N) (digests : list matter) (g : list group) (deep : option bool) (seen seen' : list bytes) (there : bool) (pre : bytes) (n : N) :
  sized_hash hash -> partly canon hash cr kdf e k count true -> serder_digers e = Ok digests -> len digests < 2 ^ 27 ->
  verify_key_event canon hash cr messages_of fuel st x g deep seen = Ok (there, seen') -> of_type (d_ked x) (s! "rot") -> field_of (d_ked x) (s! "i") (VStr pre) -> ordinal (d_ked x) n ->
  announcing canon st pre n e ->
  exists keys sigs, serder_verfers x = Ok keys /\ attached g sigs /\
    forall j, j < len digests -> exists s, In s sigs /\ i_ondex s = j /\ verifies cr keys (d_raw x) s /\ reveals hash keys digests s.
Proof.
  intros SH P D B H TY F O AN. destruct (partly_next _ _ _ _ _ _ _ _ SH P D B) as (xt & XT & PS & W).
  destruct (C122_l _ _ _ _ _ _ _ _ _ _ _ _ SH H TY) as (pre' & n' & keys & t & sigs & good & e' & digests' & nt & shown & F' & O' & G & AT & T & AN' & D' & NT & T' & S & _).
  apply pre_field in F, F'. apply sn_field in O, O'. assert (pre' = pre) as -> by congruence. assert (n' = n) as -> by congruence. rewrite (announcing_once _ _ _ _ _ _ AN' AN) in *.
  assert (digests' = digests) as -> by congruence. assert (nt = xt) as -> by congruence.
  assert (serder_verfers x = Ok keys) as V. { destruct G as (ilk & e2 & T2 & [(_ & ->)|(NI & _)] & V & _); auto. elim NI. rewrite (type_once _ _ _ T2 TY). cbn. auto. }
  exists keys, sigs. split; auto. split; auto. intros j J. assert (0 <= j < 0 + len digests) as J' by lia.
  pose proof (shares_needed _ _ _ _ PS W S j J') as IN. apply in_map_iff in IN as (s & <- & IN). exists s. apply (those_in _ _ _ s T') in IN as (A & C). apply (those_in _ _ _ s T) in A as (A & A'). auto.
Qed.

(*# C148_rotation_arguments
   A partial rotation takes its reserve keys in one of two ways: from two salts, and then the keys shown, the next digests and their threshold are not to be given, or from texts,
   and then all three are needed and no salt is to be given. Any other choice of arguments is refused with a value error, whatever else is given. With texts the result is the bare
   event, without signatures; with salts it starts with the event and goes on with attachments.
##
Example C148_rotation_case : is_ok (rotate_partial mix toy toy_kdf no_floats salt1 no_rng ppre ppre 1 1 None None None None (Some salt0) (Some salt1) None None None) = true /\
  rotate_partial mix toy toy_kdf no_floats salt1 no_rng ppre ppre 1 1 None None None None None None (Some (got [] (ks_verfers_qb64 toy shown1))) (Some [ppre]) (Some (s! """1""")) =
    Ok (match rotate_built mix toy toy_kdf no_floats salt1 ppre ppre 1 1 None None None None None None (Some (got [] (ks_verfers_qb64 toy shown1))) (Some [ppre]) (Some (s! """1""")) with
        | Ok (e, k, _) => (got [] (sad_said e), k, d_raw e) | _ => ([], no_keys, []) end) /\
  rotate_partial mix toy toy_kdf no_floats salt1 no_rng ppre ppre 1 1 None None None None (Some salt0) None None None None = Err EValue.
Proof. split; [vm_compute; reflexivity|]. split; vm_compute; reflexivity. Qed.
#*)
Lemma C148_rotation_l (hash : bytes -> bytes -> bytes) (cr : crypto) (kdf : bytes -> bytes -> N -> N -> N -> option bytes) (canon : bytes -> option bytes) (random : bytes) (rng : N -> bytes)
    (pre dig : bytes) (sn key_sn : N) (code : option bytes) (scount rcount : option N) (tier salt next_salt : option bytes) (current next_keys : option (list bytes)) (next_sith : option bytes) :
  let salts := salt <> None /\ next_salt <> None /\ current = None /\ next_keys = None /\ next_sith = None in
  let texts := salt = None /\ next_salt = None /\ current <> None /\ next_keys <> None /\ next_sith <> None in
  let result := rotate_partial hash cr kdf canon random rng pre dig sn key_sn code scount rcount tier salt next_salt current next_keys next_sith in
  (~ salts -> ~ texts -> result = Err EValue) /\
  (forall said sk message, result = Ok (said, sk, message) -> exists e ck, rotate_built hash cr kdf canon random pre dig sn key_sn code scount rcount tier salt next_salt current next_keys next_sith = Ok (e, sk, ck) /\
     sad_said e = Ok said /\ (texts /\ message = d_raw e \/ salts /\ exists sigs ckeys, ck = Some ckeys /\ both_sign hash cr rng ckeys sk (d_raw e) = Ok sigs /\ signed_message e sigs = Ok message)).
Proof.
  cbv zeta. split.
  - intros NS NT. unfold rotate_partial, rotate_built. cbv zeta. assert (reserves hash cr kdf key_sn code (or_else rcount 3) tier salt next_salt current next_keys next_sith = Err EValue) as ->; [|reflexivity].
    unfold reserves. destruct salt, next_salt, current, next_keys, next_sith; cbn [is_none negb orb]; try reflexivity; exfalso; first [solve [apply NS; repeat split; discriminate]|solve [apply NT; repeat split; discriminate]].
  - intros said sk message H. unfold rotate_partial in H. bok H x X. destruct x as ((e & sk') & ck). exists e, ck.
    assert (exists public ndigs cc rc, reserves hash cr kdf key_sn code (or_else rcount 3) tier salt next_salt current next_keys next_sith = Ok (public, ndigs, cc, rc, ck)) as (public & ndigs & cc & rc & RS).
    { destruct (built_parts _ _ _ _ _ _ _ _ _ _ _ _ _ _ _ _ _ _ _ _ _ X) as (a & b & c & d & ? & ? & RS & _). eauto. }
    unfold reserves in RS. destruct next_sith as [ns|].
    + bok H sd SD. bok H ev EV. injection H as <- <- <-. assert (ev = d_raw e) as -> by (unfold from_utf8 in EV; destruct (utf8 (d_raw e)) in EV; now inversion EV). split; auto. split; auto. left. destruct salt as [salt|].
      { replace (negb (is_none current) || negb (is_none next_keys) || negb (is_none (Some ns))) with true in RS; [discriminate|]. cbn [is_none negb]. now rewrite orb_true_r. }
      destruct current; [|discriminate]. destruct next_keys; [|discriminate]. destruct next_salt; [discriminate|]. repeat split; discriminate.
    + destruct ck as [ck|]; [|discriminate]. bok H sigs SG. bok H ev EV. bok H sd SD. injection H as <- <- <-. split; auto. split; auto. right.
      destruct salt as [salt|]; [|destruct current; [|discriminate]; destruct next_keys; discriminate].
      destruct current; [discriminate|]. destruct next_keys; [discriminate|]. destruct next_salt; [|discriminate]. split; [repeat split; discriminate|]. eauto.
Qed.

(*# C148_inception_arguments
   A partial inception needs the next digests or a salt for the reserve keys. From a salt and without a threshold for the next keys it never succeeds unless it is told that the keys
   are transferable: left out, that argument means they are not, no reserve keys are made, and the weights do not fit the empty list of digests.
##
Example C148_inception_case : is_ok (incept_partial mix toy toy_kdf no_floats (zeros 16) no_rng None None None (Some true) (Some (s! "E")) None (Some salt0) None None) = true /\
  incept_partial mix toy toy_kdf no_floats (zeros 16) no_rng None None None None (Some (s! "E")) None (Some salt0) None None = Err EValue /\
  incept_partial mix toy toy_kdf no_floats (zeros 16) no_rng None None None (Some true) (Some (s! "E")) None None None None = Err EProgrammer.
Proof. split; [vm_compute; reflexivity|]. split; vm_compute; reflexivity. Qed.
#*)
Lemma C148_inception_l (hash : bytes -> bytes -> bytes) (cr : crypto) (kdf : bytes -> bytes -> N -> N -> N -> option bytes) (canon : bytes -> option bytes) (random : bytes) (rng : N -> bytes)
    (code : option bytes) (scount rcount : option N) (transferable : option bool) (pcode tier salt : option bytes) (next_keys : option (list bytes)) (next_sith : option bytes) (r : bytes * keyset * bytes) :
  or_else rcount 3 < 2 ^ 64 -> incept_partial hash cr kdf canon random rng code scount rcount transferable pcode tier salt next_keys next_sith = Ok r ->
  next_keys <> None \/ salt <> None /\ (transferable = Some true \/ next_sith <> None).
Proof.
  intros B H. unfold incept_partial in H. bok H x X. destruct x as ((e & k) & sigs). clear H. destruct (incept_parted _ _ _ _ _ _ _ _ _ _ _ _ _ _ _ _ _ _ X) as (keys & ndigs & rc & nsith & O & KS & LK & NT & IN & SG & AN).
  destruct AN as [(-> & _)|(-> & -> & s & -> & AN)]; [left; discriminate|]. right. split; [discriminate|]. destruct transferable as [[|]|]; auto; cbn [or_else] in AN.
  all: right; intros ->; cbn [next_threshold] in NT; injection NT as <-; destruct AN as [(_ & ->)|([=] & _)]; unfold incept in IN; cbv zeta in IN; bok IN vs V; bok IN snr SN; bok IN th TH; bok IN nu NU.
  all: destruct (_ <? 1) in IN; [discriminate|]; destruct (_ <? t_size th) in IN; [discriminate|]; bok IN xt XT; cbn [or_else] in *; destruct (N.ltb_spec (len (@nil bytes)) (t_size xt)) as [L|L]; [discriminate|].
  all: destruct (shares_size canon 0 _ xt B XT) as (PS & _ & SZ); rewrite len_nil in L; lia.
Qed.
