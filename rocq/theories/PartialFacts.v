(** Facts about events with reserve keys. *)
From Coq Require Import String.
From Coq Require Import NArith ZArith QArith Bool List Lia.
From Verif Require Import Base Util Tables Matter Indexer Counter Prims Json Tholder Common Saider Diger Sadder Signer Prefixer Pather Short Verify Events Partial.
From Verif Require Import Spec SpecPrims SpecJson SpecCommon SpecTholder SpecSaider SpecSadder SpecPrefixer SpecSigner SpecFlow SpecLog SpecBuild SpecPartial.
From Verif Require Import BaseFacts MatterFacts MatterText PrimsFacts JsonFacts CommonFacts SadderFacts SaiderFacts SadderThms SaiderThms FieldThms PrefixerThms SignerThms FlowThms ShortThms TholderFacts TholderThms VerifyFacts VerifyThms LogThms FollowFacts FollowThms.
Import ListNotations.
Open Scope N_scope.

(** ** Equal weights *)
Definition share (n : N) : rat := (1, n).
Definition weighed (z n : N) : list rat := @repeat rat (0, 1) (N.to_nat z) ++ repeat (share n) (N.to_nat n).
Lemma len_repeat {A} (x : A) n : len (repeat x (N.to_nat n)) = n.
Proof. unfold len. rewrite repeat_length. lia. Qed.
Lemma map_repeat {A B} (f : A -> B) x n : map f (repeat x n) = repeat (f x) n.
Proof. induction n as [|n IH]; cbn [repeat map]; congruence. Qed.
Lemma weighed_len z n : len (weighed z n) = z + n.
Proof. unfold weighed. now rewrite len_app, !len_repeat. Qed.
Lemma share_text n w : 0 < n -> n < 10 ^ 40 -> weight_rat (s! "1/" ++ dec_text n) = Ok w -> w = share n.
Proof.
  intros P U H. assert (SpecTholder.numeral (dec_text n) n) as NU by (exists (dec_text n); split; auto; now apply decimal_dec).
  assert (split_on x2f (s! "1" ++ s! "/" ++ dec_text n) = [s! "1"; dec_text n]) as SP.
  { apply (weight_frac_split _ _ 1 n); auto. exists (s! "1"). split; auto. apply (decimal_dec 1). reflexivity. }
  unfold weight_rat in H. change (s! "1/" ++ dec_text n) with (s! "1" ++ s! "/" ++ dec_text n) in H. rewrite SP in H. change (parse_i32 (s! "1")) with (Some 1%Z) in H. cbv iota in H.
  destruct (parse_i32 (dec_text n)) as [z|] eqn:PI; [|discriminate]. destruct (parse_i32_numeral _ _ _ NU PI) as (-> & L).
  replace ((1 <? 0)%Z || (Z.of_N n <? 0)%Z) with false in H by (symmetry; apply orb_false_iff; lia). replace (Z.of_N n <? 1)%Z with false in H by lia. change (Z.to_N 1) with 1 in H. rewrite N2Z.id, rat_reduce_id in H; auto; [|apply N.gcd_1_l].
  now injection H as <-.
Qed.
Lemma each_weight (f : bytes -> R rat) x w n ws : (forall w', f x = Ok w' -> w' = w) -> Forall2 (fun s w => f s = Ok w) (repeat x n) ws -> ws = repeat w n.
Proof. intros E. revert ws. induction n as [|n IH]; intros ws H; inversion H; subst; cbn [repeat]; f_equal; auto. Qed.
Lemma zeros_sum n ws : rat_sum_from (0, 1) (@repeat rat (0, 1) n ++ ws) = rat_sum_from (0, 1) ws.
Proof. induction n as [|n IH]; cbn [repeat app]; auto. Qed.
Lemma shares_read canon z n t : n < 10 ^ 40 -> tholder_with_sith canon (shares z n) = Ok t -> 0 < n /\ weighted_t [weighed z n] t.
Proof.
  intros U H. unfold tholder_with_sith in H. rewrite sith_new in H. unfold shares, process_sith in H. cbn [to_i64 to_string] in H. unfold sith_array in H. cbn [to_vec] in H. rewrite bind_Ok in H.
  cbn [forallb is_ok andb] in H. cbn [to_vec bind] in H. bok H u0 X0. bok H u X. cbv iota in H. apply process_weighted_ok in H as (cs & V & T). apply v2r_ok in V as (ts & E & F & C).
  unfold vals in E. injection E as E. destruct ts as [|ws [|? ?]]; try discriminate. cbn [map] in E. injection E as E.
  assert (ws = repeat (s! "0") (N.to_nat z) ++ repeat (s! "1/" ++ dec_text n) (N.to_nat n)) as ->.
  { assert (map VStr (repeat (s! "0") (N.to_nat z) ++ repeat (s! "1/" ++ dec_text n) (N.to_nat n)) = map VStr ws) as EE by (rewrite <- E, map_app, !map_repeat; reflexivity).
    clear - EE. revert EE. generalize (repeat (s! "0") (N.to_nat z) ++ repeat (s! "1/" ++ dec_text n) (N.to_nat n)). intros a. revert ws. induction a as [|x a IH]; intros [|y ws] EE; try discriminate; auto. cbn in EE. injection EE as -> EE. f_equal. auto. }
  inversion F as [|? c ? r FC FR]; subst. inversion FR; subst. clear F FR. apply Forall2_app_inv_l in FC as (a & b & FA & FB & ->).
  apply (each_weight _ _ (0, 1)) in FA. 2:{ intros w' W. vm_compute in W. congruence. } subst a.
  destruct (N.eq_dec n 0) as [->|NZ].
  { exfalso. inversion FB; subst. rewrite app_nil_r in C. inversion C as [|? ? (s & S & LT) _]; subst. unfold rat_sum in S. rewrite <- (app_nil_r (repeat _ _)), zeros_sum in S. injection S as <-. discriminate. }
  split; [lia|]. apply (each_weight _ _ (share n)) in FB; [|intros w' W; apply share_text; auto; lia]. subst b. exact T.
Qed.
Lemma wlist_app idx pos a b : wlist idx pos (a ++ b) = wlist idx pos a ++ wlist idx (pos + len a) b.
Proof.
  revert pos. induction a as [|x a IH]; intros pos; cbn [app wlist]; [now rewrite len_nil, N.add_0_r|]. rewrite IH, len_cons. replace (pos + 1 + len a) with (pos + (1 + len a)) by lia. destruct (in_dec _ _ _); reflexivity.
Qed.
Lemma wlist_none idx pos a : (forall i, pos <= i -> i < pos + len a -> ~ In i idx) -> wlist idx pos a = [].
Proof.
  revert pos. induction a as [|x a IH]; intros pos H; cbn [wlist]; auto. rewrite len_cons in H. destruct (in_dec N.eq_dec pos idx) as [I|_].
  - exfalso. apply (H pos); auto; lia.
  - apply IH. intros i A B. apply H; lia.
Qed.
Lemma wlist_repeat idx w n : forall pos, exists m, wlist idx pos (repeat w n) = repeat w m /\ (m <= n)%nat /\ (m = n -> forall i, pos <= i -> i < pos + N.of_nat n -> In i idx).
Proof.
  induction n as [|n IH]; intros pos; cbn [repeat wlist]. { exists 0%nat. split; auto. split; auto. intros _ i A B. lia. }
  destruct (IH (pos + 1)) as (m & E & L & A). destruct (in_dec N.eq_dec pos idx) as [I|I].
  - exists (S m). rewrite E. split; auto. split; [lia|]. intros EM i X Y. destruct (N.eq_dec i pos) as [->|NE]; auto. apply A; lia.
  - exists m. split; auto. split; [lia|]. intros EM. lia.
Qed.
Lemma qsum_zeros m : (qsum (map rq (@repeat rat (0%N, 1%N) m)) == 0)%Q.
Proof. induction m as [|m IH]; cbn [repeat map qsum fold_right]; [reflexivity|]. fold (qsum (map rq (@repeat rat (0%N, 1%N) m))). rewrite IH. reflexivity. Qed.
Lemma qsum_shares p m : (qsum (map rq (repeat (share (Npos p)) m)) == Z.of_nat m # p)%Q.
Proof.
  induction m as [|m IH]; cbn [repeat map qsum fold_right]; [reflexivity|]. fold (qsum (map rq (repeat (share (Npos p)) m))). rewrite IH. unfold rq, share, Qeq, Qplus. cbn [fst snd Qnum Qden]. nia.
Qed.
Lemma qsum_app a b : (qsum (a ++ b) == qsum a + qsum b)%Q.
Proof. induction a as [|x a IH]; cbn [app qsum fold_right]; [rewrite Qplus_0_l; reflexivity|]. fold (qsum (a ++ b)). fold (qsum a). rewrite IH. ring. Qed.
(** All of the last keys are enough, and each of them is needed. *)
Lemma shares_enough z n t idx : 0 < n -> z + n < 2 ^ 32 -> weighted_t [weighed z n] t -> (forall i, In i idx <-> z <= i < z + n) -> satisfy t idx = Ok true.
Proof.
  intros P B T I. rewrite (satisfy_in_range _ _ _ T); cbn [concat]; rewrite ?app_nil_r, ?weighed_len; auto; [|intros i X; apply I in X; lia].
  cbn [sat_w]. pose proof (wt_ok _ _ T) as C. inversion C as [|? ? (s & S & LT) _]; subst. unfold weighed in *. rewrite wlist_app, len_repeat, N.add_0_l, (wlist_none idx 0), (wlist_all idx z); cbn [app].
  - unfold rat_sum in *. rewrite zeros_sum in S. rewrite S, bind_Ok, LT. reflexivity.
  - intros i X Y. rewrite len_repeat in Y. apply I. lia.
  - intros i X Y J. rewrite len_repeat in Y. apply I in J. lia.
Qed.
Lemma shares_needed z n t idx : 0 < n -> weighted_t [weighed z n] t -> satisfy t idx = Ok true -> forall i, z <= i < z + n -> In i idx.
Proof.
  intros P T S. rewrite (satisfy_weighted_eq _ _ _ T) in S. destruct (existsb _ _) in S; [discriminate|]. destruct (_ <? _) in S; [discriminate|]. cbn [sat_w] in S. bok S s W. destruct (rat_lt1 s) eqn:LT; [discriminate|]. clear S.
  pose proof (wt_wf _ _ T) as F. inversion F as [|? ? FW _]; subst. assert (Forall wfr (weighed z n)) as FR by (revert FW; apply Forall_impl; intros a Ha; apply Ha).
  apply rat_sum_ok in W as (Ws & Q); [|now apply wlist_Forall]. apply (rat_lt1_spec s Ws) in LT. rewrite Q in LT. unfold weighed in LT. rewrite wlist_app, len_repeat, map_app, qsum_app in LT.
  destruct (wlist_repeat idx (0, 1) (N.to_nat z) 0) as (m0 & E0 & _). destruct (wlist_repeat idx (share n) (N.to_nat n) (0 + z)) as (m & E & L & A). rewrite E0, E, qsum_zeros in LT. destruct n as [|p]; [lia|].
  rewrite qsum_shares, Qplus_0_l in LT. unfold Qle in LT. cbn [Qnum Qden] in LT. intros i X. apply A; lia.
Qed.
Lemma shares_all_of z n t : 0 < n -> weighted_t [weighed z n] t -> all_of (t_thold t) z n.
Proof.
  intros P T. destruct n as [|p]; [lia|]. exists p. split; auto. exists (canon_texts [weighed z (Npos p)]). split; [rewrite (wt_thold _ _ T); reflexivity|]. cbn [canon_texts map]. constructor; [|constructor].
  pose proof (wt_wf _ _ T) as F. inversion F as [|? ? FW _]; subst. unfold weighed in *. rewrite map_app. apply Forall_app in FW as (FA & FB). apply Forall2_app.
  - clear. induction (N.to_nat z) as [|m IH]; cbn [repeat map]; constructor; auto. change (0%Q) with (inject_Z (Z.of_N 0)). apply weight_int. apply (decimal_dec 0). reflexivity.
  - revert FB. generalize (N.to_nat (Npos p)). intros m FB. induction m as [|m IH]; cbn [repeat map] in *; constructor; [|apply IH; now inversion FB]. inversion FB as [|? ? W _]; subst. exact (rat_text_weight _ W).
Qed.

(** ** Signatures at an offset *)
Lemma all_signed_in cr hash rng ser after gs : correct cr -> Forall (a_signer cr) gs -> forall before sigs n, sign_each hash cr rng ser None gs (len before) = Ok (sigs, n) ->
  check_sigs cr (before ++ map g_verfer gs ++ after) ser (map fst sigs) = Ok (map (fun i => (i, i)) (upto (len before) (length gs))) /\ (gs <> [] -> len before + len gs <= 4096).
Proof.
  intros CR AS. induction AS as [|g gs SG AS IH]; intros before sigs n H; cbn [sign_each] in H.
  - injection H as <- <-. split; [reflexivity|congruence].
  - rewrite bind_Ok in H. bok H x X. bok H nx NX. bok H r RR. injection H as <- <-. destruct x as (x, v). destruct r as (more, n'). cbn [fst snd] in *.
    destruct (answer _ _ _ _ _ _ _ _ _ CR SG X) as (IX & VX & _). destruct SG as (a & b & c & d & e & f & SG). destruct (indexed_full _ _ _ _ _ _ _ _ (rng (len before)) ser false (len before) None CR SG) as (_ & B & F).
    destruct (F _ _ X) as (_ & _ & _ & _ & _ & _ & _ & OX & _). assert (len before < 4096) as LB by exact (proj1 (proj1 B (ex_intro _ _ X))).
    assert (nx = len (before ++ [g_verfer g])) as ->. { unfold u32_add in NX. destruct (_ <=? _); [|discriminate]. injection NX as <-. rewrite len_app. reflexivity. }
    apply IH in RR as (RR & LR). rewrite <- app_assoc in RR. cbn [app map fst check_sigs] in *. rewrite IX.
    replace (len (before ++ g_verfer g :: map g_verfer gs ++ after) <? len before) with false by (rewrite len_app; symmetry; apply N.ltb_ge; lia).
    replace (nth_error (before ++ g_verfer g :: map g_verfer gs ++ after) (N.to_nat (len before))) with (Some (g_verfer g)). 2:{ unfold len. rewrite Nnat.Nat2N.id, nth_error_app2 by lia. rewrite PeanoNat.Nat.sub_diag. reflexivity. }
    rewrite VX, bind_Ok. rewrite RR, bind_Ok. cbn [upto length map]. rewrite OX, len_app. split; [reflexivity|].
    intros _. destruct gs as [|g' gs']; [rewrite len_cons, len_nil; lia|]. assert (g' :: gs' <> []) as NG by discriminate. apply LR in NG. rewrite len_app, !len_cons, len_nil in *. lia.
Qed.
Lemma keyset_read cr k keys : correct cr -> ks_verfers_qb64 cr k = Ok keys -> exists vs, ks_verfers cr k = Ok vs /\ Forall2 (fun v t => infil v = Ok t) vs keys /\
  texts_of [s! "B"; s! "D"; s! "1AAA"; s! "1AAB"; s! "1AAI"; s! "1AAJ"] (map VStr keys) vs.
Proof.
  intros CR V. unfold ks_verfers_qb64 in V. bok V vs G. exists vs. split; auto. apply prints_each in V. split; auto. unfold ks_verfers in G. bok G gs GS. injection G as <-. destruct (signers_made _ _ _ _ GS) as (AS & _). clear GS.
  revert keys V. induction AS as [|g gs G AS IH]; intros keys V; cbn [map] in V; inversion V as [|? t ? ts T TS]; subst; cbn [map]; constructor; [|apply IH; auto].
  exists t. split; auto. eapply signer_text; eauto.
Qed.
Lemma keyset_signs_in cr hash rng k ser vs sigs before after : correct cr -> k_offset k = len before -> len before < 2 ^ 32 -> ks_verfers cr k = Ok vs -> ks_sign hash cr rng k ser None = Ok sigs ->
  check_sigs cr (before ++ vs ++ after) ser (map fst sigs) = Ok (map (fun i => (i, i)) (upto (len before) (length vs))) /\ (vs <> [] -> len before + len vs <= 4096).
Proof.
  intros CR O B V SG. unfold ks_verfers in V. bok V gs GS. injection V as <-. unfold ks_sign in SG. rewrite GS, bind_Ok in SG. bok SG r RR. injection SG as <-.
  destruct (signers_made _ _ _ _ GS) as (AS & _). unfold as_u32 in RR. rewrite O, N.mod_small in RR by exact B. destruct r as (sg, n). destruct (all_signed_in _ _ _ _ after _ CR AS _ _ _ RR) as (X & Y).
  rewrite map_length. split; [exact X|]. intros NE. rewrite len_map. apply Y. intros ->. now apply NE.
Qed.
Lemma check_sigs_app cr vs ser a b x y : check_sigs cr vs ser a = Ok x -> check_sigs cr vs ser b = Ok y -> check_sigs cr vs ser (a ++ b) = Ok (x ++ y).
Proof.
  intros A B. revert x A. induction a as [|s a IH]; intros x A; cbn [app check_sigs] in *. { injection A as <-. exact B. }
  destruct (_ <? _); [discriminate|]. destruct (nth_error _ _); [|discriminate]. bok A ok OK1. rewrite OK1, bind_Ok. bok A l L. rewrite (IH _ L), bind_Ok. injection A as <-. destruct ok; reflexivity.
Qed.
Lemma upto_app a b : forall i, upto i (a + b) = upto i a ++ upto (i + N.of_nat a) b.
Proof. induction a as [|a IH]; intros i; cbn [upto plus app]; [now rewrite N.add_0_r|]. rewrite IH. do 3 f_equal. lia. Qed.

(** ** Showing the reserve keys *)
Lemma revealed_app hash vs ds a b x y : revealed hash vs ds a = Ok x -> revealed hash vs ds b = Ok y -> revealed hash vs ds (a ++ b) = Ok (x ++ y).
Proof.
  intros A B. revert x A. induction a as [|(i, o) a IH]; intros x A; cbn [app revealed] in *. { injection A as <-. exact B. }
  bok A ok OK1. rewrite OK1, bind_Ok. bok A l L. rewrite (IH _ L), bind_Ok. injection A as <-. destruct ok; reflexivity.
Qed.
Lemma revealed_beyond hash vs ds n : forall i, len ds <= i -> revealed hash vs ds (map (fun i => (i, i)) (upto i n)) = Ok [].
Proof.
  induction n as [|n IH]; intros i L; cbn [upto map revealed]; auto. replace (i <? len ds) with false by (symmetry; apply N.ltb_ge; lia). rewrite bind_Ok, IH by lia. reflexivity.
Qed.
Lemma revealed_first hash vs after keys : sized_hash hash -> Forall2 (fun v t => infil v = Ok t) vs keys -> forall n, (n <= length keys)%nat ->
  forall i, i + N.of_nat n = len keys -> revealed hash (vs ++ after) (map (fun t => Mt (s! "E") 0 (hash (s! "E") t)) keys) (map (fun i => (i, i)) (upto i n)) = Ok (upto i n).
Proof.
  intros SH V. induction n as [|n IH]; intros LN i E; [reflexivity|]. cbn [upto map revealed]. rewrite len_map.
  replace (i <? len keys) with true by (symmetry; apply N.ltb_lt; lia). rewrite nth_error_app1 by (rewrite (length_pair _ _ _ V); unfold len in E; lia).
  destruct (nth_error vs (N.to_nat i)) as [v|] eqn:NV. 2:{ apply nth_error_None in NV. rewrite (length_pair _ _ _ V) in NV. unfold len in E. lia. }
  destruct (nth_pair _ _ _ V _ _ NV) as (t & NT & T). rewrite nth_error_map, NT. cbn [option_map]. rewrite T, bind_Ok, default_digest, bind_Ok by auto.
  assert (has_code said_codes (s! "E") = true) as HS by reflexivity. destruct (said_built hash (s! "E") t SH HS) as (_ & W). destruct (wf_round _ W) as (q & _ & Q & _). rewrite Q, !bind_Ok, beq_refl.
  rewrite IH by lia. reflexivity.
Qed.

(** ** Acceptance *)
Lemma rotation_taken canon hash cr mo pre keys dig ilk sn sith ndigs nsith toad wits cuts adds data ver kind intive e g p st pe ae fuel deep seen vf tt' found ds nt idx : sized_hash hash ->
  rotate canon hash pre keys dig ilk sn sith ndigs nsith toad wits cuts adds data ver kind intive = Ok e -> ilk <> Some (s! "drt") ->
  prefixer_with_qb64 hash pre = Ok p -> sn < 2 ^ 32 -> count_key_events st pre = Ok sn -> logged canon st pre (sn - 1) pe dig -> announcing canon st pre sn ae ->
  signing_keys canon e = Ok (vf, tt') -> check_groups cr vf (d_raw e) g = Ok found -> satisfy tt' (map fst found) = Ok true ->
  next_keys canon ae = Ok (ds, nt) -> revealed hash vf ds found = Ok idx -> satisfy nt idx = Ok true ->
  deep <> Some true -> verify_key_event canon hash cr mo (S fuel) st e g deep seen = Ok (false, seen).
Proof.
  intros SH H NI PX B CT (text & GE & PS & PD) AN SGK CG EN NK RV ENN ND.
  destruct (rotate_shape _ _ _ _ _ _ _ _ _ _ _ _ _ _ _ _ _ _ _ SH H) as (vs & snr & snh & t & th & nu & xt & xu & toader & newits & kt & nt' & bt & NS & NH & (n & NM & N1) & TH & NU & L1 & S1 & _ & _ & _ & _ & _ & _ & KT & _ & _ & IL & K & SD & XT & CT' & SV).
  assert (or_else ilk (s! "rot") = s! "rot") as IR. { destruct ilk as [i|]; [|reflexivity]. cbn [or_else] in *. destruct IL as [<-|[<-|[]]]; congruence. } rewrite IR in K.
  destruct (number_back sn snr snh NS) as (NB & BK). { change (2 ^ 32) with 4294967296 in B. change (2 ^ 128) with 340282366920938463463374607431768211456. lia. }
  destruct (BK NH) as (_ & RB). rewrite NB in NM. injection NM as <-.
  assert (sn mod 4294967296 = sn) as MS by (apply N.mod_small; exact B). assert (before sn = Ok (sn - 1)) as BF by (apply before_ok; rewrite MS; split; auto).
  assert (serder_est e = Ok true) as EST by (unfold serder_est; rewrite K; reflexivity).
  apply (accepted_intro canon hash cr mo fuel st e _ deep seen false seen pre p sn (s! "rot") t (vf, tt') found). split.
  - unfold serder_pre. rewrite K. reflexivity.
  - exact PX.
  - assert (serder_sner e = Ok snr) as SN by (unfold serder_sner; rewrite K; exact RB). unfold serder_sn. rewrite SN. exact NB.
  - unfold text_at. rewrite K. reflexivity.
  - exact SD.
  - unfold place_event. rewrite CT, bind_Ok. change (beq (s! "rot") (s! "icp")) with false. cbv iota. rewrite SV, bind_Ok. cbn [negb]. replace (sn <? 1) with false by (symmetry; apply N.ltb_ge; auto).
    rewrite N.ltb_irrefl, N.eqb_refl. reflexivity.
  - unfold keys_for. rewrite EST. exact SGK.
  - exact CG.
  - exact EN.
  - exists rot_labels. split; [reflexivity|]. unfold verify_ked_labels. rewrite K. reflexivity.
  - right. split; [reflexivity|]. exists (sn - 1), text, pe, dig. do 4 (split; [assumption|]). split; [unfold text_at; rewrite K; reflexivity|]. split; [|now apply not_deep].
    unfold check_rotation. rewrite EST, bind_Ok. destruct AN as (pe' & said & il & (text' & GE' & PS' & PD') & TY & AN). unfold asked_for in *. change (2 ^ 32) with 4294967296 in *. rewrite MS in *.
    rewrite GE in GE'. injection GE' as <-. rewrite PS in PS'. injection PS' as <-. cbn [fst]. 
    assert (serder_est pe = Ok (has_code establishing il)) as ->. { apply est_field. exists il. split; auto. apply has_code_In. } rewrite bind_Ok.
    assert ((let* next := if has_code establishing il then next_keys canon pe else let* n := before sn in let* raw := get_latest_establishment_event_as_of_sn st pre n in let* e0 := serder_with_raw canon raw in next_keys canon e0 in Ok next) = Ok (ds, nt)) as NX.
    { destruct AN as [(I & ->)|(I & text'' & GL & ES)].
      - apply has_code_In in I. rewrite I, NK. reflexivity.
      - destruct (has_code establishing il) eqn:Q; [apply has_code_In in Q; contradiction|]. rewrite BF, bind_Ok, GL, bind_Ok, ES, bind_Ok, NK. reflexivity. }
    destruct (if has_code establishing il then _ else _) as [nx| |]; try discriminate. rewrite bind_Ok in NX. injection NX as ->. rewrite bind_Ok. cbn [fst snd].
    rewrite RV, bind_Ok, ENN. reflexivity.
  - discriminate.
Qed.
Lemma interaction_taken canon hash cr mo pre dig sn data ver kind e g p st pe ee fuel deep seen vf tt' found : sized_hash hash ->
  interact canon hash pre dig (Some sn) data ver kind = Ok e -> prefixer_with_qb64 hash pre = Ok p -> sn < 2 ^ 32 -> count_key_events st pre = Ok sn -> logged canon st pre (sn - 1) pe dig ->
  established canon st pre (sn - 1) ee -> signing_keys canon ee = Ok (vf, tt') -> check_groups cr vf (d_raw e) g = Ok found -> satisfy tt' (map fst found) = Ok true ->
  deep <> Some true -> verify_key_event canon hash cr mo (S fuel) st e g deep seen = Ok (false, seen).
Proof.
  intros SH H PX B CT (text & GE & PS & PD) (text' & GL & ES) SGK CG EN ND.
  destruct (interact_shape _ _ _ _ _ _ _ _ _ SH H) as (vs & snr & snh & t & NS & NH & (n & NN & N1) & K & SD & XT & CT' & SV). cbn [or_else] in *.
  destruct (number_back sn snr snh NS) as (NB & BK). { change (2 ^ 32) with 4294967296 in B. change (2 ^ 128) with 340282366920938463463374607431768211456. lia. }
  destruct (BK NH) as (_ & RB). rewrite NB in NN. injection NN as <-.
  assert (sn mod 4294967296 = sn) as MS by (apply N.mod_small; exact B). assert (before sn = Ok (sn - 1)) as BF by (apply before_ok; rewrite MS; split; auto).
  apply (accepted_intro canon hash cr mo fuel st e _ deep seen false seen pre p sn (s! "ixn") t (vf, tt') found). split.
  - unfold serder_pre. rewrite K. reflexivity.
  - exact PX.
  - assert (serder_sner e = Ok snr) as SN by (unfold serder_sner; rewrite K; exact RB). unfold serder_sn. rewrite SN. exact NB.
  - unfold text_at. rewrite K. reflexivity.
  - exact SD.
  - unfold place_event. rewrite CT, bind_Ok. change (beq (s! "ixn") (s! "icp")) with false. cbv iota. rewrite SV, bind_Ok. cbn [negb]. replace (sn <? 1) with false by (symmetry; apply N.ltb_ge; auto).
    rewrite N.ltb_irrefl, N.eqb_refl. reflexivity.
  - unfold keys_for. assert (serder_est e = Ok false) as -> by (unfold serder_est; rewrite K; reflexivity). rewrite bind_Ok, BF, bind_Ok, GL, bind_Ok, ES, bind_Ok. exact SGK.
  - exact CG.
  - exact EN.
  - exists ixn_labels. split; [reflexivity|]. unfold verify_ked_labels. rewrite K. reflexivity.
  - right. split; [reflexivity|]. exists (sn - 1), text, pe, dig. do 4 (split; [assumption|]). split; [unfold text_at; rewrite K; reflexivity|]. split; [|now apply not_deep].
    unfold check_rotation. assert (serder_est e = Ok false) as -> by (unfold serder_est; rewrite K; reflexivity). reflexivity.
  - discriminate.
Qed.
