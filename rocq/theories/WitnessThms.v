(** Proofs of the theorems on witness thresholds and on the cutting of witnesses. *)
From Coq Require Import String.
From Coq Require Import NArith ZArith QArith Bool List Lia.
From Verif Require Import Base Tables Matter Indexer Prims Json Tholder Common Saider Diger Sadder Signer Prefixer Pather Short Verify Ingest Events.
From Verif Require Import Spec SpecPrims SpecJson SpecCommon SpecTholder SpecSaider SpecSadder SpecPrefixer SpecSigner SpecFlow SpecLog SpecBuild SpecWitness World.
From Verif Require Import BaseFacts MatterFacts MatterText PrimsFacts PrimsThms JsonFacts CommonFacts SadderFacts SaiderFacts SadderThms SaiderThms FieldThms PrefixerThms SignerThms FlowThms ShortThms TholderFacts TholderThms VerifyFacts VerifyThms LogThms FollowFacts FollowThms.
Import ListNotations.
Open Scope N_scope.

Lemma incept_witnesses canon hash keys sith ndigs nsith toad wits cnfg data ver kind code intive delpre e : sized_hash hash ->
  incept canon hash keys sith ndigs nsith toad wits cnfg data ver kind code intive delpre = Ok e ->
  exists toader bt, toader_of toad (or_else wits []) = Ok toader /\ toad_value (or_else intive false) toader = Ok bt /\ field_of (d_ked e) (s! "bt") bt /\
    field_of (d_ked e) (s! "b") (texts_value (or_else wits [])).
Proof.
  intros SH H. unfold incept in H. cbv zeta in H. bok H vs V. bok H snr SN. bok H th TH. bok H nu NU. destruct (N.ltb_spec (or_else nu 1) 1); [discriminate|].
  destruct (N.ltb_spec (len keys) (t_size th)); [discriminate|]. bok H xt XT. destruct (N.ltb_spec (len (or_else ndigs [])) (t_size xt)); [discriminate|].
  destruct (negb (all_different _)) in H; [discriminate|]. bok H toader TO. bok H kt KT. bok H nt NT. bok H bt BT. bok H snh SNH.
  exists toader, bt. split; auto. split; auto.
  destruct delpre as [dp|].
  - bok H ked0 K0. injection K0 as <-. bok H p P. apply bind_ok in P as (p' & PK & P). cbn [is_none negb andb] in P. destruct (digestive p') eqn:DG; [|discriminate]. cbn [negb] in P. injection P as ->. rewrite DG in H.
    bok H t T. bok H ked1 K1. injection K1 as <-. bok H ked2 K2. injection K2 as <-. destruct (resized _ _ _ _ H) as (proto & n & t' & VS & K & _). split; fld K.
  - rewrite bind_Ok in H. bok H p P. bok H t T. bok H ked1 K1. injection K1 as <-. destruct (digestive p) eqn:DG.
    + bok H ked2 K2. injection K2 as <-. destruct (resized _ _ _ _ H) as (proto & n & t' & VS & K & _). split; fld K.
    + bok H ked2 K2. bok K2 r SS. injection K2 as <-.
      destruct (fun nd i => made canon hash _ _ _ _ SH nd i SS H) as (vs' & t' & K & _). { apply different. vm_compute. reflexivity. } { vm_compute. auto. }
      split; fld K.
Qed.

(** ** Thresholds *)
Lemma ample_ok n m : ample n None None = Ok m -> 1 <= n /\ n + 3 <= u128_max /\ m = N.min n ((n + N.max 1 ((n - 1) / 3) + 3) / 2).
Proof.
  unfold ample. cbn [or_else]. unfold u128_sub, u128_add. intros H. destruct (N.leb_spec 1 n) as [L|]; [|discriminate]. rewrite bind_Ok in H.
  assert ((n - 1) / 3 <= (n - 1 + 2) / 3) as D3 by (apply N.div_le_mono; lia).
  destruct (N.leb_spec (n - 1 + 2) u128_max); [|discriminate]. rewrite bind_Ok in H.
  destruct (N.leb_spec (n + N.max 1 ((n - 1) / 3)) u128_max); [|discriminate]. rewrite bind_Ok in H.
  destruct (N.leb_spec (n + N.max 1 ((n - 1) / 3) + 3) u128_max); [|discriminate]. rewrite bind_Ok in H.
  destruct (N.leb_spec (n + N.max 1 ((n - 1 + 2) / 3)) u128_max); [|discriminate]. rewrite bind_Ok in H.
  destruct (N.leb_spec (n + N.max 1 ((n - 1 + 2) / 3) + 3) u128_max); [|discriminate]. rewrite bind_Ok in H. injection H as <-.
  split; auto. split; [lia|]. f_equal. apply N.min_l. apply N.div_le_mono; [discriminate|]. lia.
Qed.
Lemma ample_facts n m : ample n None None = Ok m -> n + 3 <= u128_max /\ safe n m /\ 1 <= m /\ m <= n /\ (live n m <-> n mod 3 <> 1 \/ n = 1).
Proof.
  intros H. apply ample_ok in H as (L & B & ->). split; auto. clear B. unfold safe, live, faulty.
  pose proof (N.div_mod (n - 1) 3 ltac:(discriminate)) as E. pose proof (N.mod_lt (n - 1) 3 ltac:(discriminate)) as R.
  assert (n mod 3 = ((n - 1) mod 3 + 1) mod 3) as EM. { rewrite N.add_mod_idemp_l by discriminate. f_equal. lia. }
  set (f := (n - 1) / 3) in *. set (r := (n - 1) mod 3) in *.
  pose proof (N.div_mod (n + N.max 1 f + 3) 2 ltac:(discriminate)) as E2. pose proof (N.mod_lt (n + N.max 1 f + 3) 2 ltac:(discriminate)) as R2.
  set (q := (n + N.max 1 f + 3) / 2) in *. set (b := (n + N.max 1 f + 3) mod 2) in *. clearbody q b f r.
  assert (r = 0 \/ r = 1 \/ r = 2) as [->|[->| ->]] by lia.
  - change ((0 + 1) mod 3) with 1 in EM. repeat split; try lia.
  - change ((1 + 1) mod 3) with 2 in EM. repeat split; try lia.
  - change ((2 + 1) mod 3) with 0 in EM. repeat split; try lia.
Qed.
Lemma toad_read iv toader n bt e : number_num toader = Ok n -> n <= u128_max -> toad_value iv toader = Ok bt -> field_of (d_ked e) (s! "bt") bt -> witness_threshold e n.
Proof.
  intros NN B T F. unfold toad_value in T. rewrite NN, bind_Ok in T. destruct (iv && _).
  - injection T as <-. now left.
  - unfold number_numh in T. rewrite NN in T. cbn [bind] in T. injection T as <-. right. exists (to_hex n). destruct (to_hex_spec n B) as (A & D). split; auto. split; auto.
    apply u128_hex_iff. now apply hex_round_trip.
Qed.
Lemma below n : n <= u128_max -> n < 2 ^ 128.
Proof. unfold u128_max. change (2 ^ 128) with 340282366920938463463374607431768211456. lia. Qed.
Lemma toader_facts toad wits toader : toader_of toad wits = Ok toader -> (forall t, toad = Some t -> t < 2 ^ 128) ->
  exists m, number_num toader = Ok m /\ m <= u128_max /\ (wits = [] -> m = 0) /\ (wits <> [] -> 1 <= m /\ m <= len wits) /\ (forall t, toad = Some t -> m = t) /\
    (toad = None -> wits <> [] -> ample (len wits) None None = Ok m).
Proof.
  intros H B. unfold toader_of in H. bok H to T. bok H m M. exists m. destruct toad as [t|].
  - destruct (number_back t to [] T (B t eq_refl)) as (NB & _). rewrite NB in M. injection M as <-. assert (t <= u128_max) by (specialize (B t eq_refl); unfold u128_max; change (2 ^ 128) with 340282366920938463463374607431768211456 in B; lia).
    destruct wits as [|w ws].
    + destruct (N.eqb_spec t 0); [|discriminate]. injection H as <-. subst. split; auto. split; auto. split; auto. split; [congruence|]. split; [now intros ? [= <-]|discriminate].
    + destruct (_ || _) eqn:O; [discriminate|]. injection H as <-. apply orb_false_iff in O as (O1 & O2). apply N.ltb_ge in O1. apply N.ltb_ge in O2. split; auto. split; auto. split; [discriminate|]. split; [auto|]. split; [now intros ? [= <-]|discriminate].
  - destruct wits as [|w ws].
    + destruct (number_back 0 to [] T eq_refl) as (NB & _). rewrite NB in M. injection M as <-. injection H as <-. split; auto. split; [discriminate|]. split; auto. split; [congruence|]. split; [discriminate|congruence].
    + bok T n A. pose proof A as A'. apply ample_facts in A' as (B' & _ & L1 & L2 & _). assert (n <= u128_max) as NB' by lia. destruct (number_back n to [] T (below _ NB')) as (NB & _). rewrite NB in M. injection M as <-.
      destruct (_ || _) eqn:O; [discriminate|]. injection H as <-. split; auto. split; auto. split; [discriminate|]. split; [auto|]. split; [discriminate|auto].
Qed.

(** ** Cutting *)
Lemma removals_fit : forall ps l, (forall j p, nth_error ps j = Some p -> p + N.of_nat j < len l) -> exists l', removals l ps = Ok l' /\ len l' + len ps = len l.
Proof.
  induction ps as [|p ps IH]; intros l H; cbn [removals]; [exists l; split; auto; rewrite len_nil; lia|].
  pose proof (H 0%nat p eq_refl) as P. cbn in P. rewrite N.add_0_r in P. replace (len l <=? p) with false by (symmetry; apply N.leb_gt; auto).
  assert (len (firstn (N.to_nat p) l ++ skipn (S (N.to_nat p)) l) + 1 = len l) as L. { unfold len in *. rewrite app_length, firstn_length, skipn_length. lia. }
  destruct (IH (firstn (N.to_nat p) l ++ skipn (S (N.to_nat p)) l)) as (l' & R & E).
  { intros j q J. specialize (H (S j) q J). lia. }
  exists l'. split; auto. rewrite len_cons. lia.
Qed.
Lemma removals_short : forall ps l l', removals l ps = Ok l' -> (forall j p, nth_error ps j = Some p -> p + N.of_nat j < len l) /\ len l' + len ps = len l.
Proof.
  induction ps as [|p ps IH]; intros l l' H; cbn [removals] in H.
  - injection H as <-. split; [intros [|j] q J; discriminate|rewrite len_nil; lia].
  - destruct (N.leb_spec (len l) p) as [|P]; [discriminate|].
    assert (len (firstn (N.to_nat p) l ++ skipn (S (N.to_nat p)) l) + 1 = len l) as L. { unfold len in *. rewrite app_length, firstn_length, skipn_length. lia. }
    apply IH in H as (A & B). split; [|rewrite len_cons; lia]. intros [|j] q J; [injection J as <-; cbn; lia|]. specialize (A j q J). lia.
Qed.
Lemma removals_np : forall ps l, removals l ps = Panic \/ exists l', removals l ps = Ok l'.
Proof. induction ps as [|p ps IH]; intros l; cbn [removals]; eauto. destruct (_ <=? _); eauto. Qed.
(** Each cut position, counted from [i], with the cuts before it, in terms of the list. *)
Lemma positions_spec cuts : forall wits i j p, nth_error (positions cuts wits i) j = Some p ->
  exists before w after gone, wits = before ++ w :: after /\ In w cuts /\ p = i + len before /\ cut_out cuts before gone /\ len gone = N.of_nat j.
Proof.
  induction wits as [|w wits IH]; intros i j p H; cbn [positions] in H; [destruct j; discriminate|]. destruct (has_code cuts w) eqn:C.
  - apply has_code_In in C. destruct j as [|j].
    + injection H as <-. exists [], w, wits, []. split; auto. split; auto. rewrite len_nil. split; [lia|]. split; [constructor|reflexivity].
    + cbn in H. destruct (IH _ _ _ H) as (b & w' & a & g & -> & I & -> & G & L). exists (w :: b), w', a, (w :: g). split; auto. split; auto. rewrite !len_cons. split; [lia|]. split; [now constructor|lia].
  - assert (~ In w cuts) as NC by (intros I; apply has_code_In in I; congruence). destruct (IH _ _ _ H) as (b & w' & a & g & -> & I & -> & G & L). exists (w :: b), w', a, g. split; auto. split; auto. rewrite !len_cons. split; [lia|]. split; [now constructor|lia].
Qed.
Lemma positions_len cuts : forall wits i, exists gone, cut_out cuts wits gone /\ len gone = len (positions cuts wits i).
Proof.
  induction wits as [|w wits IH]; intros i; cbn [positions]; [exists []; split; [constructor|reflexivity]|]. destruct (IH (i + 1)) as (g & G & L). destruct (has_code cuts w) eqn:C.
  - apply has_code_In in C. exists (w :: g). split; [now constructor|]. rewrite !len_cons. lia.
  - exists g. split; auto. constructor; auto. intros I. apply has_code_In in I. congruence.
Qed.
Lemma cut_unique cuts wits g g' : cut_out cuts wits g -> cut_out cuts wits g' -> g = g'.
Proof. intros H. revert g'. induction H; intros g' H'; inversion H'; subst; auto; try contradiction. f_equal; auto. Qed.
Lemma cut_app cuts a b g : cut_out cuts (a ++ b) g -> exists x y, cut_out cuts a x /\ cut_out cuts b y /\ g = x ++ y.
Proof.
  revert g. induction a as [|w a IH]; intros g H; cbn [app] in H; [exists [], g; split; [constructor|auto]|].
  inversion H as [|? ? k P T|? ? k P T]; subst; destruct (IH _ T) as (x & y & A & B & ->).
  - exists (w :: x), y. split; [now constructor|auto].
  - exists x, y. split; [now constructor|auto].
Qed.
Lemma cut_len cuts wits g : cut_out cuts wits g -> len g <= len wits.
Proof. induction 1; rewrite ?len_cons; [reflexivity|lia|lia]. Qed.
Lemma nth_pos cuts : forall before w after i, In w cuts -> forall gone, cut_out cuts before gone -> nth_error (positions cuts (before ++ w :: after) i) (length gone) = Some (i + len before).
Proof.
  induction before as [|b before IH]; intros w after i I gone G; cbn [app positions].
  - inversion G; subst. apply has_code_In in I. rewrite I. cbn. f_equal. rewrite len_nil. lia.
  - inversion G as [|? ? k P T|? ? k P T]; subst.
    + pose proof P as Q. apply has_code_In in Q. rewrite Q. cbn [length nth_error]. rewrite (IH w after (i + 1) I _ T). rewrite len_cons. f_equal. lia.
    + destruct (has_code cuts b) eqn:C; [apply has_code_In in C; contradiction|]. rewrite (IH w after (i + 1) I _ T). rewrite len_cons. f_equal. lia.
Qed.
(** The last cut one is what matters. *)
Lemma last_cut cuts wits g : cut_out cuts wits g -> g <> [] -> exists before w after g', wits = before ++ w :: after /\ In w cuts /\ cut_out cuts before g' /\ g = g' ++ [w] /\ cut_out cuts after [].
Proof.
  induction 1 as [|w l k P T IH|w l k P T IH]; intros NE; [congruence| |].
  - destruct k as [|x k].
    + exists [], w, l, []. split; auto. split; auto. split; [constructor|]. auto.
    + destruct IH as (b & w' & a & g' & -> & I & B & E & A); [discriminate|]. exists (w :: b), w', a, (w :: g'). split; auto. split; auto. split; [now constructor|]. split; [rewrite E; reflexivity|auto].
  - destruct (IH NE) as (b & w' & a & g' & -> & I & B & E & A). exists (w :: b), w', a, g'. split; auto. split; auto. split; [now constructor|auto].
Qed.
Lemma cut_none cuts l : cut_out cuts l [] -> forall w, In w l -> ~ In w cuts.
Proof. intros H. remember [] as g eqn:E. induction H; intros z I; [destruct I|discriminate|]. destruct I as [<-|I]; auto. Qed.
Lemma no_later cuts (b a b' a' : list bytes) w w' : b ++ w :: a = b' ++ w' :: a' -> In w cuts -> cut_out cuts a' [] -> len a' <= len a.
Proof.
  intros E I C. destruct (N.le_gt_cases (len a') (len a)) as [|GT]; auto. exfalso. change (b' ++ w' :: a') with (b' ++ [w'] ++ a') in E. rewrite app_assoc in E.
  assert (exists x, a' = x ++ w :: a) as (x & ->); [|apply (cut_none _ _ C w); auto; apply in_or_app; right; now left].
  destruct (app_eq_app _ _ _ _ E) as (x & [(_ & E1)|(_ & E1)]); [eauto|]. exists []. cbn [app]. apply (f_equal len) in E1 as E2. rewrite len_cons, len_app in E2. assert (x = []) as -> by (destruct x; [reflexivity|rewrite len_cons in E2; lia]). cbn [app] in E1. congruence.
Qed.
Lemma cutting cuts wits adds : (cut_too_far cuts wits -> new_witnesses wits cuts adds = Panic) /\
  (~ cut_too_far cuts wits -> exists l gone, new_witnesses wits cuts adds = Ok l /\ cut_out cuts wits gone /\ len l + len gone = len wits + len adds).
Proof.
  split.
  - intros (b & w & a & g & E & I & G & L). unfold new_witnesses. destruct (removals_np (positions cuts wits 0) wits) as [->|(l' & R)]; [reflexivity|]. exfalso.
    apply removals_short in R as (A & _). destruct (last_cut _ _ _ G) as (b' & w' & a' & g' & E' & I' & G' & EG & NA). { intros ->. rewrite len_nil in L. lia. }
    pose proof (nth_pos cuts b' w' a' 0 I' g' G') as NP. rewrite <- E' in NP. specialize (A _ _ NP).
    assert (len a' <= len a) as LE by (apply (no_later cuts b a b' a' w w'); congruence).
    rewrite E', len_app, len_cons in A. rewrite EG, len_app, len_cons, len_nil in L. unfold len in *. lia.
  - intros NF. destruct (positions_len cuts wits 0) as (g & G & LG). destruct (removals_fit (positions cuts wits 0) wits) as (l' & R & LR).
    { intros j p J. destruct (positions_spec _ _ _ _ _ J) as (b & w & a & g' & E & I & -> & G' & LJ).
      assert (exists ga, g = g' ++ w :: ga) as (ga & EG).
      { rewrite E in G. apply cut_app in G as (x & y & X & Y & ->). rewrite (cut_unique _ _ _ _ X G') in *. inversion Y; subst; [eauto|contradiction]. }
      destruct (last_cut _ _ _ G) as (b2 & w2 & a2 & g2 & E2 & I2 & G2 & EG2 & NA). { rewrite EG. destruct g'; discriminate. }
      assert (len a2 <= len a) as LE by (apply (no_later cuts b a b2 a2 w w2); congruence).
      assert (len g <= len a2 + 1) as B. { destruct (N.le_gt_cases (len g) (len a2 + 1)); auto. exfalso. apply NF. exists b2, w2, a2, g. auto. }
      rewrite E. rewrite EG, len_app, len_cons in B. rewrite len_app, len_cons. lia. }
    exists (l' ++ adds), g. unfold new_witnesses. rewrite R. split; auto. split; auto. rewrite len_app. lia.
Qed.

Lemma rotate_witnesses canon hash pre keys dig ilk sn sith ndigs nsith toad wits cuts adds data ver kind intive e : sized_hash hash -> (forall t, toad = Some t -> t < 2 ^ 128) ->
  rotate canon hash pre keys dig ilk sn sith ndigs nsith toad wits cuts adds data ver kind intive = Ok e ->
  exists m gone n, witness_threshold e m /\ cut_out (or_else cuts []) (or_else wits []) gone /\ n + len gone = len (or_else wits []) + len (or_else adds []) /\ ~ cut_too_far (or_else cuts []) (or_else wits []) /\
    (n = 0 -> m = 0) /\ (1 <= n -> 1 <= m /\ m <= n) /\ (forall t, toad = Some t -> m = t) /\ (toad = None -> 1 <= n -> ample n None None = Ok m) /\
    field_of (d_ked e) (s! "br") (VArr (map VStr (or_else cuts []))) /\ field_of (d_ked e) (s! "ba") (VArr (map VStr (or_else adds []))).
Proof.
  intros SH B H. destruct (rotate_shape _ _ _ _ _ _ _ _ _ _ _ _ _ _ _ _ _ _ _ SH H) as (vs & snr & snh & t & th & nu & xt & xu & toader & newits & kt & nt & bt & _ & _ & _ & _ & _ & _ & _ & _ & _ & _ & _ & NW & TO & _ & _ & BT & _ & K & _).
  assert (~ cut_too_far (or_else cuts []) (or_else wits [])) as NF. { intros F. apply (proj1 (cutting _ _ (or_else adds []))) in F. congruence. }
  destruct (proj2 (cutting _ _ (or_else adds [])) NF) as (l & gone & NW' & G & L). rewrite NW in NW'. injection NW' as <-.
  destruct (toader_facts _ _ _ TO B) as (m & NM & MB & M0 & M1 & MT & MA). exists m, gone, (len newits). split; [eapply toad_read; eauto; fld K|]. split; auto. split; auto. split; auto.
  assert (len newits = 0 <-> newits = []) as Z by (destruct newits; rewrite ?len_cons, ?len_nil; split; intros; try lia; try discriminate; auto).
  split; [intros E; apply M0; tauto|]. split; [intros E; apply M1; intros X; apply Z in X; lia|]. split; auto. split; [intros E1 E2; apply MA; auto; intros X; apply Z in X; lia|]. split; fld K.
Qed.

Lemma distinct_all l : NoDup l -> all_different l = true.
Proof.
  induction 1 as [|x l N ND IH]; [reflexivity|]. cbn. rewrite IH, andb_true_r. destruct (has_code l x) eqn:E; auto. apply has_code_In in E. contradiction.
Qed.

(*# C136_default_threshold_partial
   What holds: an inception built for witnesses without a witness threshold announces one, between 1 and their number, that is safe: any two groups of that many witnesses have
   an honest one in common as long as fewer than a third are faulty. Missing: that the honest witnesses always reach it.
##
Example C136_case : exists e, incept no_floats mix [s! "DAAAAAAAAAAAAAAAAAAAAAAAAAAAAAAAAAAAAAAAAAAA"] None None None None (Some [s! "a"; s! "b"; s! "c"; s! "d"; s! "e"]) None None None None None None None = Ok e /\ witness_threshold e 4 /\ safe 5 4 /\ live 5 4.
Proof.
  eexists. split; [vm_compute; reflexivity|]. split; [right; exists (s! "4"); split; [apply field_assoc; vm_compute; reflexivity|]|split; [reflexivity|vm_compute; discriminate]].
  split; [discriminate|]. exists [], (s! "4"). split; [reflexivity|]. split; [now left|]. split; [discriminate|]. split; [|reflexivity]. intros c [<-|[]]. vm_compute. auto 10.
Qed.
#*)
Lemma C136_l (canon : bytes -> option bytes) (hash : bytes -> bytes -> bytes) (keys : list bytes) (sith : option value) (ndigs : option (list bytes)) (nsith : option value) (wits : list bytes)
    (cnfg : option (list bytes)) (data : option (list value)) (ver : option version) (kind code : option bytes) (intive : option bool) (delpre : option bytes) (e : sadder) :
  sized_hash hash -> incept canon hash keys sith ndigs nsith None (Some wits) cnfg data ver kind code intive delpre = Ok e -> wits <> [] ->
  field_of (d_ked e) (s! "b") (VArr (map VStr wits)) /\ exists m, witness_threshold e m /\ 1 <= m /\ m <= len wits /\ safe (len wits) m.
Proof.
  intros SH H NE. destruct (incept_witnesses _ _ _ _ _ _ _ _ _ _ _ _ _ _ _ _ SH H) as (toader & bt & TO & BT & FB & FW). cbn [or_else] in *. split; auto.
  destruct (toader_facts _ _ _ TO) as (m & NM & MB & _ & M1 & _ & MA); [discriminate|]. exists m. split; [eapply toad_read; eauto|]. destruct (ample_facts _ _ (MA eq_refl NE)) as (_ & S & A & B & _). auto.
Qed.

(*# C136_default_threshold_refuted
   False as stated: the default for four witnesses is four, though one of four may be faulty.
#*)
Lemma C136_no_l : exists e, incept no_floats mix [s! "DAAAAAAAAAAAAAAAAAAAAAAAAAAAAAAAAAAAAAAAAAAA"] None None None None (Some [s! "a"; s! "b"; s! "c"; s! "d"]) None None None None None None None = Ok e /\
  field_of (d_ked e) (s! "bt") (VStr (s! "4")) /\ ~ live 4 4 /\ safe 4 3 /\ live 4 3.
Proof. eexists. split; [vm_compute; reflexivity|]. split; [apply field_assoc; vm_compute; reflexivity|]. split; [intros L; vm_compute in L; congruence|]. split; [reflexivity|vm_compute; discriminate]. Qed.

(*# C136_default_threshold_exactly
   Exactly when the honest witnesses reach the default threshold: if their number is one, or does not leave the remainder one when divided by three. So for inceptions, and for
   rotations with the number of witnesses that remain after cutting and adding.
##
Example C136_exactly_case : 5 mod 3 <> 1 /\ 4 mod 3 = 1 /\ exists e, incept no_floats mix [s! "DAAAAAAAAAAAAAAAAAAAAAAAAAAAAAAAAAAAAAAAAAAA"] None None None None (Some [s! "a"; s! "b"; s! "c"; s! "d"; s! "e"]) None None None None None None None = Ok e.
Proof. split; [discriminate|]. split; [reflexivity|]. eexists. vm_compute. reflexivity. Qed.
#*)
Lemma C136_exactly_l (canon : bytes -> option bytes) (hash : bytes -> bytes -> bytes) :
  sized_hash hash ->
  (forall keys sith ndigs nsith wits cnfg data ver kind code intive delpre e,
    incept canon hash keys sith ndigs nsith None (Some wits) cnfg data ver kind code intive delpre = Ok e -> wits <> [] ->
    exists m, witness_threshold e m /\ (live (len wits) m <-> len wits mod 3 <> 1 \/ len wits = 1)) /\
  (forall pre keys dig ilk sn sith ndigs nsith wits cuts adds data ver kind intive e,
    rotate canon hash pre keys dig ilk sn sith ndigs nsith None (Some wits) (Some cuts) (Some adds) data ver kind intive = Ok e ->
    exists gone n m, cut_out cuts wits gone /\ n + len gone = len wits + len adds /\ witness_threshold e m /\ (n = 0 -> m = 0) /\
      (1 <= n -> 1 <= m /\ m <= n /\ safe n m /\ (live n m <-> n mod 3 <> 1 \/ n = 1))).
Proof.
  intros SH. split.
  - intros keys sith ndigs nsith wits cnfg data ver kind code intive delpre e H NE. destruct (incept_witnesses _ _ _ _ _ _ _ _ _ _ _ _ _ _ _ _ SH H) as (toader & bt & TO & BT & FB & FW). cbn [or_else] in *.
    destruct (toader_facts _ _ _ TO) as (m & NM & MB & _ & M1 & _ & MA); [discriminate|]. exists m. split; [eapply toad_read; eauto|]. apply (ample_facts _ _ (MA eq_refl NE)).
  - intros pre keys dig ilk sn sith ndigs nsith wits cuts adds data ver kind intive e H. destruct (rotate_witnesses _ _ _ _ _ _ _ _ _ _ _ _ _ _ _ _ _ _ _ SH (fun t (E : None = Some t) => ltac:(discriminate E)) H) as (m & gone & n & W & G & L & _ & Z & P & _ & A & _). cbn [or_else] in *.
    exists gone, n, m. split; auto. split; auto. split; auto. split; auto. intros N1. destruct (ample_facts _ _ (A eq_refl N1)) as (_ & S & X & Y & LV). auto.
Qed.

(*# C137_cutting_witnesses_partial
   What holds: a rotation that was built lists the cuts and the additions it was given, and its witness threshold, the one given if one was given, is from 1 to the number of
   witnesses left after cutting those that are to be cut and adding the new ones, or zero if none is left. Missing: that every rotation with such a threshold is built, and
   that only present witnesses are cut.
##
Example C137_case : exists e, rotate no_floats mix pre0 [s! "DAAAAAAAAAAAAAAAAAAAAAAAAAAAAAAAAAAAAAAAAAAA"] pre0 None 1 None (Some [s! "x"]) None (Some 2) (Some [s! "a"; s! "b"; s! "c"]) (Some [s! "b"]) (Some [s! "d"]) None None None None = Ok e /\
  cut_out [s! "b"] [s! "a"; s! "b"; s! "c"] [s! "b"].
Proof.
  eexists. split; [vm_compute; reflexivity|]. apply those_no; [intros [X|[]]; discriminate X|]. apply those_yes; [now left|]. apply those_no; [intros [X|[]]; discriminate X|]. constructor.
Qed.
#*)
Lemma C137_l (canon : bytes -> option bytes) (hash : bytes -> bytes -> bytes) (pre : bytes) (keys : list bytes) (dig : bytes) (ilk : option bytes) (sn : N) (sith : option value) (ndigs : option (list bytes))
    (nsith : option value) (toad : option N) (wits cuts adds : list bytes) (data : option (list value)) (ver : option version) (kind : option bytes) (intive : option bool) (e : sadder) :
  sized_hash hash -> (forall t, toad = Some t -> t < 2 ^ 128) ->
  rotate canon hash pre keys dig ilk sn sith ndigs nsith toad (Some wits) (Some cuts) (Some adds) data ver kind intive = Ok e ->
  exists m gone n, witness_threshold e m /\ cut_out cuts wits gone /\ n + len gone = len wits + len adds /\ (n = 0 -> m = 0) /\ (1 <= n -> 1 <= m /\ m <= n) /\ (forall t, toad = Some t -> m = t) /\
    field_of (d_ked e) (s! "br") (VArr (map VStr cuts)) /\ field_of (d_ked e) (s! "ba") (VArr (map VStr adds)).
Proof.
  intros SH B H. destruct (rotate_witnesses _ _ _ _ _ _ _ _ _ _ _ _ _ _ _ _ _ _ _ SH B H) as (m & gone & n & W & G & L & _ & Z & P & T & _ & F). cbn [or_else] in *. exists m, gone, n. auto 10.
Qed.

(*# C137_cutting_witnesses_refuted
   False as stated: cutting the last two of three witnesses panics; and a rotation that cuts a witness the identifier does not have is built.
#*)
Lemma C137_no_l :
  rotate no_floats mix pre0 [s! "DAAAAAAAAAAAAAAAAAAAAAAAAAAAAAAAAAAAAAAAAAAA"] pre0 None 1 None (Some [s! "x"]) None (Some 1) (Some [s! "a"; s! "b"; s! "c"]) (Some [s! "b"; s! "c"]) None None None None None = Panic /\
  exists e, rotate no_floats mix pre0 [s! "DAAAAAAAAAAAAAAAAAAAAAAAAAAAAAAAAAAAAAAAAAAA"] pre0 None 1 None (Some [s! "x"]) None (Some 1) (Some [s! "a"; s! "b"; s! "c"]) (Some [s! "z"]) None None None None None = Ok e.
Proof. split; [vm_compute; reflexivity|]. eexists. vm_compute. reflexivity. Qed.

(*# C137_cutting_witnesses_exactly
   Exactly which cuts the code cannot carry out: those with a witness that has fewer witnesses behind it than are cut besides it. No such rotation is ever built; and where the
   rotation is built with no cuts (and no witness threshold), it panics with such cuts, if they are distinct and none is to be added as well.
##
Example C137_exactly_case : cut_too_far [s! "b"; s! "c"] [s! "a"; s! "b"; s! "c"] /\
  exists e, rotate no_floats mix pre0 [s! "DAAAAAAAAAAAAAAAAAAAAAAAAAAAAAAAAAAAAAAAAAAA"] pre0 None 1 None (Some [s! "x"]) None None (Some [s! "a"; s! "b"; s! "c"]) None (Some []) None None None None = Ok e.
Proof.
  split; [|eexists; vm_compute; reflexivity]. exists [s! "a"; s! "b"], (s! "c"), [], [s! "b"; s! "c"]. split; [reflexivity|]. split; [right; now left|]. split; [|reflexivity].
  apply those_no; [intros [X|[X|[]]]; discriminate X|]. apply those_yes; [now left|]. apply those_yes; [right; now left|]. constructor.
Qed.
#*)
Lemma C137_exactly_l (canon : bytes -> option bytes) (hash : bytes -> bytes -> bytes) (pre : bytes) (keys : list bytes) (dig : bytes) (ilk : option bytes) (sn : N) (sith : option value) (ndigs : option (list bytes))
    (nsith : option value) (toad : option N) (wits cuts adds : list bytes) (data : option (list value)) (ver : option version) (kind : option bytes) (intive : option bool) :
  cut_too_far cuts wits ->
  is_ok (rotate canon hash pre keys dig ilk sn sith ndigs nsith toad (Some wits) (Some cuts) (Some adds) data ver kind intive) = false /\
  (NoDup cuts -> (forall w, In w cuts -> ~ In w adds) ->
   is_ok (rotate canon hash pre keys dig ilk sn sith ndigs nsith None (Some wits) None (Some adds) data ver kind intive) = true ->
   rotate canon hash pre keys dig ilk sn sith ndigs nsith toad (Some wits) (Some cuts) (Some adds) data ver kind intive = Panic).
Proof.
  intros F. pose proof (proj1 (cutting cuts wits adds) F) as NW. split.
  - destruct (rotate _ _ _ _ _ _ _ _ _ _ _ _ _ _ _ _ _ _) as [e| |] eqn:H; auto. exfalso. unfold rotate in H. cbv zeta in H. cbn [or_else] in H. bok H vs V. destruct (negb _) in H; [discriminate|]. bok H snr SN. bok H n NN. destruct (n <? 1); [discriminate|].
    bok H th TH. bok H nu NU. destruct (_ <? 1) in H; [discriminate|]. destruct (_ <? _) in H; [discriminate|]. bok H xt XT. bok H xu XU. destruct (_ <? 1) in H; [discriminate|]. destruct (_ <? _) in H; [discriminate|].
    destruct (_ || _) in H; [discriminate|]. destruct (_ || _) in H; [discriminate|]. rewrite NW in H. discriminate.
  - intros ND DJ O. destruct (rotate _ _ _ _ _ _ _ _ _ _ None _ None _ _ _ _ _) as [e| |] eqn:H; [|discriminate|discriminate]. clear O. unfold rotate in *. cbv zeta in *. cbn [or_else] in *.
    bok H vs V. rewrite ?V, ?bind_Ok. destruct (negb (has_code _ _)) in *; [discriminate|]. bok H snr SN. rewrite SN, bind_Ok. bok H n NN. rewrite NN, bind_Ok. destruct (n <? 1) in *; [discriminate|].
    bok H th TH. rewrite TH, bind_Ok. bok H nu NU. rewrite NU, bind_Ok. destruct (or_else nu 1 <? 1) in *; [discriminate|]. destruct (len keys <? t_size th) in *; [discriminate|].
    bok H xt XT. rewrite XT, bind_Ok. bok H xu XU. rewrite XU, bind_Ok. destruct (or_else xu 1 <? 1) in *; [discriminate|]. destruct (_ <? t_size xt) in *; [discriminate|].
    replace (all_different cuts) with true by (symmetry; now apply distinct_all). change (negb (all_different [])) with false in H. cbn [negb]. destruct (negb (all_different wits) || false || negb (all_different adds)) in *; [discriminate|].
    cbn [existsb orb] in H. destruct (existsb (has_code adds) wits) in *; [discriminate|].
    replace (existsb (has_code adds) cuts) with false. 2: { symmetry. apply not_true_is_false. intros X. apply existsb_exists in X as (w & A & B). apply has_code_In in B. now apply (DJ w). }
    cbn [orb]. rewrite NW. reflexivity.
Qed.
