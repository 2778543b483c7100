(** Facts about the events a controller builds, used by the theorems on their acceptance. *)
From Coq Require Import String.
From Coq Require Import NArith ZArith QArith Bool List Lia.
From Verif Require Import Base Tables Matter Indexer Prims Json Tholder Common Saider Diger Sadder Signer Prefixer Pather Short Verify Events.
From Verif Require Import Spec SpecPrims SpecJson SpecCommon SpecTholder SpecSaider SpecSadder SpecPrefixer SpecSigner SpecFlow SpecLog.
From Verif Require Import BaseFacts MatterFacts MatterText PrimsFacts JsonFacts CommonFacts SadderFacts SaiderFacts SadderThms SaiderThms FieldThms PrefixerThms SignerThms FlowThms ShortThms TholderFacts TholderThms VerifyFacts VerifyThms LogThms.
Import ListNotations.
Open Scope N_scope.

(** ** Building from data *)
Lemma resized canon vs m e : serder_with_ked canon (VObj ((s! "v", VStr vs) :: m)) None None = Ok e ->
  exists proto n t, let n' := as_u32 (len (to_json (VObj ((s! "v", VStr vs) :: m)))) in
    version_string vs proto 1 0 n /\ d_ked e = VObj ((s! "v", VStr (vtext proto n')) :: m) /\ n' < 2 ^ 24 /\
    field_of (d_ked e) (s! "d") (VStr t) /\ said_of_qb64 t = Ok (d_saider e) /\ m_code (d_saider e) = s! "E".
Proof.
  unfold serder_with_ked, serder_new. rewrite new_ked. intros H. apply bind_ok in H as (e' & P & H).
  assert (e' = e) as -> by (destruct (negb _) in H; [discriminate H|injection H as H; exact H]). clear H.
  destruct (ked_ok _ _ _ _ P) as (z & t & sa & Z & F & SA & CO & E). destruct (sizeify_ked _ _ _ Z) as (vs0 & proto & n & A & V & L & K & _).
  cbn in A. injection A as <-. exists proto, n, t. cbv zeta. rewrite E. cbn [d_ked d_saider]. rewrite K in F |- *. auto 8.
Qed.
Lemma made_said canon hash vs m r e : sized_hash hash -> saidify hash (VObj ((s! "v", VStr vs) :: m)) None None None [] = Ok r -> serder_with_ked canon (snd r) None None = Ok e ->
  exists vs' o, d_ked e = snd r /\ snd r = VObj ((s! "v", VStr vs') :: o) /\ d_saider e = fst r /\ (forall k, k <> s! "d" -> k <> s! "v" -> get k ((s! "v", VStr vs') :: o) = get k m) /\
    said_verify hash (d_saider e) (d_ked e) (Some false) (Some true) None None [] = Ok true /\ map fst o = map fst m.
Proof.
  destruct r as (d & out). intros SH S H. destruct (C101_output_l hash _ None None None [] d out SH S) as (o & t & -> & KO & CD & ID & GD & _ & GO & GV). cbn [fst snd] in *.
  destruct (keys_order _ _ _ KO) as (x & o' & -> & KO'). destruct (GV (VStr vs)) as (vs0 & proto & n0 & vs' & E & V0 & GV' & V'); [reflexivity|]. injection E as <-. injection GV' as ->.
  destruct (resized _ _ _ _ H) as (proto' & n & t' & V & K & L & F & SD & C).
  assert (proto' = proto) as -> by exact (version_proto _ _ _ _ _ V V').
  assert (In proto idents) as IP by (apply idents_or; apply V).
  assert (vtext proto (as_u32 (len (to_json (VObj ((s! "v", VStr vs') :: o'))))) = vs') as EV. { eapply version_unique; [apply vtext_string; auto|exact V']. }
  rewrite EV in K.
  assert (exfil t = Ok d) as XT.
  { change (saidify hash (VObj ((s! "v", VStr vs) :: m)) (Some (s! "E")) None (Some (s! "d")) [] = Ok (d, VObj ((s! "v", VStr vs') :: o'))) in S.
    destruct (saidify_ok _ _ _ _ _ _ _ _ S) as (m' & md & k' & ser & q & _ & _ & HC & _ & _ & _ & M & _ & Q & _). rewrite ID in Q. injection Q as <-.
    destruct (FieldThms.said_text _ _ _ _ _ SH HC M ID) as (_ & _ & X). exact X. }
  assert (t' = t) as ->. { rewrite K in F. apply field_assoc in F. rewrite <- get_assoc in F. cbn [or_else fst] in GD. rewrite GD in F. now injection F. }
  apply SadderFacts.said_text in SD as (SD & _). assert (d_saider e = d) as ED by congruence.
  exists vs', o'. split; auto. split; auto. split; auto. split.
  { intros k N1 N2. rewrite GO by auto. unfold get. cbn [find fst]. destruct (beq (s! "v") k) eqn:B; [apply beq_eq in B; congruence|reflexivity]. }
  split; auto. rewrite ED, K. exact (C58a_l hash _ _ None None None [] _ _ _ S).
Qed.

Lemma get_cons k x m k0 : get k0 ((k, x) :: m) = if beq k k0 then Some x else get k0 m.
Proof. unfold get. cbn [find fst]. destruct (beq k k0); reflexivity. Qed.
Lemma same_fields k0 x m : forall o, NoDup (map fst m) -> In k0 (map fst m) -> map fst o = map fst m -> get k0 o = Some x -> (forall k, k <> k0 -> get k o = get k m) -> o = insert k0 x m.
Proof.
  assert (forall m o : list (bytes * value), map fst o = map fst m -> NoDup (map fst m) -> (forall k, In k (map fst m) -> get k o = get k m) -> o = m) as SM.
  { clear. induction m as [|(k, v) m IH]; intros [|(k', v') o] E ND G; try discriminate; auto. cbn in E. injection E as -> E. inversion ND as [|? ? N0 N1]; subst.
    pose proof (G k (or_introl eq_refl)) as G0. rewrite !get_cons, beq_refl in G0. injection G0 as ->. f_equal. apply IH; auto. intros k1 I. specialize (G k1 (or_intror I)).
    rewrite !get_cons in G. destruct (beq k k1) eqn:B; [|exact G]. apply beq_eq in B. subst. contradiction. }
  induction m as [|(k, v) m IH]; intros o ND I E G O; [destruct I|]. destruct o as [|(k', v') o]; [discriminate|]. cbn in E. injection E as -> E. inversion ND as [|? ? N0 N1]; subst. cbn [insert].
  destruct (beq k k0) eqn:B.
  - apply beq_eq in B. subst k0. rewrite get_cons, beq_refl in G. injection G as ->. f_equal. apply SM; auto. intros k1 I1. assert (k1 <> k) as NE by congruence. specialize (O k1 NE).
    rewrite !get_cons in O. destruct (beq k k1) eqn:B1; [apply beq_eq in B1; congruence|exact O].
  - pose proof B as NB. apply not_true_iff_false in NB. assert (k <> k0) as NE by (intros ->; apply NB, beq_refl). pose proof (O k NE) as O0. rewrite !get_cons, beq_refl in O0. injection O0 as ->. f_equal.
    apply IH; auto.
    + destruct I as [I|I]; [cbn in I; congruence|exact I].
    + rewrite get_cons, B in G. exact G.
    + intros k1 N2. specialize (O k1 N2). rewrite !get_cons in O. destruct (beq k k1) eqn:B1; [|exact O]. apply beq_eq in B1. subst k1.
      assert (get k o = None /\ get k m = None) as (-> & ->); [|reflexivity]. split; rewrite get_assoc; apply assoc_none; [rewrite E|]; exact N0.
Qed.
Lemma made canon hash vs m r e : sized_hash hash -> NoDup (map fst ((s! "v", VStr vs) :: m)) -> In (s! "d") (map fst m) ->
  saidify hash (VObj ((s! "v", VStr vs) :: m)) None None None [] = Ok r -> serder_with_ked canon (snd r) None None = Ok e ->
  exists vs' t, d_ked e = VObj ((s! "v", VStr vs') :: insert (s! "d") (VStr t) m) /\ sad_said e = Ok t /\ exfil t = Ok (d_saider e) /\ m_code (d_saider e) = s! "E" /\
    said_verify hash (d_saider e) (d_ked e) (Some false) (Some true) None None [] = Ok true.
Proof.
  intros SH ND I S H. pose proof H as H'. destruct (made_said _ _ _ _ _ _ SH S H) as (vs' & o & K & KR & SD & G & V & KO). rewrite KR in H'.
  destruct (resized _ _ _ _ H') as (proto & n & t & _ & K' & _ & F & SQ & C). exists vs', t.
  destruct r as (d & out). cbn [fst snd] in *. rewrite KR in S, K. destruct (C101_output_l hash _ None None None [] d _ SH S) as (o' & t' & E & _ & CD & ID & GD & _ & _ & _). injection E as <-.
  assert (t = t') as ->. { rewrite K in F. apply field_assoc in F. rewrite <- get_assoc in F. cbn [or_else fst] in GD. rewrite GD in F. now injection F. }
  assert (o = insert (s! "d") (VStr t') m) as EO.
  { inversion ND as [|? ? N0 N1]; subst. apply same_fields; auto.
    intros k NK. destruct (bytes_eq_dec k (s! "v")) as [->|NV].
    { assert (get (s! "v") o = None /\ get (s! "v") m = None) as (-> & ->); [|reflexivity]. split; rewrite get_assoc; apply assoc_none; [rewrite KO|]; exact N0. }
    rewrite <- (G k NK NV), get_cons. destruct (beq (s! "v") k) eqn:B; [apply beq_eq in B; congruence|reflexivity]. }
  rewrite K, EO in *. apply SadderFacts.said_text in SQ as (X & _). repeat split; auto.
  - unfold sad_said. rewrite SD. exact ID.
Qed.

(** ** What the builders write *)
Lemma different l : all_different l = true -> NoDup l.
Proof.
  induction l as [|x l IH]; intros H; constructor; cbn in H; apply andb_prop in H as (A & B); auto. intros I. apply has_code_In in I. rewrite I in A. discriminate A.
Qed.
Ltac bok H x E := apply bind_ok in H as (x & E & H).
Lemma interact_shape canon hash pre dig sn data ver kind e : sized_hash hash -> interact canon hash pre dig sn data ver kind = Ok e ->
  exists vs snr snh t, number_with_num (or_else sn 1) = Ok snr /\ number_numh snr = Ok snh /\ (exists n, number_num snr = Ok n /\ 1 <= n) /\
    d_ked e = VObj [(s! "v", VStr vs); (s! "t", VStr (s! "ixn")); (s! "d", VStr t); (s! "i", VStr pre); (s! "s", VStr snh); (s! "p", VStr dig); (s! "a", or_else data (VArr []))] /\
    sad_said e = Ok t /\ exfil t = Ok (d_saider e) /\ m_code (d_saider e) = s! "E" /\ said_verify hash (d_saider e) (d_ked e) (Some false) (Some true) None None [] = Ok true.
Proof.
  intros SH H. unfold interact in H. cbv zeta in H. bok H vs V. bok H snr SN. bok H n NN. destruct (N.ltb_spec n 1); [discriminate|]. bok H snh SH'. bok H r SS.
  destruct (fun nd i => made canon hash _ _ _ _ SH nd i SS H) as (vs' & t & K & P). { apply different. vm_compute. reflexivity. } { vm_compute. auto. }
  exists vs', snr, snh, t. cbn [insert] in K. split; auto. split; auto. split; [eauto|]. split; [exact K|exact P].
Qed.
Lemma rotate_shape canon hash pre keys dig ilk sn sith ndigs nsith toad wits cuts adds data ver kind intive e : sized_hash hash ->
  rotate canon hash pre keys dig ilk sn sith ndigs nsith toad wits cuts adds data ver kind intive = Ok e ->
  let nd := or_else ndigs [] in let iv := or_else intive false in let ilk := or_else ilk (s! "rot") in
  exists vs snr snh t th nu xt xu toader newits kt nt bt, number_with_num sn = Ok snr /\ number_numh snr = Ok snh /\ (exists n, number_num snr = Ok n /\ 1 <= n) /\
    tholder_with_sith canon (or_else sith (half 1 keys)) = Ok th /\ tholder_num th = Ok nu /\ 1 <= or_else nu 1 /\ t_size th <= len keys /\
    tholder_with_sith canon (or_else nsith (half 0 nd)) = Ok xt /\ tholder_num xt = Ok xu /\ 1 <= or_else xu 1 /\ t_size xt <= len nd /\
    new_witnesses (or_else wits []) (or_else cuts []) (or_else adds []) = Ok newits /\ toader_of toad newits = Ok toader /\
    threshold_value iv th = Ok kt /\ threshold_value iv xt = Ok nt /\ toad_value iv toader = Ok bt /\ In ilk [s! "rot"; s! "drt"] /\
    d_ked e = VObj [(s! "v", VStr vs); (s! "t", VStr ilk); (s! "d", VStr t); (s! "i", VStr pre); (s! "s", VStr snh); (s! "p", VStr dig); (s! "kt", kt);
              (s! "k", texts_value keys); (s! "nt", nt); (s! "n", texts_value nd); (s! "bt", bt); (s! "br", texts_value (or_else cuts [])); (s! "ba", texts_value (or_else adds []));
              (s! "a", VArr (or_else data []))] /\
    sad_said e = Ok t /\ exfil t = Ok (d_saider e) /\ m_code (d_saider e) = s! "E" /\ said_verify hash (d_saider e) (d_ked e) (Some false) (Some true) None None [] = Ok true.
Proof.
  intros SH H. unfold rotate in H. cbv zeta in H. bok H vs V. destruct (has_code _ (or_else ilk _)) eqn:IL; [|discriminate]. cbn [negb] in H. bok H snr SN. bok H n NN. destruct (N.ltb_spec n 1); [discriminate|].
  bok H th TH. bok H nu NU. destruct (N.ltb_spec (or_else nu 1) 1); [discriminate|]. destruct (N.ltb_spec (len keys) (t_size th)); [discriminate|].
  bok H xt NTH. bok H xu NNU. destruct (N.ltb_spec (or_else xu 1) 1); [discriminate|]. destruct (N.ltb_spec (len (or_else ndigs [])) (t_size xt)); [discriminate|].
  destruct (_ || _) in H; [discriminate|]. destruct (_ || _) in H; [discriminate|]. bok H newits NW. bok H toader TO. bok H kt KT. bok H nt NT. bok H bt BT. bok H snh SNH. bok H r SS.
  destruct (fun nd i => made canon hash _ _ _ _ SH nd i SS H) as (vs' & t & K & P). { apply different. vm_compute. reflexivity. } { vm_compute. auto. }
  exists vs', snr, snh, t, th, nu, xt, xu, toader, newits, kt, nt, bt. cbn [insert] in K. apply has_code_In in IL. repeat (split; [eauto; fail|]). exact P.
Qed.
Lemma incept_shape canon hash keys sith ndigs nsith toad wits cnfg data ver kind intive e : sized_hash hash ->
  incept canon hash keys sith ndigs nsith toad wits cnfg data ver kind (Some (s! "E")) intive None = Ok e ->
  let nd := or_else ndigs [] in let iv := or_else intive false in
  exists vs t p th nu xt toader kt nt bt,
    tholder_with_sith canon (or_else sith (half 1 keys)) = Ok th /\ tholder_num th = Ok nu /\ 1 <= or_else nu 1 /\ t_size th <= len keys /\
    tholder_with_sith canon (or_else nsith (half 0 nd)) = Ok xt /\ t_size xt <= len nd /\
    toader_of toad (or_else wits []) = Ok toader /\ threshold_value iv th = Ok kt /\ threshold_value iv xt = Ok nt /\ toad_value iv toader = Ok bt /\
    d_ked e = VObj [(s! "v", VStr vs); (s! "t", VStr (s! "icp")); (s! "d", VStr t); (s! "i", VStr t); (s! "s", VStr (s! "0")); (s! "kt", kt); (s! "k", texts_value keys);
          (s! "nt", nt); (s! "n", texts_value nd); (s! "bt", bt); (s! "b", texts_value (or_else wits [])); (s! "c", texts_value (or_else cnfg [])); (s! "a", VArr (or_else data []))] /\
    infil p = Ok t /\ exfil t = Ok p /\ d_saider e = p /\ sad_said e = Ok t /\ m_code p = s! "E" /\ prefixer_verify hash p (d_ked e) (Some true) = Ok true.
Proof.
  intros SH H. unfold incept in H. cbv zeta in H. bok H vs V. bok H snr SN. bok H th TH. bok H nu NU. destruct (N.ltb_spec (or_else nu 1) 1); [discriminate|].
  destruct (N.ltb_spec (len keys) (t_size th)); [discriminate|]. bok H xt XT. destruct (N.ltb_spec (len (or_else ndigs [])) (t_size xt)); [discriminate|].
  destruct (negb (all_different _)) in H; [discriminate|]. bok H toader TO. bok H kt KT. bok H nt NT. bok H bt BT. bok H snh SNH. rewrite bind_Ok in H.
  assert (snh = s! "0") as ->. { clear - SN SNH. vm_compute in SN. injection SN as <-. vm_compute in SNH. injection SNH as <-. reflexivity. }
  bok H p P. apply bind_ok in P as (p' & PK & P). cbn [is_none negb andb] in P. injection P as ->. unfold prefixer_with_ked in PK. bok H t T. bok H ked1 K1. injection K1 as <-. 
  assert (m_code p = s! "E") as CP. { destruct (C62_asked_l _ _ _ _ _ PK) as (A & _). now apply A. }
  assert (digestive p = true) as DG by (unfold digestive; rewrite CP; vm_compute; reflexivity). rewrite DG in H. bok H ked2 K2. injection K2 as <-.
  destruct (resized _ _ _ _ H) as (proto & n & t' & VS & K & L & F & SD & C).
  assert (wf_matter p) as W by exact (prefix_wf _ _ _ _ _ PK). destruct (wf_round _ W) as (t0 & b0 & T0 & _ & X0 & _). assert (t0 = t) as -> by congruence.
  assert (In proto idents) as IP by (apply idents_or; apply VS).
  destruct (C62b_l hash) with (4 := PK) (2 := VS) (3 := vtext_string _ _ IP L) (said := VStr t) (prefixed := Some true) as (pre & I1 & PV).
  { apply different. vm_compute. reflexivity. } { rewrite CP. vm_compute. auto 20. }
  assert (pre = t) as -> by congruence. cbn [insert] in K.
  assert (t' = t) as ->. { rewrite K in F. apply field_assoc in F. vm_compute in F. congruence. }
  apply SadderFacts.said_text in SD as (SD & _). assert (d_saider e = p) as ED by congruence.
  eexists _, t, p, th, nu, xt, toader, kt, nt, bt. repeat (split; [eassumption|]). split; [unfold sad_said; rewrite ED; exact T|]. split; auto.
  rewrite K. exact PV.
Qed.

(** ** Key sets *)
Fixpoint upto (i : N) (n : nat) : list N := match n with O => [] | S n => i :: upto (i + 1) n end.
Lemma upto_in n : forall i x, In x (upto i n) <-> i <= x < i + N.of_nat n.
Proof. induction n as [|n IH]; intros i x; cbn [upto In]; [lia|]. rewrite IH. lia. Qed.
Lemma upto_len n : forall i, len (upto i n) = N.of_nat n.
Proof. induction n as [|n IH]; intros i; cbn [upto]; [reflexivity|]. rewrite len_cons, IH. lia. Qed.
Lemma signers_made cr tr keys gs : signers_of cr tr keys = Ok gs -> Forall (a_signer cr) gs /\ length gs = length keys.
Proof.
  revert gs. induction keys as [|k r IH]; intros gs H; cbn [signers_of] in H. { injection H as <-. auto. }
  bok H g G. bok H l L. injection H as <-. apply IH in L as (A & B). cbn [length]. split; [constructor; auto|congruence]. red. unfold signer_with_qb64 in G. eauto 8.
Qed.
Lemma prints_each l ts : prints l = Ok ts <-> Forall2 (fun m t => infil m = Ok t) l ts.
Proof.
  revert ts. induction l as [|m l IH]; intros ts; cbn [prints].
  - split; [intros [= <-]; constructor|intros H; inversion H; reflexivity].
  - split. { intros H. bok H t T. bok H r RR. injection H as <-. constructor; auto. now apply IH. }
    intros H. inversion H as [|? t ? ts' T TS]; subst. rewrite T, bind_Ok. apply IH in TS. rewrite TS. reflexivity.
Qed.
Lemma all_signed cr hash rng ser gs : correct cr -> Forall (a_signer cr) gs -> forall before sigs n, sign_each hash cr rng ser None gs (len before) = Ok (sigs, n) ->
  check_sigs cr (before ++ map g_verfer gs) ser (map fst sigs) = Ok (map (fun i => (i, i)) (upto (len before) (length gs))) /\ (gs <> [] -> len before + len gs <= 4096).
Proof.
  intros CR AS. induction AS as [|g gs SG AS IH]; intros before sigs n H; cbn [sign_each] in H.
  - injection H as <- <-. split; [reflexivity|congruence].
  - rewrite bind_Ok in H. bok H x X. bok H nx NX. bok H r RR. injection H as <- <-. destruct x as (x, v). destruct r as (more, n'). cbn [fst snd] in *.
    destruct (answer _ _ _ _ _ _ _ _ _ CR SG X) as (IX & VX & _). destruct SG as (a & b & c & d & e & f & SG). destruct (indexed_full _ _ _ _ _ _ _ _ (rng (len before)) ser false (len before) None CR SG) as (_ & B & F).
    destruct (F _ _ X) as (_ & _ & _ & _ & _ & _ & _ & OX & _). assert (len before < 4096) as LB by exact (proj1 (proj1 B (ex_intro _ _ X))).
    assert (nx = len (before ++ [g_verfer g])) as ->. { unfold u32_add in NX. destruct (_ <=? _); [|discriminate]. injection NX as <-. rewrite len_app. reflexivity. }
    apply IH in RR as (RR & LR). rewrite <- app_assoc in RR. cbn [app map fst check_sigs]. rewrite IX.
    replace (len (before ++ g_verfer g :: map g_verfer gs) <? len before) with false by (rewrite len_app; symmetry; apply N.ltb_ge; lia).
    replace (nth_error (before ++ g_verfer g :: map g_verfer gs) (N.to_nat (len before))) with (Some (g_verfer g)). 2:{ unfold len. rewrite Nnat.Nat2N.id, nth_error_app2 by lia. rewrite PeanoNat.Nat.sub_diag. reflexivity. }
    rewrite VX, bind_Ok. cbn [app] in RR. rewrite RR, bind_Ok. cbn [upto length map]. rewrite OX, len_app. split; [reflexivity|].
    intros _. destruct gs as [|g' gs']; [rewrite len_cons, len_nil; lia|]. assert (g' :: gs' <> []) as NG by discriminate. apply LR in NG. rewrite len_app, !len_cons, len_nil in *. lia.
Qed.
Lemma nth_pair {A B} (P : A -> B -> Prop) l m : Forall2 P l m -> forall i a, nth_error l i = Some a -> exists b, nth_error m i = Some b /\ P a b.
Proof. induction 1 as [|a b l m H HH IH]; intros [|i] x E; try discriminate; cbn in *; [injection E as <-; eauto|eauto]. Qed.
Lemma length_pair {A B} (P : A -> B -> Prop) l m : Forall2 P l m -> length l = length m.
Proof. induction 1; cbn; congruence. Qed.
Lemma keyset_signs cr hash rng k ser keys sigs : correct cr -> k_offset k = 0 -> ks_verfers_qb64 cr k = Ok keys -> ks_sign hash cr rng k ser None = Ok sigs ->
  exists vs, Forall2 (fun v t => infil v = Ok t) vs keys /\ texts_of [s! "B"; s! "D"; s! "1AAA"; s! "1AAB"; s! "1AAI"; s! "1AAJ"] (map VStr keys) vs /\ len keys <= 4096 /\
    check_groups cr vs ser [GSigs (map fst sigs)] = Ok (map (fun i => (i, i)) (upto 0 (length keys))).
Proof.
  intros CR O V SG. unfold ks_verfers_qb64, ks_verfers in V. bok V vs G. bok G gs GS. injection G as <-. apply prints_each in V. unfold ks_sign in SG. rewrite GS, bind_Ok in SG. bok SG r RR. injection SG as <-.
  destruct (signers_made _ _ _ _ GS) as (AS & _). rewrite O in RR. change (as_u32 0) with (len (@nil matter)) in RR. destruct r as (sg, n). destruct (all_signed _ _ _ _ _ CR AS _ _ _ RR) as (A & B).
  assert (length (map g_verfer gs) = length keys) as LK by (eapply length_pair; eauto). exists (map g_verfer gs). split; auto. split; [|split].
  - clear - V AS CR. revert keys V. induction AS as [|g gs G AS IH]; intros keys V; cbn [map] in V; inversion V as [|? t ? ts T TS]; subst; cbn [map]; constructor; [|apply IH; auto].
    exists t. split; auto. eapply signer_text; eauto.
  - destruct gs as [|g gs]; [destruct keys; [vm_compute; discriminate|discriminate]|]. assert (g :: gs <> []) as NG by discriminate. apply B in NG. rewrite len_nil in NG. rewrite map_length in LK. unfold len in *. rewrite <- LK. lia.
  - cbn [app] in A. cbn [check_groups fst]. rewrite A, !bind_Ok, app_nil_r, <- LK, map_length. reflexivity.
Qed.
Lemma keyset_digests cr hash k keys nd : sized_hash hash -> ks_verfers_qb64 cr k = Ok keys -> ks_digers_qb64 hash cr k = Ok nd ->
  texts_of (map fst digest_sizes) (map VStr nd) (map (fun t => Mt (s! "E") 0 (hash (s! "E") t)) keys).
Proof.
  intros SH V D. unfold ks_verfers_qb64 in V. bok V vs G. unfold ks_digers_qb64, ks_digers in D. rewrite G, bind_Ok in D. bok D ds DS. apply prints_each in V. apply prints_each in D. clear G.
  revert ds DS nd D. induction V as [|v t vs ts T V IH]; intros ds DS nd D; cbn [digers_of] in DS.
  { injection DS as <-. inversion D. constructor. }
  bok DS t' T'. assert (t' = t) as -> by congruence. rewrite default_digest, bind_Ok in DS by auto. bok DS ds' DS'. injection DS as <-. inversion D as [|? q ? nd' Q ND]; subst. cbn [map]. constructor; [|exact (IH ds' DS' nd' ND)].
  exists q. split; auto. assert (has_code said_codes (s! "E") = true) as HS by reflexivity. destruct (said_built hash (s! "E") t SH HS) as (B' & _).
  destruct (FieldThms.said_text hash (s! "E") t _ q SH HS B' Q) as (_ & _ & X). split; [exact X|]. vm_compute. auto 20.
Qed.
Lemma revealed_all hash vs keys : sized_hash hash -> Forall2 (fun v t => infil v = Ok t) vs keys -> forall n, (n <= length keys)%nat ->
  forall i, i + N.of_nat n = len keys -> revealed hash vs (map (fun t => Mt (s! "E") 0 (hash (s! "E") t)) keys) (map (fun i => (i, i)) (upto i n)) = Ok (upto i n).
Proof.
  intros SH V. induction n as [|n IH]; intros LN i E; [reflexivity|]. cbn [upto map revealed]. rewrite len_map.
  replace (i <? len keys) with true by (symmetry; apply N.ltb_lt; lia).
  destruct (nth_error vs (N.to_nat i)) as [v|] eqn:NV. 2:{ apply nth_error_None in NV. rewrite (length_pair _ _ _ V) in NV. unfold len in E. lia. }
  destruct (nth_pair _ _ _ V _ _ NV) as (t & NT & T). rewrite nth_error_map, NT. cbn [option_map]. rewrite T, bind_Ok, default_digest, bind_Ok by auto.
  assert (has_code said_codes (s! "E") = true) as HS by reflexivity. destruct (said_built hash (s! "E") t SH HS) as (_ & W). destruct (wf_round _ W) as (q & _ & Q & _). rewrite Q, !bind_Ok, beq_refl.
  rewrite IH by lia. reflexivity.
Qed.

(** ** Thresholds *)
Lemma reread canon v t iv kt : tholder_with_sith canon v = Ok t -> SpecTholder.keys (t_thold t) < 2 ^ 27 -> threshold_value iv t = Ok kt -> tholder_with_sith canon kt = Ok t.
Proof.
  unfold tholder_with_sith. intros H K W. assert (t_thold t <> VArr []) as NE. 
  { intros E. pose proof H as A. apply accepted in A as [(k & [_ (n & _ & ->)])|(cs & T)]; [discriminate E|]. assert (cs = []) as ->. { rewrite (wt_thold _ _ T) in E. destruct cs; [reflexivity|discriminate E]. }
    destruct (C44_partial_l canon None (Some v) None t H) as (X & _); [|discriminate X]. rewrite (satisfy_in_range [] t [] T); [reflexivity|reflexivity|intros i []]. }
  destruct (C46_l canon None (Some v) None t H NE K) as (l & sx & j & _ & SX & _ & _ & R & _). unfold threshold_value in W. bok W n NN.
  assert (tholder_sith t = Ok kt -> tholder_new canon None None (Some kt) = Ok t) as OK. { intros E. rewrite SX in E. injection E as <-. exact R. }
  destruct n as [n|]; [|auto]. destruct (iv && _); [|auto]. injection W as <-. pose proof (num_numeric _ _ _ _ _ _ H NN) as [B (m & M & ->)].
  rewrite sith_new. unfold process_sith. cbn [to_i64]. unfold process_unweighted. replace (Z.of_N n <? 0)%Z with false by lia. replace (Z.of_N u32_max <? Z.of_N n)%Z with false by lia.
  rewrite N2Z.id, M. reflexivity.
Qed.
Lemma all_enough canon v t nu n : tholder_with_sith canon v = Ok t -> tholder_num t = Ok nu -> 1 <= or_else nu 1 -> t_size t <= N.of_nat n -> N.of_nat n < 2 ^ 27 ->
  (t_weighted t = true -> SpecTholder.keys (t_thold t) = N.of_nat n) -> satisfy t (upto 0 n) = Ok true.
Proof.
  unfold tholder_with_sith. intros H NU L S B W. pose proof H as A. apply accepted in A as [(k & T)|(cs & T)].
  - rewrite (satisfy_numeric_eq k t _ T), upto_len. destruct T as [KB (m & _ & ->)]. cbn [t_size] in S. unfold tholder_num in NU. cbn [t_weighted t_thold to_i64] in NU. rewrite bind_Ok in NU. destruct (_ || _); [discriminate|].
    injection NU as <-. cbn [or_else] in L. rewrite N2Z.id in L. f_equal. lia.
  - specialize (W (wt_weighted _ _ T)). apply (C45_l canon None (Some v) None); auto.
    + rewrite (wt_thold _ _ T). discriminate.
    + lia.
    + intros i. rewrite upto_in. rewrite (keys_thold _ _ T) in W. rewrite (size_keys cs t T); lia.
Qed.
(** Inceptions of another kind. *)
Lemma incept_other canon hash keys sith ndigs nsith toad wits cnfg data ver kind code intive delpre e : sized_hash hash ->
  incept canon hash keys sith ndigs nsith toad wits cnfg data ver kind code intive delpre = Ok e -> code = Some (s! "E") /\ delpre = None \/
  (exists q, text_at (d_ked e) (s! "t") = Ok q /\ q = s! "dip") \/
  (text_at (d_ked e) (s! "t") = Ok (s! "icp") /\ exists p pre t, serder_pre e = Ok pre /\ exfil pre = Ok p /\ digestive p = false /\ sad_said e = Ok t /\ exfil t = Ok (d_saider e) /\ m_code (d_saider e) = s! "E").
Proof.
  intros SH H. unfold incept in H. cbv zeta in H. bok H vs V. bok H snr SN. bok H th TH. bok H nu NU. destruct (N.ltb_spec (or_else nu 1) 1); [discriminate|].
  destruct (N.ltb_spec (len keys) (t_size th)); [discriminate|]. bok H xt XT. destruct (N.ltb_spec (len (or_else ndigs [])) (t_size xt)); [discriminate|].
  destruct (negb (all_different _)) in H; [discriminate|]. bok H toader TO. bok H kt KT. bok H nt NT. bok H bt BT. bok H snh SNH.
  destruct delpre as [dp|].
  - right. left. bok H ked0 K0. injection K0 as <-. bok H p P. apply bind_ok in P as (p' & PK & P). cbn [is_none negb andb] in P. destruct (digestive p') eqn:DG; [|discriminate]. cbn [negb] in P. injection P as ->. rewrite DG in H.
    bok H t T. bok H ked1 K1. injection K1 as <-. bok H ked2 K2. injection K2 as <-. destruct (resized _ _ _ _ H) as (proto & n & t' & VS & K & _). exists (s! "dip"). split; [|reflexivity]. unfold text_at. rewrite K. reflexivity.
  - rewrite bind_Ok in H. bok H p P. bok H t T. bok H ked1 K1. injection K1 as <-.
    assert (exfil t = Ok p) as XP.
    { assert (forall q, prefixer_with_qb64 hash q = Ok p -> exfil t = Ok p) as Q1.
      { intros q Q. change (exfil q = Ok p) in Q. destruct (exfil_infil _ _ _ Q T) as (W & _). destruct (wf_round _ W) as (t0 & b0 & T0 & _ & X0 & _). congruence. }
      assert (forall k c, prefixer_with_ked hash k None c = Ok p -> exfil t = Ok p) as Q2.
      { intros k c Q. destruct (wf_round _ (prefix_wf _ _ _ _ _ Q)) as (t0 & b0 & T0 & _ & X0 & _). congruence. }
      destruct code as [c|]; [|destruct keys as [|key [|? ?]]]; bok P p' PK; cbn [is_none negb andb] in P; try (injection P as ->; eauto; fail).
      destruct (digestive p'); [discriminate|]. injection P as ->. eauto. }
    destruct (digestive p) eqn:DG.
    + left. split; [|reflexivity]. bok H ked2 K2. injection K2 as <-. destruct (resized _ _ _ _ H) as (proto & n & t' & VS & K & _ & F & SD & C).
      assert (t' = t) as ->. { rewrite K in F. apply field_assoc in F. vm_compute in F. congruence. }
      apply SadderFacts.said_text in SD as (SD & _). assert (m_code p = s! "E") as CP by congruence.
      destruct code as [c|].
      * bok P p' PK. cbn [is_none negb andb] in P. injection P as ->. unfold prefixer_with_ked in PK; destruct (C62_asked_l _ _ _ _ _ PK) as (A & _). now rewrite <- (A c eq_refl), CP.
      * exfalso. destruct keys as [|key [|k2 kr]].
        -- bok P p' PK. cbn [is_none negb andb] in P. injection P as ->. unfold prefixer_with_ked in PK; destruct (C62_asked_l _ _ _ _ _ PK) as (_ & A & _). destruct (A eq_refl) as (q & m & Fi & Xq & _). apply field_assoc in Fi. vm_compute in Fi. injection Fi as <-. discriminate Xq.
        -- bok P p' PK. destruct (digestive p') eqn:D'; [discriminate|]. injection P as ->. congruence.
        -- bok P p' PK. cbn [is_none negb andb] in P. injection P as ->. unfold prefixer_with_ked in PK; destruct (C62_asked_l _ _ _ _ _ PK) as (_ & A & _). destruct (A eq_refl) as (q & m & Fi & Xq & _). apply field_assoc in Fi. vm_compute in Fi. injection Fi as <-. discriminate Xq.
    + right. right. bok H ked2 K2. bok K2 r SS. injection K2 as <-.
      destruct (fun nd i => made canon hash _ _ _ _ SH nd i SS H) as (vs' & t' & K & SD & X & C & _). { apply different. vm_compute. reflexivity. } { vm_compute. auto. }
      split; [unfold text_at; rewrite K; reflexivity|]. exists p, t, t'. split; [unfold serder_pre; rewrite K; reflexivity|]. auto.
Qed.
