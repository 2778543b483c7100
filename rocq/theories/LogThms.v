(** Proofs of the theorems on key-event logs. *)
From Coq Require Import String.
From Coq Require Import NArith ZArith QArith Bool List Lia.
From Verif Require Import Base Tables Matter Indexer Prims Json Tholder Common Saider Diger Sadder Signer Prefixer Pather Short Verify Ingest Events.
From Verif Require Import Spec SpecPrims SpecJson SpecCommon SpecTholder SpecSaider SpecSadder SpecPrefixer SpecSigner SpecLog World.
From Verif Require Import BaseFacts MatterFacts MatterText PrimsFacts JsonFacts JsonThms CommonFacts SaiderFacts SaiderThms SignerThms SadderFacts SadderThms PrefixerThms DigerThms TholderThms StaleThms VerifyFacts VerifyThms.
Import ListNotations.
Open Scope N_scope.

Lemma read_said canon raw e : serder_with_raw canon raw = Ok e -> exists t, field_of (d_ked e) (s! "d") (VStr t) /\ exfil t = Ok (d_saider e) /\ m_code (d_saider e) = s! "E".
Proof.
  intros H. destruct (C57_l serder_new canon None (Some raw) None None e) as (t & F & X & C & _); [cbn; auto|exact H|]. exists t. auto.
Qed.
Lemma read_data canon raw e : serder_with_raw canon raw = Ok e -> float_free (d_ked e) -> data (d_ked e).
Proof.
  intros H F. destruct (C87_l serder_new canon None None None raw [] None None None None e) as (_ & _ & T & _); [cbn; auto|exact H|]. now destruct (C81_l _ _ _ T F).
Qed.
Lemma prefix_read hash t p : prefixer_with_qb64 hash t = Ok p -> exfil t = Ok p.
Proof. unfold prefixer_with_qb64, prefixer_new. cbn [matter_new]. intros H. apply bind_ok in H as (u & _ & H). exact H. Qed.
Lemma said_is_prefix canon hash raw e pre p : serder_with_raw canon raw = Ok e -> sad_said e = Ok pre -> prefixer_with_qb64 hash pre = Ok p -> p = d_saider e /\ wf_matter p.
Proof.
  intros R S P. destruct (read_said _ _ _ R) as (t & _ & X & _). destruct (exfil_infil _ _ _ X S) as (W & _). destruct (wf_round _ W) as (t' & b & T & _ & X' & _).
  apply prefix_read in P. unfold sad_said in S. rewrite T in S. injection S as ->. rewrite X' in P. injection P as <-. auto.
Qed.
Lemma field_below k k' x y m : field_of (VObj ((k', y) :: m)) k x -> k <> k' -> In k (map fst m).
Proof.
  intros (m1 & m2 & E & _) N. destruct m1 as [|kv m1]; injection E as E1 E2; [congruence|]. rewrite E2, map_app. apply in_or_app. right. now left.
Qed.
Lemma inception_ok canon hash cr mo fuel st raw e g deep seen r : serder_with_raw canon raw = Ok e -> verify_key_event canon hash cr mo fuel st e g deep seen = Ok r -> of_type (d_ked e) (s! "icp") ->
  exists pre, field_of (d_ked e) (s! "i") (VStr pre) /\ sad_said e = Ok pre /\ ordinal (d_ked e) 0 /\ prefixer_verify hash (d_saider e) (d_ked e) (Some true) = Ok true.
Proof.
  intros R H TY. destruct r as (ex & seen'). apply accepted_inv in H as (f & pre & p & sn & ilk & said & keys & found & -> & A).
  destruct A as [Hpre Hp Hsn Hilk Hsaid Hplace _ _ _ _ _ _]. apply type_text in Hilk. rewrite (type_once _ _ _ Hilk TY) in Hplace. change (beq (s! "icp") (s! "icp")) with true in Hplace.
  destruct (place_ok _ _ _ _ _ _ _ _ _ Hplace Hpre) as (count & HC & [(_ & V & -> & -> & _)|(B & _)]); [|discriminate].
  exists pre. split; [now apply pre_field|]. split; auto. split; [now apply sn_field|]. destruct (said_is_prefix _ _ _ _ _ _ R Hsaid Hp) as (-> & _). exact V.
Qed.
Lemma other_ok canon hash cr mo fuel st e g deep seen r : verify_key_event canon hash cr mo fuel st e g deep seen = Ok r -> ~ of_type (d_ked e) (s! "icp") ->
  said_verify hash (d_saider e) (d_ked e) (Some false) (Some true) None (Some (s! "d")) [] = Ok true.
Proof.
  intros H TY. destruct r as (ex & seen'). apply accepted_inv in H as (f & pre & p & sn & ilk & said & keys & found & -> & A).
  destruct A as [Hpre Hp Hsn Hilk Hsaid Hplace _ _ _ _ _ _]. apply type_text in Hilk. assert (beq ilk (s! "icp") = false) as B. { destruct (beq ilk (s! "icp")) eqn:B; auto. apply beq_eq in B. subst. contradiction. }
  rewrite B in Hplace. destruct (place_ok _ _ _ _ _ _ _ _ _ Hplace Hpre) as (count & HC & [(? & _)|(_ & V & _)]); [discriminate|]. exact V.
Qed.

(*# C123_inception_certifies_itself
   The prefix of an accepted inception that was read from a message and begins with its version string is the event's identifier, and it is the Blake3 digest of the JSON of the event
   with prefix and identifier replaced by hash signs and the size in the version string put right.
##
Example C123_case : exists vs m, serder_with_raw no_floats (d_raw event0) = Ok event0 /\ of_type (d_ked event0) (s! "icp") /\ float_free (d_ked event0) /\
  d_ked event0 = VObj ((s! "v", VStr vs) :: m) /\ verify_key_event no_floats mix toy no_messages 1 (view no_floats empty) event0 [GSigs sigs0] None [] = Ok (false, []).
Proof. eexists. eexists. split; [vm_compute; reflexivity|]. split; [apply type_text; vm_compute; reflexivity|]. split; [vm_compute; repeat constructor|]. split; vm_compute; reflexivity. Qed.
#*)
Lemma C123_l (canon : bytes -> option bytes) (hash : bytes -> bytes -> bytes) (cr : crypto) (messages_of : bytes -> R (list message)) (fuel : nat) (st : store) (raw : bytes) (e : sadder)
    (g : list group) (deep : option bool) (seen : list bytes) (r : bool * list bytes) (vs : bytes) (m : list (bytes * value)) :
  sized_hash hash -> serder_with_raw canon raw = Ok e -> verify_key_event canon hash cr messages_of fuel st e g deep seen = Ok r -> of_type (d_ked e) (s! "icp") ->
  d_ked e = VObj ((s! "v", VStr vs) :: m) -> float_free (d_ked e) ->
  exists pre vs' proto n n', field_of (d_ked e) (s! "i") (VStr pre) /\ sad_said e = Ok pre /\ version_string vs proto 1 0 n /\ version_string vs' proto 1 0 n' /\
    d_saider e = Mt (s! "E") 0 (hash (s! "E") (to_json (VObj ((s! "v", VStr vs') :: replaced (s! "d") (dummies 44) (replaced (s! "i") (dummies 44) m))))).
Proof.
  intros SH R H TY E F. destruct (inception_ok _ _ _ _ _ _ _ _ _ _ _ _ R H TY) as (pre & FI & FS & _ & V). pose proof (read_data _ _ _ R F) as D. destruct (read_said _ _ _ R) as (td & FD & XD & C).
  destruct (exfil_infil _ _ _ XD FS) as (W & _). apply verified in V as (_ & q & m0 & Q & E0 & _ & V). rewrite E in E0. injection E0 as <-.
  destruct V as [(I & _)|[(I & _)|(_ & z & p' & Z & M & I)]]; [rewrite C in I; exfalso; cbn in I; intuition discriminate|rewrite C in I; exfalso; cbn in I; intuition discriminate|].
  rewrite C in Z, M. rewrite E in FI, FD, D. inversion D as [| | | | |? ND KK VV]; subst. cbn [map fst] in ND. inversion ND as [|? ? ND1 ND2]; subst.
  assert (In (s! "i") (map fst m) /\ In (s! "d") (map fst m)) as (II & ID).
  { split; [apply (field_below _ _ _ _ _ FI)|apply (field_below _ _ _ _ _ FD)]; discriminate. }
  unfold blanked in Z. rewrite !insert_below in Z by discriminate. apply sized_v in Z as (proto & n & vs' & n' & V1 & V2 & ZR).
  exists pre, vs', proto, n, n'. rewrite E. repeat (split; [assumption|]). assert (has_code said_codes (s! "E") = true) as HS by reflexivity. destruct (said_built hash (s! "E") (z_raw z) SH HS) as (B & W').
  rewrite B in M. injection M as <-. destruct (wf_round _ W') as (t1 & b1 & T1 & _ & X1 & _). destruct (wf_round _ W) as (t2 & b2 & T2 & _ & X2 & _).
  assert (d_saider e = Mt (s! "E") 0 (hash (s! "E") (z_raw z))) as -> by congruence. rewrite ZR. change (dummies 44) with (dummy (s! "E")). unfold replaced at 2.
  rewrite <- insert_replaced by auto. unfold replaced. rewrite <- insert_replaced; [reflexivity| |].
  - now apply insert_NoDup.
  - rewrite insert_keys. destruct (contains_key _ _); auto. apply in_or_app. now left.
Qed.

Lemma replaced_without k k' x m : k <> k' -> without [k] (replaced k' x m) = replaced k' x (without [k] m).
Proof.
  intros N. induction m as [|(a, b) m IH]; [reflexivity|]. unfold without, replaced in *. cbn [map filter fst existsb]. destruct (beq a k') eqn:B; cbn [fst].
  - apply beq_eq in B. subst a. destruct (beq k' k) eqn:B; [apply beq_eq in B; congruence|]. cbn [orb negb map fst]. rewrite beq_refl. f_equal. exact IH.
  - destruct (beq a k) eqn:B'; cbn [orb negb map fst]; [exact IH|]. rewrite B. f_equal. exact IH.
Qed.
Lemma without_replaced k x m : without [k] (replaced k x m) = without [k] m.
Proof.
  induction m as [|(a, b) m IH]; [reflexivity|]. unfold without, replaced in *. cbn [map filter fst existsb]. destruct (beq a k) eqn:B; cbn [fst existsb]; rewrite B; cbn [orb negb]; [exact IH|]. f_equal. exact IH.
Qed.
Lemma restored k x y m : NoDup (map fst m) -> get k m = Some y -> replaced k y (replaced k x m) = m.
Proof.
  intros ND G. rewrite get_assoc in G. revert ND G. induction m as [|(a, b) m IH]; intros ND G; [discriminate|]. cbn [assoc] in G. inversion ND as [|? ? N1 N2]; subst. unfold replaced in *. cbn [map fst]. destruct (beq a k) eqn:B; cbn [fst].
  - rewrite B. injection G as ->. f_equal. apply beq_eq in B. subst a. clear -N1. induction m as [|(a, b) m IH]; [reflexivity|]. cbn [map fst] in *. destruct (beq a k) eqn:B; [apply beq_eq in B; subst; elim N1; now left|].
    cbn [fst]. rewrite B. f_equal. apply IH. intros I. apply N1. now right.
  - rewrite B. f_equal. now apply IH.
Qed.
Lemma without_NoDup k m : NoDup (map fst m) -> NoDup (map fst (without [k] m)).
Proof.
  unfold without. induction m as [|(a, b) m IH]; intros ND; [constructor|]. inversion ND as [|? ? N1 N2]; subst. cbn [filter]. destruct (negb _); auto. cbn [map fst]. constructor; auto.
  intros I. apply N1. apply in_map_iff in I as (y & E & I). apply filter_In in I as (I & _). apply in_map_iff. eauto.
Qed.
Lemma get_without k k' m : k <> k' -> get k (without [k'] m) = get k m.
Proof.
  intros N. unfold get, without. induction m as [|(a, b) m IH]; [reflexivity|]. cbn [filter find fst existsb]. destruct (beq a k) eqn:B.
  - apply beq_eq in B. subst a. destruct (beq k k') eqn:B; [apply beq_eq in B; congruence|]. cbn [orb negb find fst]. now rewrite beq_refl.
  - destruct (beq a k'); cbn [orb negb find fst]; [exact IH|]. rewrite B. exact IH.
Qed.

(*# C123_prefix_binds_inception
   Two accepted inceptions for the same prefix, read from messages and beginning with their version strings, have the same other fields, in the same order, the text of field d aside; or Blake3 has a
   collision. They may have been accepted by different stores, with different signatures of different schemes.
##
Example C123_binds_case : serder_with_raw no_floats (d_raw event0) = Ok event0 /\ verify_key_event no_floats mix toy no_messages 1 (view no_floats empty) event0 [GSigs sigs0] None [] = Ok (false, []) /\
  verify_key_event no_floats mix toy no_messages 1 (view no_floats log2) event0 [GSigs (rev sigs0)] (Some true) [] = Ok (true, []).
Proof. repeat (match goal with |- _ /\ _ => split; [vm_compute; reflexivity|] end). vm_compute. reflexivity. Qed.
#*)
Lemma C123b_l (canon : bytes -> option bytes) (hash : bytes -> bytes -> bytes) (cr1 cr2 : crypto) (messages_of1 messages_of2 : bytes -> R (list message)) (fuel1 fuel2 : nat) (st1 st2 : store) (raw1 raw2 : bytes) (e1 e2 : sadder)
    (g1 g2 : list group) (deep1 deep2 : option bool) (seen1 seen2 : list bytes) (r1 r2 : bool * list bytes) (vs1 vs2 pre : bytes) (m1 m2 : list (bytes * value)) :
  sized_hash hash -> serder_with_raw canon raw1 = Ok e1 -> serder_with_raw canon raw2 = Ok e2 ->
  verify_key_event canon hash cr1 messages_of1 fuel1 st1 e1 g1 deep1 seen1 = Ok r1 -> verify_key_event canon hash cr2 messages_of2 fuel2 st2 e2 g2 deep2 seen2 = Ok r2 ->
  of_type (d_ked e1) (s! "icp") -> of_type (d_ked e2) (s! "icp") -> field_of (d_ked e1) (s! "i") (VStr pre) -> field_of (d_ked e2) (s! "i") (VStr pre) ->
  d_ked e1 = VObj ((s! "v", VStr vs1) :: m1) -> d_ked e2 = VObj ((s! "v", VStr vs2) :: m2) -> float_free (d_ked e1) -> float_free (d_ked e2) ->
  without [s! "d"] m1 = without [s! "d"] m2 \/ collision hash (s! "E").
Proof.
  intros SH R1 R2 H1 H2 T1 T2 I1 I2 E1 E2 F1 F2. destruct (C123_l _ _ _ _ _ _ _ _ _ _ _ _ _ _ SH R1 H1 T1 E1 F1) as (p1 & v1 & pr1 & n1 & n1' & A1 & S1 & _ & V1 & D1).
  destruct (C123_l _ _ _ _ _ _ _ _ _ _ _ _ _ _ SH R2 H2 T2 E2 F2) as (p2 & v2 & pr2 & n2 & n2' & A2 & S2 & _ & V2 & D2).
  apply pre_field in A1, A2. pose proof I1 as I1'. pose proof I2 as I2'. apply pre_field in I1', I2'. assert (p1 = pre /\ p2 = pre) as (-> & ->) by (split; congruence).
  set (R_ := fun m => replaced (s! "d") (dummies 44) (replaced (s! "i") (dummies 44) m)) in *.
  fold (R_ m1) in D1. fold (R_ m2) in D2.
  destruct (read_said _ _ _ R1) as (t1 & _ & X1 & _). destruct (read_said _ _ _ R2) as (t2 & _ & X2 & _). unfold sad_said in S1, S2. destruct (exfil_infil _ _ _ X1 S1) as (W1 & _). destruct (exfil_infil _ _ _ X2 S2) as (W2 & _).
  destruct (wf_round _ W1) as (q1 & b1 & Q1 & _ & Y1 & _). destruct (wf_round _ W2) as (q2 & b2 & Q2 & _ & Y2 & _). assert (d_saider e1 = d_saider e2) as DE by congruence.
  remember (to_json (VObj ((s! "v", VStr v1) :: R_ m1))) as j1 eqn:J1. remember (to_json (VObj ((s! "v", VStr v2) :: R_ m2))) as j2 eqn:J2.
  rewrite D1, D2 in DE. injection DE as DE.
  destruct (beq j1 j2) eqn:B; [|right; exists j1, j2; split; [intros ->; rewrite beq_refl in B; discriminate|exact DE]]. left. apply beq_eq in B.
  pose proof (read_data _ _ _ R1 F1) as DA1. pose proof (read_data _ _ _ R2 F2) as DA2. rewrite E1 in DA1. rewrite E2 in DA2.
  assert (forall vs v m proto n, data (VObj ((s! "v", VStr vs) :: m)) -> version_string v proto 1 0 n -> data (VObj ((s! "v", VStr v) :: R_ m))) as DV.
  { clear. intros vs v m proto n D V. inversion D as [| | | | |? ND KK VV]; subst. assert (map fst (R_ m) = map fst m) as MF. { unfold R_, replaced. rewrite !map_map. apply map_ext. intros (a, b). cbn [fst]. destruct (beq a _); cbn [fst]; destruct (beq _ _); reflexivity. }
    apply data_obj; cbn [map fst snd] in *; rewrite ?MF; auto. inversion VV as [|? ? V0 V1]; subst. constructor.
    - destruct (version_string_plain _ _ _ _ _ V) as (_ & A). apply data_str. now apply utf8_ascii.
    - assert (data (dummies 44)) as DD by (apply data_str; apply utf8_dummy). unfold R_, replaced. rewrite !map_map. rewrite Forall_forall in V1 |- *. intros x I. apply in_map_iff in I as ((a, b) & <- & I). cbn [fst].
      destruct (beq a (s! "i")); cbn [fst]; destruct (beq a (s! "d")); cbn [snd]; auto. apply V1. apply in_map_iff. exists (a, b). auto. }
  assert (VObj ((s! "v", VStr v1) :: R_ m1) = VObj ((s! "v", VStr v2) :: R_ m2)) as EQ. { apply (C48_l _ _ []); eauto. congruence. }
  injection EQ as _ EQ. apply (f_equal (without [s! "d"])) in EQ. unfold R_ in EQ. rewrite !without_replaced, !replaced_without in EQ by discriminate.
  assert (forall m vs, data (VObj ((s! "v", VStr vs) :: m)) -> field_of (VObj ((s! "v", VStr vs) :: m)) (s! "i") (VStr pre) -> replaced (s! "i") (VStr pre) (replaced (s! "i") (dummies 44) (without [s! "d"] m)) = without [s! "d"] m) as G.
  { clear. intros m vs D F. inversion D as [| | | | |? ND KK VV]; subst. cbn [map fst] in ND. inversion ND; subst. apply restored; [now apply without_NoDup|]. rewrite get_without by discriminate. rewrite get_assoc.
    apply field_assoc in F. exact F. }
  rewrite E1 in I1. rewrite E2 in I2. rewrite <- (G m1 vs1 DA1 I1), <- (G m2 vs2 DA2 I2), EQ. reflexivity.
Qed.

(*# C123_said_binds_event
   Two accepted events other than inceptions that have the same identifier, read from messages, have the same data, the text of field d aside; or Blake3 has a collision.
##
Example C123_said_case : verify_key_event no_floats mix toy no_messages 1 (view no_floats log1) event1 [GSigs sigs1] None [] = Ok (false, []) /\ ~ of_type (d_ked event1) (s! "icp").
Proof. split; [vm_compute; reflexivity|]. intros T. apply type_text in T. vm_compute in T. discriminate. Qed.
#*)
Lemma C123c_l (canon : bytes -> option bytes) (hash : bytes -> bytes -> bytes) (cr1 cr2 : crypto) (messages_of1 messages_of2 : bytes -> R (list message)) (fuel1 fuel2 : nat) (st1 st2 : store) (raw1 raw2 : bytes) (e1 e2 : sadder)
    (g1 g2 : list group) (deep1 deep2 : option bool) (seen1 seen2 : list bytes) (r1 r2 : bool * list bytes) (said : bytes) (m1 m2 : list (bytes * value)) :
  sized_hash hash -> serder_with_raw canon raw1 = Ok e1 -> serder_with_raw canon raw2 = Ok e2 ->
  verify_key_event canon hash cr1 messages_of1 fuel1 st1 e1 g1 deep1 seen1 = Ok r1 -> verify_key_event canon hash cr2 messages_of2 fuel2 st2 e2 g2 deep2 seen2 = Ok r2 ->
  ~ of_type (d_ked e1) (s! "icp") -> ~ of_type (d_ked e2) (s! "icp") -> sad_said e1 = Ok said -> sad_said e2 = Ok said ->
  d_ked e1 = VObj m1 -> d_ked e2 = VObj m2 -> float_free (d_ked e1) -> float_free (d_ked e2) ->
  without [s! "d"] m1 = without [s! "d"] m2 \/ collision hash (s! "E").
Proof.
  intros SH R1 R2 H1 H2 T1 T2 S1 S2 E1 E2 F1 F2. pose proof (other_ok _ _ _ _ _ _ _ _ _ _ _ H1 T1) as V1. pose proof (other_ok _ _ _ _ _ _ _ _ _ _ _ H2 T2) as V2.
  destruct (read_said _ _ _ R1) as (t1 & _ & X1 & C1). destruct (read_said _ _ _ R2) as (t2 & _ & X2 & C2). unfold sad_said in S1, S2. destruct (exfil_infil _ _ _ X1 S1) as (W1 & _). destruct (exfil_infil _ _ _ X2 S2) as (W2 & _).
  destruct (wf_round _ W1) as (q1 & b1 & Q1 & _ & Y1 & _). destruct (wf_round _ W2) as (q2 & b2 & Q2 & _ & Y2 & _). assert (d_saider e1 = d_saider e2) as DE by congruence.
  pose proof (read_data _ _ _ R1 F1) as DA1. pose proof (read_data _ _ _ R2 F2) as DA2. rewrite E1 in *. rewrite E2 in *. rewrite <- DE in V2. rewrite <- C1.
  exact (C59a_l hash _ m1 m2 _ _ _ _ (s! "d") SH DA1 DA2 eq_refl V1 V2).
Qed.

(** ** Chains *)
Lemma from_rest text n r : from_str text n = Ok r -> text = take n text ++ r.
Proof. intros H. apply from_str_ok' in H as (_ & ->). now rewrite take_drop. Qed.
Lemma read_rest canon text e r : serder_with_raw canon text = Ok e -> from_str text (len (d_raw e)) = Ok r -> text = d_raw e ++ r.
Proof.
  intros H R. apply from_rest in R. destruct (C87_l serder_new canon None None None text [] None None None None e) as (L & T & _); [cbn; auto|exact H|].
  assert (len (d_raw e) = d_size e) as LE by (rewrite T, len_take; lia). rewrite LE, <- T in R. exact R.
Qed.
Lemma shallow canon hash cr mo fuel st e g deep seen r : verify_key_event canon hash cr mo fuel st e g deep seen = Ok r -> exists there, verify_key_event canon hash cr mo 1 st e g None [] = Ok (there, []).
Proof.
  destruct r as (there & seen'). intros H. apply accepted_inv in H as (f & pre & p & sn & ilk & said & keys & found & -> & A). exists there. apply (accepted_intro _ _ _ _ 0 st e g None [] there [] pre p sn ilk said keys found).
  destruct A as [H1 H2 H3 H4 H5 H6 H7 H8 H9 H10 H11 H12]. split; auto. destruct H11 as [(B & _)|(B & n & event & pe & psaid & P1 & P2 & P3 & P4 & P5 & P6 & _)]; [left; auto|right; split; auto].
  exists n, event, pe, psaid. repeat (split; [assumption|]). right. auto.
Qed.
(** The event stored under a number is accepted with the signatures stored with it. *)
Lemma chain canon hash cr mo st pre n0 : orderly canon st pre n0 -> n0 <= 2 ^ 32 -> forall fuel n e g seen r, n <= n0 ->
  verify_key_event canon hash cr mo fuel st e g (Some true) seen = Ok r -> field_of (d_ked e) (s! "i") (VStr pre) -> ordinal (d_ked e) n ->
  (forall m em said, m < n -> logged canon st pre m em said -> ~ In said seen) ->
  forall m, m < n -> exists text em rest value more there, get_key_event st pre m = Ok text /\ serder_with_raw canon text = Ok em /\ text = d_raw em ++ rest /\
    mo rest = Ok (MGroup (GQuadlets value) :: more) /\ verify_key_event canon hash cr mo 1 st em value None [] = Ok (there, []).
Proof.
  intros (O1 & O2) L0. induction fuel as [|fuel IH]; intros n e g seen (there & seen') L H FI FN NS m LM; [discriminate|].
  apply accepted_inv in H as (f & pre' & p & sn & ilk & said & keys & found & E & A). injection E as <-. destruct A as [Hpre Hp Hsn Hilk Hsaid Hplace Hkeys Hfound He _ Hprior Hst].
  apply pre_field in FI. apply sn_field in FN. assert (pre' = pre) as -> by congruence. assert (sn = n) as -> by congruence.
  destruct (place_ok _ _ _ _ _ _ _ _ _ Hplace Hpre) as (count & HC & D).
  destruct Hprior as [(B & _)|(B & k & event & pe & psaid & P1 & P2 & P3 & P4 & P5 & P6 & P7)].
  { destruct D as [(_ & _ & -> & _)|(B' & _)]; [lia|congruence]. }
  apply before_small in P1 as (-> & P1); [|lia]. assert (logged canon st pre (n - 1) pe psaid) as LP by (exists event; auto).
  destruct P7 as [(_ & rest & value & r & D1 & D2 & D3 & ->)|(Q & _)].
  2:{ exfalso. apply andb_false_iff in Q as [Q|Q]; [discriminate|]. apply negb_false_iff in Q. apply (NS (n - 1) pe psaid); auto; [lia|]. now apply has_code_In. }
  destruct (O1 (n - 1) pe psaid ltac:(lia) LP) as (FI' & FN').
  destruct (N.eq_dec m (n - 1)) as [->|NE].
  - destruct (shallow _ _ _ _ _ _ _ _ _ _ _ D3) as (th & V). exists event, pe, rest, value. unfold first_group in D2. apply bind_ok in D2 as (ms & M & D2). destruct ms as [|[|gg] ms]; try discriminate. injection D2 as ->.
    exists ms, th. split; auto. split; auto. split; [now apply (read_rest canon)|]. auto.
  - apply (IH (n - 1) pe value (psaid :: seen) r); auto; [lia| |lia]. intros m' em' said' LM' LG [<-|I].
    + assert (m' = n - 1) by (apply (O2 m' (n - 1) em' pe psaid); auto; lia). lia.
    + apply (NS m' em' said'); auto. lia.
Qed.

(*# C124_deep_verification
   When an event with number n is accepted by deep verification, every event in the log before it is itself accepted, with the signatures that are stored with it. The log has to be in order: each stored event
   carries the prefix and its number, and no two have the same identifier.
##
Example C124_case : orderly no_floats (view no_floats full2) pre0 2 /\ field_of (d_ked event2) (s! "i") (VStr pre0) /\ ordinal (d_ked event2) 2 /\
  verify_key_event no_floats mix toy few_messages 3 (view no_floats full2) event2 [GSigs sigs2] (Some true) [] = Ok (false, rev (map (fun e => got [] (sad_said e)) [event1; event0])).
Proof.
  assert (forall m e said, m < 2 -> logged no_floats (view no_floats full2) pre0 m e said -> (m, e, said) = (0, event0, pre0) \/ (m, e, said) = (1, event1, got [] (sad_said event1))) as H.
  { intros m e said L (t & A & B & C). assert (m = 0 \/ m = 1) as [-> | ->] by lia; vm_compute in A; injection A as <-; vm_compute in B; injection B as <-; vm_compute in C; injection C as <-; vm_compute; auto. }
  split; [split|].
  - intros m e said L G. destruct (H m e said L G) as [[= -> -> ->]|[= -> -> ->]]; (split; [apply pre_field|apply sn_field]); vm_compute; reflexivity.
  - intros m m' e e' said L L' G G'. destruct (H m e said L G) as [[= -> -> ->]|[= -> -> ->]]; destruct (H _ _ _ L' G') as [E|E]; injection E; auto; intros X; exfalso; clear -X; vm_compute in X; discriminate.
  - split; [apply pre_field; vm_compute; reflexivity|]. split; [apply sn_field; vm_compute; reflexivity|]. vm_compute. reflexivity.
Qed.
#*)
Lemma C124_l (canon : bytes -> option bytes) (hash : bytes -> bytes -> bytes) (cr : crypto) (messages_of : bytes -> R (list message)) (fuel : nat) (st : store) (pre : bytes) (n : N) (e : sadder)
    (g : list group) (r : bool * list bytes) :
  orderly canon st pre n -> n <= 2 ^ 32 -> field_of (d_ked e) (s! "i") (VStr pre) -> ordinal (d_ked e) n ->
  verify_key_event canon hash cr messages_of fuel st e g (Some true) [] = Ok r ->
  forall m, m < n -> exists text em rest value more there, get_key_event st pre m = Ok text /\ serder_with_raw canon text = Ok em /\ text = d_raw em ++ rest /\
    messages_of rest = Ok (MGroup (GQuadlets value) :: more) /\ verify_key_event canon hash cr messages_of 1 st em value None [] = Ok (there, []).
Proof. intros O L FI FN H. apply (chain canon hash cr messages_of st pre n O L fuel n e g [] r); auto. lia. Qed.

Lemma kept_field m1 m2 k x : without [s! "d"] m1 = without [s! "d"] m2 -> k <> s! "d" -> field_of (VObj m1) k x -> field_of (VObj m2) k x.
Proof. intros E N F. apply field_assoc. apply field_assoc in F. rewrite <- get_assoc in *. rewrite <- (get_without _ (s! "d")) in * by auto. congruence. Qed.
Lemma step_back canon hash cr mo fuel st e g deep seen r pre n : verify_key_event canon hash cr mo fuel st e g deep seen = Ok r -> field_of (d_ked e) (s! "i") (VStr pre) -> ordinal (d_ked e) n -> n <= 2 ^ 32 -> 0 < n ->
  ~ of_type (d_ked e) (s! "icp") /\ exists pe psaid, logged canon st pre (n - 1) pe psaid /\ field_of (d_ked e) (s! "p") (VStr psaid).
Proof.
  destruct r as (there & seen'). intros H FI FN L P. apply accepted_inv in H as (f & pre' & p & sn & ilk & said & keys & found & E & A). destruct A as [Hpre Hp Hsn Hilk Hsaid Hplace Hkeys Hfound He _ Hprior Hst].
  apply pre_field in FI. apply sn_field in FN. assert (pre' = pre) as -> by congruence. assert (sn = n) as -> by congruence. apply type_text in Hilk.
  destruct (place_ok _ _ _ _ _ _ _ _ _ Hplace Hpre) as (count & HC & D). destruct D as [(_ & _ & -> & _)|(B & _)]; [lia|]. split. { intros T. rewrite (type_once _ _ _ Hilk T) in B. discriminate. }
  destruct Hprior as [(B' & _)|(_ & k & event & pe & psaid & P1 & P2 & P3 & P4 & P5 & P6 & P7)]; [congruence|]. apply before_small in P1 as (-> & P1); [|lia].
  exists pe, psaid. split; [exists event; auto|]. now apply text_field.
Qed.
Lemma logged_once canon st pre n e said e' said' : logged canon st pre n e said -> logged canon st pre n e' said' -> e = e' /\ said = said'.
Proof. intros (t & A & B & C) (t' & A' & B' & C'). assert (t = t') as <- by congruence. assert (e = e') as <- by congruence. split; congruence. Qed.

(*# C125_same_history
   Two parties whose logs are in order accept, by deep verification, events with the same identifier, other than inceptions. Then the events in their logs under every smaller number have the same identifier too,
   and those after the inception have the same data, the text of field d aside; or Blake3 has a collision. The signatures, and the signature scheme, may differ.
##
Example C125_case : orderly no_floats (view no_floats full2) pre0 2 /\ orderly no_floats (view no_floats full3) pre0 2 /\ serder_with_raw no_floats (d_raw event2) = Ok event2 /\ ~ of_type (d_ked event2) (s! "icp") /\
  (exists r, verify_key_event no_floats mix toy few_messages 3 (view no_floats full2) event2 [GSigs sigs2] (Some true) [] = Ok r) /\
  exists r, verify_key_event no_floats mix toy few_messages 3 (view no_floats full3) event2 [GSigs (rev sigs2)] (Some true) [] = Ok r.
Proof.
  assert (forall l, In l [full2; full3] -> orderly no_floats (view no_floats l) pre0 2) as O.
  { intros l I. assert (forall m e said, m < 2 -> logged no_floats (view no_floats l) pre0 m e said -> (m, e, said) = (0, event0, pre0) \/ (m, e, said) = (1, event1, got [] (sad_said event1))) as H.
    { intros m e said L (t & A & B & C). destruct I as [<-|[<-|[]]]; (assert (m = 0 \/ m = 1) as [-> | ->] by lia); vm_compute in A; injection A as <-; vm_compute in B; injection B as <-; vm_compute in C; injection C as <-; vm_compute; auto. }
    split.
    - intros m e said L G. destruct (H m e said L G) as [[= -> -> ->]|[= -> -> ->]]; (split; [apply pre_field|apply sn_field]); vm_compute; reflexivity.
    - intros m m' e e' said L L' G G'. destruct (H m e said L G) as [[= -> -> ->]|[= -> -> ->]]; destruct (H _ _ _ L' G') as [E|E]; injection E; auto; intros X; exfalso; clear -X; vm_compute in X; discriminate. }
  split; [apply O; cbn; auto|]. split; [apply O; cbn; auto|]. split; [vm_compute; reflexivity|]. split; [|split; eexists; vm_compute; reflexivity].
  intros T. apply type_text in T. vm_compute in T. discriminate.
Qed.
#*)
Lemma C125_l (canon : bytes -> option bytes) (hash : bytes -> bytes -> bytes) (cr1 cr2 : crypto) (messages_of1 messages_of2 : bytes -> R (list message)) (fuel1 fuel2 : nat) (st1 st2 : store) (pre : bytes) (n : N) (raw1 raw2 : bytes)
    (e1 e2 : sadder) (g1 g2 : list group) (r1 r2 : bool * list bytes) (said : bytes) :
  sized_hash hash -> orderly canon st1 pre n -> orderly canon st2 pre n -> n <= 2 ^ 32 ->
  serder_with_raw canon raw1 = Ok e1 -> serder_with_raw canon raw2 = Ok e2 -> field_of (d_ked e1) (s! "i") (VStr pre) -> ordinal (d_ked e1) n ->
  verify_key_event canon hash cr1 messages_of1 fuel1 st1 e1 g1 (Some true) [] = Ok r1 -> verify_key_event canon hash cr2 messages_of2 fuel2 st2 e2 g2 (Some true) [] = Ok r2 ->
  ~ of_type (d_ked e1) (s! "icp") -> ~ of_type (d_ked e2) (s! "icp") -> sad_said e1 = Ok said -> sad_said e2 = Ok said ->
  float_free (d_ked e1) -> float_free (d_ked e2) ->
  (forall m e s, logged canon st1 pre m e s \/ logged canon st2 pre m e s -> float_free (d_ked e)) ->
  (forall m, m < n -> exists e1' e2' said', logged canon st1 pre m e1' said' /\ logged canon st2 pre m e2' said' /\
     (0 < m -> exists m1 m2, d_ked e1' = VObj m1 /\ d_ked e2' = VObj m2 /\ without [s! "d"] m1 = without [s! "d"] m2)) \/
  collision hash (s! "E").
Proof.
  intros SH O1 O2 L R1 R2 FI FN H1 H2 T1 T2 S1 S2 F1 F2 FF.
  assert (forall raw e, serder_with_raw canon raw = Ok e -> exists m, d_ked e = VObj m) as OB. { intros raw e R. destruct (read_said _ _ _ R) as (t & F & _). now destruct F as (a & b & E & _); eauto. }
  pose (Q := fun m => exists ra rb ea eb ga gb fa fb ta tb s ma mb, serder_with_raw canon ra = Ok ea /\ serder_with_raw canon rb = Ok eb /\
    verify_key_event canon hash cr1 messages_of1 fa st1 ea ga (fst ta) [] = Ok (snd ta) /\ verify_key_event canon hash cr2 messages_of2 fb st2 eb gb (fst tb) [] = Ok (snd tb) /\ sad_said ea = Ok s /\ sad_said eb = Ok s /\
    field_of (d_ked ea) (s! "i") (VStr pre) /\ ordinal (d_ked ea) m /\ d_ked ea = VObj ma /\ d_ked eb = VObj mb /\ without [s! "d"] ma = without [s! "d"] mb /\
    (m < n -> logged canon st1 pre m ea s /\ logged canon st2 pre m eb s)).
  assert (forall ra rb ea eb ga gb fa fb da db ta tb s m, 0 < m -> m <= n -> serder_with_raw canon ra = Ok ea -> serder_with_raw canon rb = Ok eb ->
    verify_key_event canon hash cr1 messages_of1 fa st1 ea ga da [] = Ok ta -> verify_key_event canon hash cr2 messages_of2 fb st2 eb gb db [] = Ok tb -> sad_said ea = Ok s -> sad_said eb = Ok s ->
    ~ of_type (d_ked ea) (s! "icp") -> ~ of_type (d_ked eb) (s! "icp") -> float_free (d_ked ea) -> float_free (d_ked eb) -> field_of (d_ked ea) (s! "i") (VStr pre) -> ordinal (d_ked ea) m ->
    (m < n -> logged canon st1 pre m ea s /\ logged canon st2 pre m eb s) -> Q m \/ collision hash (s! "E")) as QI.
  { intros ra rb ea eb ga gb fa fb da db ta tb s m P LM Ra Rb Ha Hb Sa Sb Ta Tb Fa Fb FIa FNa LG. destruct (OB _ _ Ra) as (ma & Ea). destruct (OB _ _ Rb) as (mb & Eb).
    destruct (C123c_l canon hash cr1 cr2 messages_of1 messages_of2 fa fb st1 st2 ra rb ea eb ga gb da db [] [] ta tb s ma mb SH Ra Rb Ha Hb Ta Tb Sa Sb Ea Eb Fa Fb) as [W|W]; [left|now right].
    exists ra, rb, ea, eb, ga, gb, fa, fb, (da, ta), (db, tb), s, ma, mb. cbn [fst snd]. repeat (split; [assumption|]). exact LG. }
  assert (Q n \/ collision hash (s! "E")) as [QN|]; [| |now right].
  { destruct (N.eq_dec n 0) as [->|NZ]; [|apply (QI raw1 raw2 e1 e2 g1 g2 fuel1 fuel2 (Some true) (Some true) r1 r2 said n); auto; lia].
    exfalso. destruct r1 as (x & y). destruct (C120_l _ _ _ _ _ _ _ _ _ _ _ _ H1) as (pre' & n' & said' & ilk & labels & count & A1 & A2 & _ & A4 & _ & _ & _ & _ & _ & _ & _ & A5).
    apply sn_field in A2, FN. assert (n' = 0) as -> by congruence. destruct A5 as (A5 & _); [intros ->; contradiction|]. vm_compute in A5. now apply A5. }
  destruct (OB _ _ R1) as (m1 & E1). destruct (OB _ _ R2) as (m2 & E2).
  destruct (C123c_l canon hash cr1 cr2 messages_of1 messages_of2 fuel1 fuel2 st1 st2 raw1 raw2 e1 e2 g1 g2 _ _ [] [] r1 r2 said m1 m2 SH R1 R2 H1 H2 T1 T2 S1 S2 E1 E2 F1 F2) as [W|W]; [|now right].
  assert (field_of (d_ked e2) (s! "i") (VStr pre) /\ ordinal (d_ked e2) n) as (FI2 & FN2).
  { rewrite E1 in FI, FN. rewrite E2. split; [apply (kept_field _ _ _ _ W); auto; discriminate|]. destruct FN as (h & F & D). exists h. split; auto. apply (kept_field _ _ _ _ W); auto. discriminate. }
  pose proof (C124_l _ _ _ _ _ _ _ _ _ _ _ O1 L FI FN H1) as A1. pose proof (C124_l _ _ _ _ _ _ _ _ _ _ _ O2 L FI2 FN2 H2) as A2.
  (* the event before one under number [m] *)
  assert (forall m, 0 < m -> m <= n -> Q m -> exists pa pb s, logged canon st1 pre (m - 1) pa s /\ logged canon st2 pre (m - 1) pb s) as BACK.
  { intros m P LM (ra & rb & ea & eb & ga & gb & fa & fb & ta & tb & s & ma & mb & Ra & Rb & Ha & Hb & Sa & Sb & FIa & FNa & Ea & Eb & WW & _).
    assert (field_of (d_ked eb) (s! "i") (VStr pre) /\ ordinal (d_ked eb) m) as (FIb & FNb).
    { rewrite Ea in FIa, FNa. rewrite Eb. split; [apply (kept_field _ _ _ _ WW); auto; discriminate|]. destruct FNa as (h & F & D). exists h. split; auto. apply (kept_field _ _ _ _ WW); auto. discriminate. }
    destruct (step_back _ _ _ _ _ _ _ _ _ _ _ _ _ Ha FIa FNa ltac:(lia) P) as (_ & pa & sa & La & Pa). destruct (step_back _ _ _ _ _ _ _ _ _ _ _ _ _ Hb FIb FNb ltac:(lia) P) as (_ & pb & sb & Lb & Pb).
    rewrite Ea in Pa. rewrite Eb in Pb. apply (kept_field _ _ _ _ WW) in Pa; [|discriminate]. apply index_field in Pa, Pb. assert (sa = sb) as -> by congruence. eauto. }
  assert (forall k, N.of_nat k < n -> (forall j, (j <= k)%nat -> Q (n - N.of_nat j)) \/ collision hash (s! "E")) as ALL.
  { induction k as [|k IH]; intros LK.
    - left. intros j LJ. replace j with 0%nat by lia. rewrite N.sub_0_r. exact QN.
    - destruct (IH ltac:(lia)) as [A|]; [|now right]. assert (Q (n - N.of_nat (S k)) \/ collision hash (s! "E")) as [B|]; [| |now right].
      2:{ left. intros j LJ. destruct (Nat.eq_dec j (S k)) as [->|]; [exact B|]. apply A. lia. }
      destruct (BACK (n - N.of_nat k) ltac:(lia) ltac:(lia) (A k ltac:(lia))) as (pa & pb & s & La & Lb). replace (n - N.of_nat k - 1) with (n - N.of_nat (S k)) in * by lia. set (m := n - N.of_nat (S k)) in *.
      assert (0 < m < n) as LM by lia. destruct (A1 m ltac:(lia)) as (xa & ea & ya & ga & za & ta & B1 & B2 & _ & _ & B3). destruct (A2 m ltac:(lia)) as (xb & eb & yb & gb & zb & tb & D1 & D2 & _ & _ & D3).
      pose proof La as (xa' & U1 & U2 & U3). pose proof Lb as (xb' & V1 & V2 & V3). assert (xa' = xa) as -> by congruence. assert (xb' = xb) as -> by congruence. assert (pa = ea) as -> by congruence. assert (pb = eb) as -> by congruence.
      destruct (proj1 O1 m ea s ltac:(lia) La) as (Ia & Na). destruct (proj1 O2 m eb s ltac:(lia) Lb) as (Ib & Nb).
      destruct (step_back _ _ _ _ _ _ _ _ _ _ _ _ _ B3 Ia Na ltac:(lia) ltac:(lia)) as (Ta & _). destruct (step_back _ _ _ _ _ _ _ _ _ _ _ _ _ D3 Ib Nb ltac:(lia) ltac:(lia)) as (Tb & _).
      apply (QI xa xb ea eb ga gb 1%nat 1%nat None None (ta, []) (tb, []) s m); auto; try lia; eapply FF; [left|right]; eauto. }
  destruct (N.eq_dec n 0) as [->|NZ]; [left; intros m LM; lia|]. destruct (ALL (N.to_nat (n - 1)) ltac:(lia)) as [A|]; [|now right]. left. intros m LM.
  assert (forall i, 0 < i -> i <= n -> Q i) as A'. { intros i P LI. replace i with (n - N.of_nat (N.to_nat (n - i))) by lia. apply A. lia. }
  destruct (BACK (m + 1) ltac:(lia) ltac:(lia) (A' (m + 1) ltac:(lia) ltac:(lia))) as (pa & pb & s & La & Lb). replace (m + 1 - 1) with m in * by lia. exists pa, pb, s. split; auto. split; auto. intros P.
  destruct (A' m P ltac:(lia)) as (ra & rb & ea & eb & ga & gb & fa & fb & ta & tb & s' & ma & mb & Ra & Rb & Ha & Hb & Sa & Sb & FIa & FNa & Ea & Eb & WW & LL). destruct (LL LM) as (La' & Lb').
  destruct (logged_once _ _ _ _ _ _ _ _ La La') as (-> & _). destruct (logged_once _ _ _ _ _ _ _ _ Lb Lb') as (-> & _). exists ma, mb. auto.
Qed.
