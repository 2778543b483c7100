(** Proofs of the theorems about taking in a stream again. *)
From Coq Require Import String.
From Coq Require Import NArith ZArith QArith Bool List Lia.
From Verif Require Import Base Tables Matter Indexer Prims Json Tholder Common Saider Diger Sadder Signer Prefixer Pather Short Verify Ingest Events.
From Verif Require Import Spec SpecPrims SpecJson SpecCommon SpecTholder SpecSaider SpecSadder SpecPrefixer SpecSigner SpecLog SpecIngest SpecCred SpecExtra SpecEndorse SpecExact SpecAgain World Forgery Chain.
From Verif Require Import BaseFacts MatterFacts MatterText PrimsFacts SaiderFacts SaiderThms SadderFacts SadderThms VerifyFacts VerifyThms ExtraFacts LogThms IngestThms CredThms ChainThms EndorseThms ExactThms AgainThms DepthThms.
Import ListNotations.
Open Scope N_scope.

Lemma longer {A} (a b m : list A) : b = a ++ m -> len a <= len b.
Proof. intros ->. unfold len. rewrite app_length. lia. Qed.
Lemma at_last (a m : list bytes) t : at_sn ((a ++ [t]) ++ m) (len a) = Ok t.
Proof. unfold at_sn, len. rewrite Nat2N.id, <- app_assoc, nth_error_app2 by lia. now rewrite Nat.sub_diag. Qed.

Lemma paired {A B} (x : A * B) a b : fst x = a -> snd x = b -> x = (a, b).
Proof. destruct x. cbn. congruence. Qed.

Section Repeat.
Variable canon : bytes -> option bytes.
Variable hash : bytes -> bytes -> bytes.
Variable cr : crypto.
Variable mo : bytes -> R (list message).
Variable group_text : group -> R bytes.
Variable schema_check : bytes -> bytes -> R bool.
Variable age : bytes -> R Z.
Variable seen_said : ledger -> bytes -> bool.
Hypothesis SH : sized_hash hash.
Hypothesis FA : finds_all canon seen_said.
Hypothesis TX : textual group_text.
Variable l2 : ledger.
Variable age' : bytes -> R Z.

Definition stands (m : message) : Prop :=
  match m with MPayload raw => forall c said, creder_with_raw canon raw = Ok c -> sad_said c = Ok said -> standing canon age' (view canon l2) said | MGroup _ => True end.
Definition fits : Prop := reached canon hash cr mo group_text schema_check age seen_said l2 /\ (forall pre, len (l_kel l2 pre) <= 2 ^ 32) /\ (forall pre, len (l_tel l2 pre) <= 2 ^ 32).

(** What the first time says about the second, for each kind. *)
Lemma key_first fuel l l' e value text seen ex sn : verify_key_event canon hash cr mo (S fuel) (view canon l) e value (Some false) seen = Ok (ex, sn) -> extends l l2 ->
  (ex = false -> exists pre, serder_pre e = Ok pre /\ l' = insert_key_event l pre (d_raw e ++ text) /\ extends l' l2 /\ serder_with_raw canon (d_raw e ++ text) = Ok e) ->
  sn = seen /\ (forall f seen2 ex2 s2, verify_key_event canon hash cr mo f (view canon l2) e value (Some false) seen2 = Ok (ex2, s2) -> ex2 = true /\ s2 = seen2) /\
  (fits -> forall f seen2, verify_key_event canon hash cr mo (S f) (view canon l2) e value (Some false) seen2 = Ok (true, seen2)).
Proof.
  intros V X I. apply C165_l in V as (-> & pre & n & said & count & PR & C & D); [|exact SH|discriminate]. cbn in C. injection C as <-. split; auto.
  assert (field_of (d_ked e) (s! "i") (VStr pre) /\ ordinal (d_ked e) n /\ sad_said e = Ok said) as (FI & FN & FS) by (destruct PR as (a1 & a2 & a3 & a4 & a5 & a6 & a7 & P1 & P2 & P3 & P4 & _); auto).
  assert (n < len (l_kel l2 pre) /\ (n < 2 ^ 32 -> exists e', logged canon (view canon l2) pre (asked_for n) e' said)) as (LT & LG).
  { destruct D as [(-> & ->)|(-> & LT & e' & LG)].
    - destruct (I eq_refl) as (pre' & HP & -> & (XK & _) & RD). apply pre_field in FI. assert (pre' = pre) as -> by congruence. destruct (XK pre) as (m & E). cbn in E. unfold added in E. rewrite beq_refl in E. split.
      + rewrite E. unfold len. rewrite !app_length. cbn. lia.
      + intros S. exists e. unfold asked_for. rewrite N.mod_small by auto. exists (d_raw e ++ text). cbn. rewrite E, at_last. auto.
    - split; [|intros _; exists e'; now apply (logged_more canon l)]. destruct X as (XK & _). destruct (XK pre) as (m & E). apply longer in E. lia. }
  split.
  - intros f seen2 ex2 s2 V. destruct f as [|f]; [discriminate|]. apply C165_l in V as (-> & pre' & n' & said' & count & PR' & C & D'); [|exact SH|discriminate]. cbn in C. injection C as <-.
    destruct PR' as (a1 & a2 & a3 & a4 & a5 & a6 & a7 & P1 & _ & P3 & _). apply pre_field in FI, P1. apply sn_field in FN, P3. assert (pre' = pre) as -> by congruence. assert (n' = n) as -> by congruence. split; auto. destruct D' as [(-> & E)|(-> & _)]; auto. lia.
  - intros (_ & B & _) f seen2. apply C165_l; [exact SH|discriminate|]. split; auto. exists pre, n, said, (len (l_kel l2 pre)). split; [|split; [reflexivity|]].
    + apply (proper_later _ _ _ l); auto. destruct D as [(_ & ->)|(_ & D & _)]; lia.
    + right. split; auto. split; auto. apply LG. specialize (B pre). lia.
Qed.
Lemma tel_first fuel l l' e value text seen ex sn : verify_transaction_event canon hash cr mo (S fuel) (view canon l) e value (Some false) seen = Ok (ex, sn) -> extends l l2 ->
  (ex = false -> exists pre, serder_pre e = Ok pre /\ l' = insert_transaction_event l pre (d_raw e ++ text) /\ extends l' l2 /\ serder_with_raw canon (d_raw e ++ text) = Ok e) ->
  sn = seen /\ (forall f seen2 ex2 s2, verify_transaction_event canon hash cr mo f (view canon l2) e value (Some false) seen2 = Ok (ex2, s2) -> ex2 = true /\ s2 = seen2) /\
  (fits -> forall f seen2, verify_transaction_event canon hash cr mo (S f) (view canon l2) e value (Some false) seen2 = Ok (true, seen2)).
Proof.
  intros V X I. apply C166_l in V as (-> & pre & n & said & count & PR & C & D). cbn in C. injection C as <-. split; auto.
  assert (field_of (d_ked e) (s! "i") (VStr pre) /\ ordinal (d_ked e) n /\ sad_said e = Ok said) as (FI & FN & FS) by (destruct PR as (a1 & a2 & a3 & a4 & a5 & a6 & a7 & a8 & a9 & a10 & P0 & P1 & P2 & P3 & P4 & P5 & _); auto).
  assert (n < len (l_tel l2 pre) /\ (n < 2 ^ 32 -> exists e', recorded canon (view canon l2) pre (asked_for n) e' /\ sad_said e' = Ok said)) as (LT & LG).
  { destruct D as [(-> & ->)|(-> & LT & e' & LG & SE)].
    - destruct (I eq_refl) as (pre' & HP & -> & (_ & XK & _) & RD). apply pre_field in FI. assert (pre' = pre) as -> by congruence. destruct (XK pre) as (m & E). cbn in E. unfold added in E. rewrite beq_refl in E. split.
      + rewrite E. unfold len. rewrite !app_length. cbn. lia.
      + intros S. exists e. split; auto. unfold asked_for. rewrite N.mod_small by auto. exists (d_raw e ++ text). cbn. rewrite E, at_last. auto.
    - split; [|intros _; exists e'; split; auto; now apply (recorded_more canon l)]. destruct X as (_ & XK & _). destruct (XK pre) as (m & E). apply longer in E. lia. }
  split.
  - intros f seen2 ex2 s2 V. destruct f as [|f]; [discriminate|]. apply C166_l in V as (-> & pre' & n' & said' & count & PR' & C & D'). cbn in C. injection C as <-.
    destruct PR' as (a1 & a2 & a3 & a4 & a5 & a6 & a7 & a8 & a9 & a10 & P0 & P1 & _ & P3 & _). apply pre_field in FI, P1. apply sn_field in FN, P3. assert (pre' = pre) as -> by congruence. assert (n' = n) as -> by congruence. split; auto. destruct D' as [(-> & E)|(-> & _)]; auto. lia.
  - intros (_ & _ & B) f seen2. apply C166_l. split; auto. exists pre, n, said, (len (l_tel l2 pre)). split; [|split; [reflexivity|]].
    + now apply (anchored_more _ _ l).
    + right. split; auto. split; auto. apply LG. specialize (B pre). lia.
Qed.
Lemma acdc_first fuel l l' e value text seen ex sn said : verify_acdc canon hash cr mo schema_check age (S fuel) (view canon l) e value (Some false) seen = Ok (ex, sn) -> extends l l2 -> sad_said e = Ok said ->
  (ex = false -> l' = insert_acdc l (d_raw e ++ text) /\ extends l' l2 /\ creder_with_raw canon (d_raw e ++ text) = Ok e) ->
  sn = seen /\ (forall f seen2 ex2 s2, verify_acdc canon hash cr mo schema_check age' f (view canon l2) e value (Some false) seen2 = Ok (ex2, s2) -> ex2 = true /\ s2 = seen2) /\
  (fits -> standing canon age' (view canon l2) said -> forall f seen2, verify_acdc canon hash cr mo schema_check age' (S f) (view canon l2) e value (Some false) seen2 = Ok (true, seen2)).
Proof.
  intros V X HS I. apply exactly_accepted in V as (-> & said' & DU & SE & IO & D). split; auto. assert (said' = said) as -> by (destruct DU as (a1 & a2 & a3 & a4 & a5 & a6 & a7 & a8 & _ & P & _); congruence).
  assert (exists t e', In t (l_acdc l2) /\ creder_with_raw canon t = Ok e' /\ sad_said e' = Ok said) as (t & e' & IN & RD & SD).
  { destruct D as [(-> & e' & (t & G & R) & S)|(-> & _)].
    - exists t, e'. split; auto. destruct X as (_ & _ & m & ->). cbn [view get_acdc] in G. apply last_of_in in G as (G & _). apply in_or_app. now left.
    - destruct (I eq_refl) as (-> & (_ & _ & m & E) & RD). exists (d_raw e ++ text), e. split; auto. rewrite E. cbn. apply in_or_app. left. apply in_or_app. right. now left. }
  split.
  - intros f seen2 ex2 s2 V. destruct f as [|f]; [discriminate|]. apply exactly_accepted in V as (-> & said' & DU' & _ & _ & D'). split; auto. assert (said' = said) as -> by (destruct DU' as (a1 & a2 & a3 & a4 & a5 & a6 & a7 & a8 & _ & P & _); congruence).
    destruct D' as [(-> & _)|(_ & er & G)]; auto. exfalso. cbn [view get_acdc] in G. destruct (last_of_some (names canon said) (l_acdc l2) t IN) as (y & Y); [|congruence]. unfold names. now rewrite RD, SD, beq_refl.
  - intros (RE & _) ST f seen2. apply exactly_accepted. split; auto. exists said. split; [now apply (due_more _ _ _ mo group_text _ age seen_said l2 FA TX RE _ l)|]. split; auto. split; [intros node N; now apply (in_order_more _ hash cr mo group_text _ age seen_said l2 FA TX RE l); auto|].
    left. split; auto. exists e'. split; auto. apply In_nth_error in IN as (n & N). exists t. split; auto. now apply (got _ hash cr mo group_text schema_check age seen_said l2 FA TX RE n t e').
Qed.

Lemma one_again fuel verify l seen raw next l' seen' : verify <> Some false -> ingest_one canon hash cr mo group_text schema_check age seen_said (S fuel) (Some false) verify l seen raw next = Ok (l', seen') ->
  kept canon hash cr mo group_text schema_check age l -> Forall (known canon l) seen -> extends l' l2 ->
  forall verify2 fuel2 seen2, Forall (known canon l2) seen2 -> (verify2 <> Some false -> incl seen seen2) ->
  let again f := ingest_one canon hash cr mo group_text schema_check age' seen_said f (Some false) verify2 l2 seen2 raw next in
  (forall x s, again fuel2 = Ok (x, s) -> x = l2 /\ Forall (known canon l2) s /\ (verify2 <> Some false -> incl seen' s)) /\
  (fits -> stands (MPayload raw) -> exists r, again (S fuel2) = Ok r).
Proof.
  intros NV H K F X' v2 f2 seen2 F2 IN again. destruct (one_kept _ _ _ _ _ _ _ _ FA TX _ _ _ _ _ _ _ _ _ NV H K F) as (X & _ & F'). pose proof (extends_trans _ _ _ X X') as XL.
  assert (or_else verify true = true) as OV by (destruct verify as [[|]|]; auto; congruence).
  assert (Forall (known canon l2) seen') as F2' by (eapply Forall_impl; [|exact F']; intros x; now apply known_extends).
  (* how the question whether the message is there goes, both times *)
  assert (forall said check r, there seen_said l verify said seen check = Ok r -> (In said seen /\ r = (true, seen)) \/ (~ In said seen /\ check (said :: seen) = Ok r)) as TH.
  { intros said check r T. unfold there in T. rewrite OV in T. cbn [andb] in T. destruct (has_code seen said) eqn:HC; cbn [negb] in T; [left|right].
    - apply has_code_In in HC. split; auto. injection T as <-. f_equal. apply FA. rewrite Forall_forall in F. now apply F.
    - split; auto. intros J. apply has_code_In in J. congruence. }
  assert (forall said check1 check2 r, there seen_said l verify said seen check1 = Ok r -> snd r = seen' -> known canon l2 said ->
    (check1 (said :: seen) = Ok r -> snd r = said :: seen) -> (forall s r2, check1 (said :: seen) = Ok r -> check2 s = Ok r2 -> r2 = (true, s)) ->
    (forall r2, there seen_said l2 v2 said seen2 check2 = Ok r2 -> fst r2 = true /\ Forall (known canon l2) (snd r2) /\ (v2 <> Some false -> incl seen' (snd r2))) /\
    ((check1 (said :: seen) = Ok r -> exists r2, check2 (said :: seen2) = Ok r2) -> exists r2, there seen_said l2 v2 said seen2 check2 = Ok r2)) as TW.
  { intros said check1 check2 r T1 E1 KN S1 S2. assert (v2 <> Some false -> or_else v2 true = true) as O2 by (destruct v2 as [[|]|]; auto; congruence).
    assert (seen_said l2 said = true) as SS by now apply FA.
    assert (v2 <> Some false -> In said seen2 -> incl seen' seen2) as INC. { intros N J. destruct (TH _ _ _ T1) as [(_ & ->)|(_ & C)]; [cbn in E1; subst seen'; auto|]. rewrite <- E1, (S1 C). intros y [<-|Y]; auto. now apply IN. }
    unfold there. destruct (or_else v2 true) eqn:OO; cbn [andb].
    2:{ rewrite SS. split; [|eauto]. intros r2 [= <-]. cbn. split; auto. split; auto. intros N. discriminate (O2 N). }
    destruct (has_code seen2 said) eqn:HC; cbn [negb].
    - rewrite SS. apply has_code_In in HC. split; [|eauto]. intros r2 [= <-]. cbn. auto.
    - assert (v2 <> Some false) as N2 by (intros ->; cbn in OO; discriminate OO).
      destruct (TH _ _ _ T1) as [(J & _)|(_ & C)]. { exfalso. apply (IN N2) in J. apply has_code_In in J. congruence. }
      split; [|intros W; exact (W C)]. intros r2 C2. rewrite (S2 _ _ C C2). cbn. split; auto. split; [now constructor|]. intros _. rewrite <- E1, (S1 C). intros y [<-|Y]; [now left|right; now apply IN]. }
  unfold again, ingest_one in *. clear again. apply bind_ok in H as (i & HI & H). rewrite HI, !bind_Ok. cbv zeta in *. destruct (beq (vi_ident i) (s! "KERI")) eqn:ID.
  - apply bind_ok in H as (e & HE & H). apply bind_ok in H as (said & HS & H). apply bind_ok in H as (g & HG & H). apply bind_ok in H as (ilk & HK & H). rewrite HE, !bind_Ok, HS, !bind_Ok, HG, !bind_Ok, HK, !bind_Ok.
    destruct (has_code [s! "icp"; s! "rot"; s! "ixn"] ilk); [|destruct (has_code [s! "vcp"; s! "iss"; s! "rev"] ilk); [|discriminate]].
    + destruct g as [| | |value|]; try discriminate. apply bind_ok in H as ((ex & sn) & T & H). cbn [fst snd] in H.
      assert (sn = seen') as -> by (destruct ex; cbn [negb] in H; [congruence|]; apply bind_ok in H as (? & _ & H); apply bind_ok in H as (? & _ & H); apply bind_ok in H as (? & _ & H); congruence).
      assert (known canon l2 said) as KN.
      { destruct (TH _ _ _ T) as [(J & _)|(_ & C)]; [rewrite Forall_forall in F; apply (known_extends canon l); auto|]. apply C165_l in C as (E & _); [|exact SH|discriminate]. rewrite E in F2'. now inversion F2'. }
      assert (exists text, ex = false -> exists pre, serder_pre e = Ok pre /\ l' = insert_key_event l pre (d_raw e ++ text) /\ extends l' l2 /\ serder_with_raw canon (d_raw e ++ text) = Ok e) as (text & TE).
      { destruct ex; [exists []; discriminate|]. cbn [negb] in H. apply bind_ok in H as (event & HU & H). apply utf8_from in HU. subst event. apply bind_ok in H as (pre & HP & H). apply bind_ok in H as (text & HT & H). injection H as <-.
        exists text. intros _. exists pre. split; auto. split; auto. split; auto. apply (read_on canon raw); eauto. }
      destruct (TW said _ (fun s => verify_key_event canon hash cr mo f2 (view canon l2) e value (Some false) s) _ T eq_refl KN) as (W1 & _).
      { intros C. now destruct (key_first _ _ l' _ _ text _ _ _ C XL TE). }
      { intros s (ex2 & s2) C C2. destruct (key_first _ _ l' _ _ text _ _ _ C XL TE) as (_ & Q & _). now destruct (Q _ _ _ _ C2) as (-> & ->). }
      destruct (TW said _ (fun s => verify_key_event canon hash cr mo (S f2) (view canon l2) e value (Some false) s) _ T eq_refl KN) as (W1' & W2).
      { intros C. now destruct (key_first _ _ l' _ _ text _ _ _ C XL TE). }
      { intros s (ex2 & s2) C C2. destruct (key_first _ _ l' _ _ text _ _ _ C XL TE) as (_ & Q & _). now destruct (Q _ _ _ _ C2) as (-> & ->). }
      split.
      * intros x s A. apply bind_ok in A as (r2 & A1 & A). destruct (W1 _ A1) as (Q1 & Q2 & Q3). rewrite Q1 in A. injection A as <- <-. auto.
      * intros FT _. destruct W2 as (r2 & A1). { intros C. destruct (key_first _ _ l' _ _ text _ _ _ C XL TE) as (_ & _ & Q). exists (true, said :: seen2). apply Q; auto. } rewrite A1, bind_Ok. destruct (W1' _ A1) as (-> & _). cbn [negb]. eexists. reflexivity.
    + destruct g as [|value| | |]; try discriminate. apply bind_ok in H as ((ex & sn) & T & H). cbn [fst snd] in H.
      assert (sn = seen') as -> by (destruct ex; cbn [negb] in H; [congruence|]; apply bind_ok in H as (? & _ & H); apply bind_ok in H as (? & _ & H); apply bind_ok in H as (? & _ & H); congruence).
      assert (known canon l2 said) as KN.
      { destruct (TH _ _ _ T) as [(J & _)|(_ & C)]; [rewrite Forall_forall in F; apply (known_extends canon l); auto|]. apply C166_l in C as (E & _). rewrite E in F2'. now inversion F2'. }
      assert (exists text, ex = false -> exists pre, serder_pre e = Ok pre /\ l' = insert_transaction_event l pre (d_raw e ++ text) /\ extends l' l2 /\ serder_with_raw canon (d_raw e ++ text) = Ok e) as (text & TE).
      { destruct ex; [exists []; discriminate|]. cbn [negb] in H. apply bind_ok in H as (event & HU & H). apply utf8_from in HU. subst event. apply bind_ok in H as (pre & HP & H). apply bind_ok in H as (text & HT & H). injection H as <-.
        exists text. intros _. exists pre. split; auto. split; auto. split; auto. apply (read_on canon raw); eauto. }
      destruct (TW said _ (fun s => verify_transaction_event canon hash cr mo f2 (view canon l2) e value (Some false) s) _ T eq_refl KN) as (W1 & _).
      { intros C. now destruct (tel_first _ _ l' _ _ text _ _ _ C XL TE). }
      { intros s (ex2 & s2) C C2. destruct (tel_first _ _ l' _ _ text _ _ _ C XL TE) as (_ & Q & _). now destruct (Q _ _ _ _ C2) as (-> & ->). }
      destruct (TW said _ (fun s => verify_transaction_event canon hash cr mo (S f2) (view canon l2) e value (Some false) s) _ T eq_refl KN) as (W1' & W2).
      { intros C. now destruct (tel_first _ _ l' _ _ text _ _ _ C XL TE). }
      { intros s (ex2 & s2) C C2. destruct (tel_first _ _ l' _ _ text _ _ _ C XL TE) as (_ & Q & _). now destruct (Q _ _ _ _ C2) as (-> & ->). }
      split.
      * intros x s A. apply bind_ok in A as (r2 & A1 & A). destruct (W1 _ A1) as (Q1 & Q2 & Q3). rewrite Q1 in A. injection A as <- <-. auto.
      * intros FT _. destruct W2 as (r2 & A1). { intros C. destruct (tel_first _ _ l' _ _ text _ _ _ C XL TE) as (_ & _ & Q). exists (true, said :: seen2). apply Q; auto. } rewrite A1, bind_Ok. destruct (W1' _ A1) as (-> & _). cbn [negb]. eexists. reflexivity.
  - destruct (beq (vi_ident i) (s! "ACDC")); [|discriminate]. apply bind_ok in H as (e & HE & H). apply bind_ok in H as (said & HS & H). apply bind_ok in H as (g & HG & H). rewrite HE, !bind_Ok, HS, !bind_Ok, HG, !bind_Ok.
    destruct g as [| | |value|]; try discriminate. apply bind_ok in H as ((ex & sn) & T & H). cbn [fst snd] in H.
    assert (sn = seen') as -> by (destruct ex; cbn [negb] in H; [congruence|]; apply bind_ok in H as (? & _ & H); apply bind_ok in H as (? & _ & H); congruence).
    assert (known canon l2 said) as KN.
    { destruct (TH _ _ _ T) as [(J & _)|(_ & C)]; [rewrite Forall_forall in F; apply (known_extends canon l); auto|]. apply exactly_accepted in C as (E & _). rewrite E in F2'. now inversion F2'. }
    assert (exists text, ex = false -> l' = insert_acdc l (d_raw e ++ text) /\ extends l' l2 /\ creder_with_raw canon (d_raw e ++ text) = Ok e) as (text & TE).
    { destruct ex; [exists []; discriminate|]. cbn [negb] in H. apply bind_ok in H as (event & HU & H). apply utf8_from in HU. subst event. apply bind_ok in H as (text & HT & H). injection H as <-.
      exists text. intros _. split; auto. split; auto. apply (read_on_creder canon raw); eauto. }
    destruct (TW said _ (fun s => verify_acdc canon hash cr mo schema_check age' f2 (view canon l2) e value (Some false) s) _ T eq_refl KN) as (W1 & _).
    { intros C. now destruct (acdc_first _ _ l' _ _ text _ _ _ said C XL HS TE). }
    { intros s (ex2 & s2) C C2. destruct (acdc_first _ _ l' _ _ text _ _ _ said C XL HS TE) as (_ & Q & _). now destruct (Q _ _ _ _ C2) as (-> & ->). }
    destruct (TW said _ (fun s => verify_acdc canon hash cr mo schema_check age' (S f2) (view canon l2) e value (Some false) s) _ T eq_refl KN) as (W1' & W2).
    { intros C. now destruct (acdc_first _ _ l' _ _ text _ _ _ said C XL HS TE). }
    { intros s (ex2 & s2) C C2. destruct (acdc_first _ _ l' _ _ text _ _ _ said C XL HS TE) as (_ & Q & _). now destruct (Q _ _ _ _ C2) as (-> & ->). }
    split.
    * intros x s A. apply bind_ok in A as (r2 & A1 & A). destruct (W1 _ A1) as (Q1 & Q2 & Q3). rewrite Q1 in A. injection A as <- <-. auto.
    * intros FT ST. destruct W2 as (r2 & A1). { intros C. destruct (acdc_first _ _ l' _ _ text _ _ _ said C XL HS TE) as (_ & _ & Q). exists (true, said :: seen2). apply Q; auto. exact (ST _ _ HE HS). } rewrite A1, bind_Ok. destruct (W1' _ A1) as (-> & _). cbn [negb]. eexists. reflexivity.
Qed.

Lemma lonely fuel deep verify l seen raw r : ingest_one canon hash cr mo group_text schema_check age seen_said fuel deep verify l seen raw None <> Ok r.
Proof.
  unfold ingest_one. intros H. apply bind_ok in H as (i & _ & H). cbv zeta in H. destruct (beq _ _) in H.
  - apply bind_ok in H as (e & _ & H). apply bind_ok in H as (s & _ & H). discriminate.
  - destruct (beq _ _) in H; [|discriminate]. apply bind_ok in H as (e & _ & H). apply bind_ok in H as (s & _ & H). discriminate.
Qed.
Lemma loop_again fuel verify : verify <> Some false -> forall k ms l seen l1, (length ms <= k)%nat -> ingest_loop canon hash cr mo group_text schema_check age seen_said (S fuel) (Some false) verify l seen ms = (l1, Ok tt) ->
  kept canon hash cr mo group_text schema_check age l -> Forall (known canon l) seen -> extends l1 l2 ->
  forall verify2 fuel2 seen2, Forall (known canon l2) seen2 -> (verify2 <> Some false -> incl seen seen2) ->
  let again f := ingest_loop canon hash cr mo group_text schema_check age' seen_said f (Some false) verify2 l2 seen2 ms in
  fst (again fuel2) = l2 /\ (fits -> (forall m, In m ms -> stands m) -> again (S fuel2) = (l2, Ok tt)).
Proof.
  intros NV. induction k as [|k IH]; intros ms l seen l1 L H K F X v2 f2 seen2 F2 IN; cbv zeta.
  - destruct ms; [|cbn in L; lia]. split; reflexivity.
  - destruct ms as [|[raw|g] ms]; cbn [ingest_loop] in *; [split; reflexivity| |discriminate]. destruct ms as [|m ms].
    { destruct (ingest_one _ _ _ _ _ _ _ _ _ _ _ _ _ _ _) as [r| |] eqn:O in H; try discriminate. now apply lonely in O. }
    destruct (ingest_one _ _ _ _ _ _ _ _ _ _ _ _ _ _ _) as [(l' & seen')| |] eqn:O in H; try discriminate. cbn [fst snd] in H.
    destruct (one_kept _ _ _ _ _ _ _ _ FA TX _ _ _ _ _ _ _ _ _ NV O K F) as (E1 & K1 & F1).
    destruct (loop_kept _ _ _ _ _ _ _ _ FA TX _ _ _ NV (length ms) ms l' seen' l1 (Ok tt) ltac:(lia) H K1 F1) as (E2 & _).
    assert (extends l' l2) as X' by now apply (extends_trans _ l1).
    destruct (one_again _ _ _ _ _ _ _ _ NV O K F X' v2 f2 seen2 F2 IN) as (A & _). destruct (one_again _ _ _ _ _ _ _ _ NV O K F X' v2 (S f2) seen2 F2 IN) as (A' & _). destruct (one_again _ _ _ _ _ _ _ _ NV O K F X' v2 f2 seen2 F2 IN) as (_ & B).
    split.
    + destruct (ingest_one _ _ _ _ _ _ _ _ f2 _ _ _ _ _ _) as [(x & s)| |] eqn:O2; [|reflexivity|reflexivity]. destruct (A _ _ eq_refl) as (-> & Q1 & Q2). cbn [fst snd]. apply (IH ms l' seen' l1); auto. cbn in L. lia.
    + intros FT ST. destruct B as ((x & s) & O2); auto. { apply ST. now left. } rewrite O2. destruct (A' _ _ O2) as (-> & Q1 & Q2). cbn [fst snd]. apply (IH ms l' seen' l1); auto; [cbn in L; lia|]. intros y Y. apply ST. right. now right.
Qed.
End Repeat.

(** A stream in which a credential is issued and then revoked. *)
Definition both (t : bytes) : R (list message) :=
  if beq t (s! "both") then let* a := lettered (s! "issued") in let* b := lettered (s! "revoked") in Ok (a ++ b) else lettered t.
Notation both_taken := (ingest_messages no_floats mix toy both own_letter accepts_all young (fun _ _ => true) 9 empty (s! "both") (Some false) None).
Lemma both_read : reads_back both own_letter.
Proof. intros g t H. unfold both. destruct (beq t (s! "both")) eqn:E; [|now apply own_read]. exfalso. apply beq_eq in E. subst t. unfold own_letter in H. destruct (find _ letters) as [(k, x)|] eqn:F; [|discriminate]. apply find_some in F as (F & _). cbn [letters In] in F. cbn [fst] in H. repeat (destruct F as [[= <- _]|F]; [discriminate|]). destruct F. Qed.
Lemma both_ok : snd both_taken = Ok tt.
Proof. vm_compute. reflexivity. Qed.
Lemma both_not : snd (ingest_messages no_floats mix toy both own_letter accepts_all young (fun _ _ => true) 9 (fst both_taken) (s! "both") (Some false) None) = Err EValidation.
Proof. vm_compute. reflexivity. Qed.
Notation issued_again := (ingest_messages no_floats mix toy lettered own_letter accepts_all young (fun _ _ => true) 9 empty (s! "issued") (Some false) None).
Lemma again_ok : snd issued_again = Ok tt.
Proof. vm_compute. reflexivity. Qed.

Lemma stood mo st said e g : sad_said e = Ok said -> is_ok (verify_acdc no_floats mix toy mo accepts_all young 1 st e g (Some false) []) = true -> standing no_floats young st said.
Proof.
  intros S H. destruct (verify_acdc _ _ _ _ _ _ _ _ _ _ _ _) as [(there, se)| |] eqn:V; try discriminate. apply exactly_accepted in V as (_ & said' & D & _). assert (sad_said e = Ok said') as S' by (destruct D as (a1 & a2 & a3 & a4 & a5 & a6 & a7 & a8 & D1 & D2 & _); exact D2).
  assert (said' = said) as -> by congruence. now apply due_standing in D.
Qed.
Lemma again_stands : standing no_floats young (view no_floats (fst issued_again)) csaid0.
Proof. apply (stood lettered _ csaid0 cred0 [GPaths [csigs0]]); vm_compute; reflexivity. Qed.

(*# C172_taken_in_again_changes_nothing
   A stream that was once taken in to its end, with verification on, is never stored a second time. Whoever presents it again, to the same store as it is then or as it has become after anything else was added, with
   verification on or off and at any later time, changes nothing in it: whether the second time ends well, in an error or in a panic. Both times the stored events are trusted.
##
Example C172_nothing_case : sized_hash mix /\ finds_all no_floats (fun _ _ => true) /\ textual own_letter /\ snd both_taken = Ok tt /\ length (l_kel (fst both_taken) pre0) = 4%nat /\
  length (l_tel (fst both_taken) csaid0) = 2%nat /\ length (l_acdc (fst both_taken)) = 1%nat.
Proof. split; [exact mix_sized|]. split; [intros l said _; reflexivity|]. split; [exact own_textual|]. split; [exact both_ok|]. split; [vm_compute; reflexivity|]. split; vm_compute; reflexivity. Qed.
#*)
Lemma C172_l (canon : bytes -> option bytes) (hash : bytes -> bytes -> bytes) (cr : crypto) (messages_of : bytes -> R (list message)) (group_text : group -> R bytes)
    (schema_check : bytes -> bytes -> R bool) (age : bytes -> R Z) (seen_said : ledger -> bytes -> bool) (fuel : nat) (l l1 : ledger) (stream : bytes) (verify : option bool)
    (l2 : ledger) (age' : bytes -> R Z) (fuel' : nat) (verify' : option bool) :
  sized_hash hash -> finds_all canon seen_said -> textual group_text -> reached canon hash cr messages_of group_text schema_check age seen_said l -> verify <> Some false ->
  ingest_messages canon hash cr messages_of group_text schema_check age seen_said fuel l stream (Some false) verify = (l1, Ok tt) -> extends l1 l2 ->
  fst (ingest_messages canon hash cr messages_of group_text schema_check age' seen_said fuel' l2 stream (Some false) verify') = l2.
Proof.
  intros SH FA TX RE NV H X. apply (reached_kept _ _ _ _ _ _ _ _ FA TX) in RE. unfold ingest_messages in *. destruct (messages_of stream) as [ms| |]; [|reflexivity|reflexivity].
  destruct fuel as [|fuel].
  - destruct ms as [|[raw|g] ms]; [reflexivity| |discriminate]. cbn [ingest_loop] in H. destruct ms as [|m ms]. { destruct (ingest_one _ _ _ _ _ _ _ _ _ _ _ _ _ _ _) as [r| |] eqn:O in H; try discriminate. now apply lonely in O. }
    exfalso. destruct (ingest_one _ _ _ _ _ _ _ _ _ _ _ _ _ _ _) as [r| |] eqn:O in H; try discriminate. unfold ingest_one in O. assert (or_else verify true = true) as OV by (destruct verify as [[|]|]; auto; congruence).
    assert (forall said c, c (said :: []) = Err EForeign \/ c (said :: []) = Panic -> forall x, there seen_said l verify said [] c <> Ok x) as TH. { intros said c C x. unfold there. rewrite OV. cbn. destruct C as [-> | ->]; discriminate. }
    apply bind_ok in O as (i & _ & O). cbv zeta in O. destruct (beq _ _) in O.
    + apply bind_ok in O as (e & _ & O). apply bind_ok in O as (s & _ & O). apply bind_ok in O as (g & _ & O). apply bind_ok in O as (ilk & _ & O).
      destruct (has_code [s! "icp"; s! "rot"; s! "ixn"] ilk) in O; [|destruct (has_code [s! "vcp"; s! "iss"; s! "rev"] ilk) in O; [|discriminate]]; destruct g; try discriminate; apply bind_ok in O as (x & O & _); revert O; apply TH; cbn; auto.
    + destruct (beq _ _) in O; [|discriminate]. apply bind_ok in O as (e & _ & O). apply bind_ok in O as (s & _ & O). apply bind_ok in O as (g & _ & O). destruct g; try discriminate. apply bind_ok in O as (x & O & _). revert O. apply TH. cbn. auto.
  - now apply (loop_again canon hash cr messages_of group_text schema_check age seen_said SH FA TX l2 age' fuel verify NV (length ms) ms l [] l1 (le_n _) H RE (Forall_nil _) X verify' fuel' [] (Forall_nil _) (fun _ _ J => J)).
Qed.

Lemma straight canon hash cr mo group_text schema_check age seen_said fuel stream x : sized_hash hash -> finds_all canon seen_said -> textual group_text ->
  snd (ingest_messages canon hash cr mo group_text schema_check age seen_said fuel empty stream (Some false) None) = Ok tt ->
  snd (ingest_messages canon hash cr mo group_text schema_check age seen_said fuel (fst (ingest_messages canon hash cr mo group_text schema_check age seen_said fuel empty stream (Some false) None)) stream (Some false) None) = x ->
  exists l1, ingest_messages canon hash cr mo group_text schema_check age seen_said fuel empty stream (Some false) None = (l1, Ok tt) /\
    ingest_messages canon hash cr mo group_text schema_check age seen_said fuel l1 stream (Some false) None = (l1, x).
Proof.
  intros SH FA TX. destruct (ingest_messages _ _ _ _ _ _ _ _ _ empty _ _ _) as (l1 & r) eqn:E. cbn [fst snd]. intros -> B. exists l1. split; auto. apply paired; auto.
  apply (C172_l canon hash cr mo group_text schema_check age seen_said fuel empty l1 stream None l1 age fuel None SH FA TX (reached_empty _ _ _ _ _ _ _ _) ltac:(discriminate) E (extends_refl _)).
Qed.

(*# C172_taken_in_again_succeeds_refuted
   A stream that was taken in to its end need not be taken in again, not even straight away: if a credential is issued and revoked in it, it passes the first time and fails the second, at the credential, which
   has by then been revoked. What follows the credential in the stream is not looked at.
##
Example C172_refuted_case : snd both_taken = Ok tt /\ snd (ingest_messages no_floats mix toy both own_letter accepts_all young (fun _ _ => true) 9 (fst both_taken) (s! "both") (Some false) None) = Err EValidation.
Proof. exact (conj both_ok both_not). Qed.
#*)
Lemma C172_refuted_l : exists canon hash cr messages_of group_text schema_check age seen_said fuel l1 stream,
  sized_hash hash /\ finds_all canon seen_said /\ textual group_text /\ reads_back messages_of group_text /\
  ingest_messages canon hash cr messages_of group_text schema_check age seen_said fuel empty stream (Some false) None = (l1, Ok tt) /\
  ingest_messages canon hash cr messages_of group_text schema_check age seen_said fuel l1 stream (Some false) None = (l1, Err EValidation).
Proof.
  pose proof both_ok as B1. pose proof both_not as B2.  assert (finds_all no_floats (fun _ _ => true)) as FA by (intros l said _; reflexivity).
  destruct (straight _ _ _ _ _ _ _ _ _ _ _ mix_sized FA own_textual B1 B2) as (l1 & E1 & E2). exists no_floats, mix, toy, both, own_letter, accepts_all, young, (fun _ _ => true), 9%nat, l1, (s! "both").
  split; [exact mix_sized|]. split; [exact FA|]. split; [exact own_textual|]. split; [exact both_read|]. exact (conj E1 E2).
Qed.

(*# C172_taken_in_again_succeeds_partial
   Nothing else stands in the way. If every credential in the stream is in good standing, at the later time and in the later store, the stream is taken in again to its end and changes nothing. In particular this holds of
   every stream without credentials. The logs of the later store are assumed to be no longer than 2^32 events.
##
Example C172_partial_case : sized_hash mix /\ finds_all no_floats (fun _ _ => true) /\ textual own_letter /\ snd issued_again = Ok tt /\
  snd (ingest_messages no_floats mix toy lettered own_letter accepts_all young (fun _ _ => true) 9 (fst issued_again) (s! "issued") (Some false) None) = Ok tt /\ length (l_acdc (fst issued_again)) = 1%nat /\
  standing no_floats young (view no_floats (fst issued_again)) csaid0.
Proof. split; [exact mix_sized|]. split; [intros l said _; reflexivity|]. split; [exact own_textual|]. split; [exact again_ok|]. split; [vm_compute; reflexivity|]. split; [vm_compute; reflexivity|exact again_stands]. Qed.
#*)
Lemma C172_partial_l (canon : bytes -> option bytes) (hash : bytes -> bytes -> bytes) (cr : crypto) (messages_of : bytes -> R (list message)) (group_text : group -> R bytes)
    (schema_check : bytes -> bytes -> R bool) (age : bytes -> R Z) (seen_said : ledger -> bytes -> bool) (fuel : nat) (l l1 : ledger) (stream : bytes) (verify : option bool)
    (l2 : ledger) (age' : bytes -> R Z) (fuel' : nat) (verify' : option bool) :
  sized_hash hash -> finds_all canon seen_said -> textual group_text -> reached canon hash cr messages_of group_text schema_check age seen_said l -> verify <> Some false ->
  ingest_messages canon hash cr messages_of group_text schema_check age seen_said (S fuel) l stream (Some false) verify = (l1, Ok tt) -> extends l1 l2 ->
  reached canon hash cr messages_of group_text schema_check age seen_said l2 -> (forall pre, len (l_kel l2 pre) <= 2 ^ 32) -> (forall pre, len (l_tel l2 pre) <= 2 ^ 32) ->
  (forall ms raw c said, messages_of stream = Ok ms -> In (MPayload raw) ms -> creder_with_raw canon raw = Ok c -> sad_said c = Ok said -> standing canon age' (view canon l2) said) ->
  ingest_messages canon hash cr messages_of group_text schema_check age' seen_said (S fuel') l2 stream (Some false) verify' = (l2, Ok tt).
Proof.
  intros SH FA TX RE NV H X R2 B1 B2 ST. apply (reached_kept _ _ _ _ _ _ _ _ FA TX) in RE. unfold ingest_messages in *. destruct (messages_of stream) as [ms| |]; [|discriminate|discriminate].
  apply (loop_again canon hash cr messages_of group_text schema_check age seen_said SH FA TX l2 age' fuel verify NV (length ms) ms l [] l1 (le_n _) H RE (Forall_nil _) X verify' fuel' [] (Forall_nil _) (fun _ _ J => J)); [split; auto|].
  intros [raw|g] M; [|exact I]. intros c said C S. exact (ST ms raw c said eq_refl M C S).
Qed.
