(** Property C175: where two logs of one identifier part, both were signed with the same keys. *)
From Coq Require Import String.
From Coq Require Import NArith ZArith QArith Bool List Lia.
From Verif Require Import Base Util Tables Matter Indexer Counter Prims Json Tholder Common Saider Diger Sadder Signer Prefixer Pather Messaging Short Verify Ingest Events.
From Verif Require Import Spec SpecPrims SpecJson SpecCommon SpecTholder SpecSaider SpecSadder SpecPrefixer SpecSigner SpecLog SpecIngest SpecFork World.
From Verif Require Import BaseFacts SadderFacts SaiderFacts VerifyFacts VerifyThms LogThms IngestThms.
Import ListNotations.
Open Scope N_scope.

(** ** Events with the same fields *)
Definition agree (a b : sadder) : Prop := exists m1 m2, d_ked a = VObj m1 /\ d_ked b = VObj m2 /\ forall k, k <> s! "d" -> k <> s! "v" -> assoc k m1 = assoc k m2.
Lemma without_agree m1 m2 : without [s! "d"] m1 = without [s! "d"] m2 -> forall k, k <> s! "d" -> assoc k m1 = assoc k m2.
Proof.
  intros W k N. destruct (assoc k m1) as [x|] eqn:A.
  - apply field_assoc in A. apply (kept_field _ _ _ _ W N) in A. apply field_assoc in A. congruence.
  - destruct (assoc k m2) as [x|] eqn:B; [|reflexivity]. apply field_assoc in B. apply (kept_field _ _ _ _ (eq_sym W) N) in B. apply field_assoc in B. congruence.
Qed.
Lemma agree_keys canon a b : agree a b -> same_keys canon a b.
Proof.
  intros (m1 & m2 & A & B & K). unfold same_keys, serder_verfers, serder_tholder, serder_digers, serder_ntholder, threshold_at, contains_key. rewrite A, B. cbn [to_map index_str]. rewrite !bind_Ok.
  rewrite (K (s! "k")), (K (s! "kt")), (K (s! "n")), (K (s! "nt")) by discriminate. split; [reflexivity|]. split; [reflexivity|]. split; reflexivity.
Qed.
Definition both_read canon (t1 t2 : bytes) : Prop := exists a b, serder_with_raw canon t1 = Ok a /\ serder_with_raw canon t2 = Ok b /\ agree a b.
Lemma both_establish canon t1 t2 : both_read canon t1 t2 -> establishes canon t1 = establishes canon t2.
Proof.
  intros (a & b & A & B & (m1 & m2 & M1 & M2 & K)). unfold establishes, serder_est. rewrite A, B, M1, M2. cbn [index_str]. now rewrite (K (s! "t") ltac:(discriminate) ltac:(discriminate)).
Qed.
Lemma both_last canon l1 l2 : Forall2 (both_read canon) l1 l2 -> forall t1, last_of (establishes canon) l1 = Ok t1 -> exists t2, last_of (establishes canon) l2 = Ok t2 /\ both_read canon t1 t2.
Proof.
  induction 1 as [|x y l1 l2 B F IH]; intros t1 L; cbn [last_of] in *; [discriminate|]. destruct (last_of (establishes canon) l1) as [z|e|] eqn:E.
  - injection L as <-. destruct (IH z eq_refl) as (t2 & -> & R). eauto.
  - assert (forall t, last_of (establishes canon) l2 <> Ok t) as N.
    { intros t X. clear - F X E IH. assert (Forall2 (both_read canon) l1 l2 -> forall r, last_of (establishes canon) l1 = Err r -> last_of (establishes canon) l2 = Ok t -> False) as K; [|now apply (K F e)].
      clear. induction 1 as [|x y l1 l2 B F IH]; intros r A Z; cbn [last_of] in *; [discriminate|]. destruct (last_of (establishes canon) l1) as [z|q|] eqn:E; [discriminate| |].
      - destruct (last_of (establishes canon) l2) as [w|q'|] eqn:E2; [injection Z as <-; now apply (IH q)|..]; rewrite <- (both_establish _ _ _ B) in Z; destruct (establishes canon x); discriminate.
      - clear - E. exfalso. induction l1 as [|u l1 IH]; cbn [last_of] in E; [discriminate|]. destruct (last_of (establishes canon) l1); try discriminate; destruct (establishes canon u); discriminate. }
    rewrite <- (both_establish _ _ _ B). destruct (establishes canon x); [injection L as <-|discriminate]. exists y. split; [|exact B]. destruct (last_of (establishes canon) l2) as [w| |]; [now elim (N w)|reflexivity..].
  - exfalso. clear - E. induction l1 as [|u l1 IH]; cbn [last_of] in E; [discriminate|]. destruct (last_of (establishes canon) l1); try discriminate; destruct (establishes canon u); discriminate.
Qed.
Lemma last_ends canon (l : list bytes) t : establishes canon t = true -> last_of (establishes canon) (l ++ [t]) = Ok t.
Proof. intros E. induction l as [|u l IH]; cbn [app last_of]; [now rewrite E|now rewrite IH]. Qed.

(** ** One log *)
Lemma number_below n : N.of_nat (Datatypes.S n) < 2 ^ 32 -> asked_for (N.of_nat (Datatypes.S n)) - 1 = N.of_nat n.
Proof. intros L. unfold asked_for. rewrite N.mod_small by exact L. lia. Qed.
Lemma type_once v t u : of_type v t -> of_type v u -> t = u.
Proof. unfold of_type. intros A B. apply index_field in A, B. congruence. Qed.
Lemma firstn_again {A} n (l : list A) : firstn n (firstn n l) = firstn n l.
Proof. rewrite firstn_firstn. f_equal. lia. Qed.
Lemma one_side canon hash cr messages_of group_text schema_check age seen_said l pre n text :
  sized_hash hash -> finds_all canon seen_said -> textual group_text -> reached canon hash cr messages_of group_text schema_check age seen_said l ->
  nth_error (l_kel l pre) (Datatypes.S n) = Some text -> N.of_nat (Datatypes.S n) < 2 ^ 32 ->
  exists e g rest a ta, text = d_raw e ++ rest /\ group_text (GQuadlets g) = Ok rest /\ serder_with_raw canon text = Ok e /\
    last_of (establishes canon) (firstn (Datatypes.S n) (l_kel l pre)) = Ok ta /\ serder_with_raw canon ta = Ok a /\ continued canon hash cr a e g.
Proof.
  intros SH FA TX RE NT L. destruct (C126_l _ _ _ _ _ _ _ _ _ _ _ _ FA TX RE NT) as (l0 & e & g & rest & X & K & T & G & R & I & O & V).
  assert (forall p m, field_of (d_ked e) (s! "i") (VStr p) -> ordinal (d_ked e) m -> p = pre /\ m = N.of_nat (Datatypes.S n)) as SAME.
  { intros p m F M. apply index_field in F, I. split; [congruence|]. apply sn_field in M, O. congruence. }
  assert (forall a, established canon (view canon l0) pre (asked_for (N.of_nat (Datatypes.S n)) - 1) a ->
    exists ta, last_of (establishes canon) (firstn (Datatypes.S n) (l_kel l pre)) = Ok ta /\ serder_with_raw canon ta = Ok a) as EST.
  { intros a (ta & E & RA). rewrite (number_below _ L) in E. cbn [view get_latest_establishment_event_as_of_sn] in E. rewrite Nat2N.id, K, firstn_again in E. eauto. }
  destruct (C120_l _ _ _ _ _ _ _ _ _ _ _ _ V) as (p' & n' & s' & ilk & labels & count & A1 & A2 & _ & A4 & A5 & _ & _ & _ & _ & _ & A6 & _). destruct (SAME _ _ A1 A2) as (-> & ->).
  assert (ilk = s! "rot" \/ ilk = s! "ixn") as [->| ->].
  { cbn in A5. destruct A5 as [A5|[A5|[A5|[]]]]; injection A5 as <- _; auto. destruct (A6 eq_refl) as (Z & _). lia. }
  - destruct (C122_l _ _ _ _ _ _ _ _ _ _ _ _ SH V A4) as (p & m & keys & t & sigs & good & e' & digests & nt & shown & B1 & B2 & B3 & B4 & B5 & B6 & B7 & B8 & B9 & _ & B10). destruct (SAME _ _ B1 B2) as (-> & ->).
    destruct B3 as (ilk' & ee & C1 & C2 & C3 & _). pose proof (type_once _ _ _ C1 A4) as ->. destruct C2 as [(_ & ->)|(C2 & _)]; [|elim C2; cbn; tauto].
    assert (exists ta, last_of (establishes canon) (firstn (Datatypes.S n) (l_kel l pre)) = Ok ta /\ serder_with_raw canon ta = Ok e') as (ta & T1 & T2).
    { destruct B6 as (before & said & ilk & D1 & D2 & [(D3 & ->)|(_ & D3)]); [|now apply EST]. destruct D1 as (tb & D1 & D4 & _). rewrite (number_below _ L) in D1. cbn [view get_key_event] in D1. unfold at_sn in D1.
      rewrite Nat2N.id, K in D1. destruct (nth_error (firstn (Datatypes.S n) (l_kel l pre)) n) as [q|] eqn:Q; [|discriminate]. injection D1 as ->. exists tb. split; auto.
      assert (establishes canon tb = true) as ES.
      { unfold establishes, serder_est. rewrite D4. apply index_field in D2. rewrite D2, bind_Ok. cbn [to_string]. rewrite bind_Ok. cbn in D3. repeat destruct D3 as [<-|D3]; try reflexivity. contradiction. }
      assert (firstn (Datatypes.S n) (l_kel l pre) = firstn n (l_kel l pre) ++ [tb]) as ->; [|now apply last_ends].
      clear - Q. revert n Q. induction (l_kel l pre) as [|u w IH]; intros [|n] Q; try discriminate Q; [cbn in *; congruence|]. change (firstn (Datatypes.S (Datatypes.S n)) (u :: w)) with (u :: firstn (Datatypes.S n) w) in *.
      cbn [nth_error] in Q. cbn [firstn app]. f_equal. apply IH. exact Q. }
    exists e, g, rest, e', ta. split; auto. split; auto. split; auto. split; auto. split; auto. exists sigs. split; auto. right. split; auto. exists keys, good, digests, nt, shown. repeat (split; [assumption|]). exact B10.
  - destruct (C121_partial_l _ _ _ _ _ _ _ _ _ _ _ _ V) as (p & m & keys & t & sigs & good & B1 & B2 & B3 & B4 & B5 & B6 & _). destruct (SAME _ _ B1 B2) as (-> & ->).
    destruct B3 as (ilk' & ee & C1 & C2 & C3 & C4). pose proof (type_once _ _ _ C1 A4) as ->. destruct C2 as [(C2 & _)|(_ & C2)]; [cbn in C2; exfalso; clear - C2; repeat destruct C2 as [C2|C2]; try discriminate C2; exact C2|].
    destruct (EST _ C2) as (ta & T1 & T2). exists e, g, rest, ee, ta. split; auto. split; auto. split; auto. split; auto. split; auto. exists sigs. split; auto. left. split; auto. exists keys, t, good. auto.
Qed.

(** ** Two logs *)
(*# C175_forks_are_signed_by_the_same_keys
   Two ledgers were made by taking in streams, by two parties. Their logs for an identifier have the same event under a number, by its identifier. Then, whatever events follow it in the two logs, the last events before
   them that set keys set the same ones, and each of the two was signed with what these set: an interaction with enough of the signing keys, a rotation with enough of the keys announced for next. So if the two events
   differ, both were signed for by the same controller; or Blake3 has a collision. Inceptions begin with their version string, there are no floats, and numbers are below 2^32.
##
Example C175_case : exists l1 l2 e1 e2, l_kel l1 pre0 <> l_kel l2 pre0 /\ (exists t1 t2, nth_error (l_kel l1 pre0) 1 = Some t1 /\ nth_error (l_kel l2 pre0) 1 = Some t2 /\ serder_with_raw no_floats t1 = Ok e1 /\ serder_with_raw no_floats t2 = Ok e2) /\
  of_type (d_ked e1) (s! "rot") /\ of_type (d_ked e2) (s! "ixn") /\ (exists t1 t2, nth_error (l_kel l1 pre0) 0 = Some t1 /\ nth_error (l_kel l2 pre0) 0 = Some t2 /\ serder_with_raw no_floats t1 = serder_with_raw no_floats t2) /\
  reached no_floats mix toy streams sigs_text (fun _ _ => Ok true) (fun _ => Ok 0%Z) (fun _ _ => true) l1 /\ reached no_floats mix toy lettered letter_of (fun _ _ => Ok true) (fun _ => Ok 0%Z) (fun _ _ => true) l2.
Proof.
  exists (fst (ingest_messages no_floats mix toy streams sigs_text (fun _ _ => Ok true) (fun _ => Ok 0%Z) (fun _ _ => true) 9 empty (s! "log") (Some false) None)),
    (fst (ingest_messages no_floats mix toy lettered letter_of (fun _ _ => Ok true) (fun _ => Ok 0%Z) (fun _ _ => true) 9 empty (s! "issued") (Some false) None)), event1, anchor1.
  split; [intros X; apply (f_equal (fun l => nth_error l 1)) in X; vm_compute in X; discriminate X|]. split; [do 2 eexists; split; [vm_compute; reflexivity|]; split; [vm_compute; reflexivity|]; split; [vm_compute; reflexivity|]; vm_compute; reflexivity|].
  split; [apply index_field; vm_compute; reflexivity|]. split; [apply index_field; vm_compute; reflexivity|]. split; [do 2 eexists; split; [vm_compute; reflexivity|]; split; [vm_compute; reflexivity|]; vm_compute; reflexivity|].
  split; (eapply reached_more; [apply reached_empty| |apply surjective_pairing]); discriminate.
Qed.
#*)
Lemma C175_l (canon : bytes -> option bytes) (hash : bytes -> bytes -> bytes) (cr1 cr2 : crypto) (messages_of1 messages_of2 : bytes -> R (list message)) (group_text1 group_text2 : group -> R bytes)
    (schema_check1 schema_check2 : bytes -> bytes -> R bool) (age1 age2 : bytes -> R Z) (seen_said1 seen_said2 : ledger -> bytes -> bool) (l1 l2 : ledger) (pre : bytes) :
  sized_hash hash -> finds_all canon seen_said1 -> finds_all canon seen_said2 -> textual group_text1 -> textual group_text2 ->
  reached canon hash cr1 messages_of1 group_text1 schema_check1 age1 seen_said1 l1 -> reached canon hash cr2 messages_of2 group_text2 schema_check2 age2 seen_said2 l2 ->
  (forall text e, In text (l_kel l1 pre) \/ In text (l_kel l2 pre) -> serder_with_raw canon text = Ok e -> float_free (d_ked e)) ->
  (forall text e, nth_error (l_kel l1 pre) 0 = Some text \/ nth_error (l_kel l2 pre) 0 = Some text -> serder_with_raw canon text = Ok e -> exists vs m, d_ked e = VObj ((s! "v", VStr vs) :: m)) ->
  forall (n : nat) (text1 text2 next1 next2 : bytes) (e1 e2 : sadder) (said : bytes), N.of_nat (Datatypes.S n) < 2 ^ 32 ->
  nth_error (l_kel l1 pre) n = Some text1 -> nth_error (l_kel l2 pre) n = Some text2 -> serder_with_raw canon text1 = Ok e1 -> serder_with_raw canon text2 = Ok e2 -> sad_said e1 = Ok said -> sad_said e2 = Ok said ->
  nth_error (l_kel l1 pre) (Datatypes.S n) = Some next1 -> nth_error (l_kel l2 pre) (Datatypes.S n) = Some next2 ->
  (exists a1 a2 f1 f2 g1 g2 rest1 rest2, established canon (view canon l1) pre (N.of_nat n) a1 /\ established canon (view canon l2) pre (N.of_nat n) a2 /\ same_keys canon a1 a2 /\
     serder_with_raw canon next1 = Ok f1 /\ next1 = d_raw f1 ++ rest1 /\ group_text1 (GQuadlets g1) = Ok rest1 /\ continued canon hash cr1 a1 f1 g1 /\
     serder_with_raw canon next2 = Ok f2 /\ next2 = d_raw f2 ++ rest2 /\ group_text2 (GQuadlets g2) = Ok rest2 /\ continued canon hash cr2 a2 f2 g2) \/
  collision hash (s! "E").
Proof.
  intros SH FA1 FA2 TX1 TX2 RE1 RE2 FF LV n text1 text2 next1 next2 e1 e2 said L N1 N2 R1 R2 S1 S2 M1 M2.
  destruct (C128_l canon hash cr1 cr2 messages_of1 messages_of2 group_text1 group_text2 schema_check1 schema_check2 age1 age2 seen_said1 seen_said2 l1 l2 pre SH FA1 FA2 TX1 TX2 RE1 RE2 FF n text1 text2 e1 e2 said ltac:(lia) N1 N2 R1 R2 S1 S2) as [H|H]; [left|now right].
  destruct (one_side _ _ _ _ _ _ _ _ _ _ _ _ SH FA1 TX1 RE1 M1 L) as (f1 & g1 & rest1 & a1 & ta1 & A1 & A2 & A3 & A4 & A5 & A6).
  destruct (one_side _ _ _ _ _ _ _ _ _ _ _ _ SH FA2 TX2 RE2 M2 L) as (f2 & g2 & rest2 & a2 & ta2 & B1 & B2 & B3 & B4 & B5 & B6).
  assert (Forall2 (both_read canon) (firstn (Datatypes.S n) (l_kel l1 pre)) (firstn (Datatypes.S n) (l_kel l2 pre))) as F.
  { assert (forall m, (m <= n)%nat -> exists t1 t2, nth_error (l_kel l1 pre) m = Some t1 /\ nth_error (l_kel l2 pre) m = Some t2 /\ both_read canon t1 t2) as K.
    { intros m LM. destruct (H m LM) as (t1 & t2 & c1 & c2 & sd & C1 & C2 & C3 & C4 & C5 & C6 & C7 & C8). exists t1, t2. split; auto. split; auto. exists c1, c2. split; auto. split; auto.
      destruct (Nat.eq_dec m 0) as [->|NZ].
      - destruct (LV t1 c1 (or_introl C1) C3) as (vs1 & m1 & D1). destruct (LV t2 c2 (or_intror C2) C4) as (vs2 & m2 & D2). pose proof (without_agree _ _ (C8 _ _ _ _ eq_refl D1 D2)) as W.
        exists ((s! "v", VStr vs1) :: m1), ((s! "v", VStr vs2) :: m2). split; auto. split; auto. intros k X Y. cbn [assoc]. destruct (beq (s! "v") k) eqn:B; [apply beq_eq in B; now elim Y|]. rewrite ?B. now apply W.
      - assert (forall raw e, serder_with_raw canon raw = Ok e -> exists m, d_ked e = VObj m) as OB. { intros raw e R. destruct (read_said _ _ _ R) as (t & Q & _). now destruct Q as (a & b & E & _); eauto. }
        destruct (OB _ _ C3) as (m1 & D1). destruct (OB _ _ C4) as (m2 & D2). exists m1, m2. split; auto. split; auto. intros k X Y. apply without_agree; auto. apply C7; auto. lia. }
    clear - K. revert n K. generalize (l_kel l1 pre) (l_kel l2 pre). intros u. induction u as [|x u IH]; intros w n K; [destruct (K 0%nat ltac:(lia)) as (? & ? & X & _); discriminate X|].
    destruct w as [|y w]; [destruct (K 0%nat ltac:(lia)) as (? & ? & _ & X & _); discriminate X|]. cbn [firstn]. constructor.
    - destruct (K 0%nat ltac:(lia)) as (? & ? & X & Y & Z). cbn in X, Y. congruence.
    - destruct n as [|n]; [constructor|]. apply IH. intros m LM. apply (K (Datatypes.S m)). lia. }
  destruct (both_last _ _ _ F _ A4) as (t2 & T & (b1 & b2 & E1 & E2 & AG)). assert (t2 = ta2) as -> by congruence. assert (b1 = a1) as -> by congruence. assert (b2 = a2) as -> by congruence.
  exists a1, a2, f1, f2, g1, g2, rest1, rest2. split; [exists ta1; cbn [view get_latest_establishment_event_as_of_sn]; rewrite Nat2N.id; split; assumption|]. split; [exists ta2; cbn [view get_latest_establishment_event_as_of_sn]; rewrite Nat2N.id; split; assumption|].
  split; [now apply agree_keys|]. repeat (split; [assumption|]). exact B6.
Qed.
(*# C175_logs_begin_alike
   Two logs for one identifier begin with the same event, by its identifier: it is the identifier they are for. So logs can part only after a common beginning, and the theorem before is about all the ways in which they can.
##
Example C175_alike_case : exists l text e, nth_error (l_kel l pre0) 0 = Some text /\ serder_with_raw no_floats text = Ok e /\ reached no_floats mix toy lettered letter_of (fun _ _ => Ok true) (fun _ => Ok 0%Z) (fun _ _ => true) l.
Proof.
  exists (fst (ingest_messages no_floats mix toy lettered letter_of (fun _ _ => Ok true) (fun _ => Ok 0%Z) (fun _ _ => true) 9 empty (s! "issued") (Some false) None)). do 2 eexists.
  split; [vm_compute; reflexivity|]. split; [vm_compute; reflexivity|]. eapply reached_more; [apply reached_empty| |apply surjective_pairing]; discriminate.
Qed.
#*)
Lemma C175_begin_l (canon : bytes -> option bytes) (hash : bytes -> bytes -> bytes) (cr : crypto) (messages_of : bytes -> R (list message)) (group_text : group -> R bytes)
    (schema_check : bytes -> bytes -> R bool) (age : bytes -> R Z) (seen_said : ledger -> bytes -> bool) (l : ledger) (pre text : bytes) (e : sadder) :
  finds_all canon seen_said -> textual group_text -> reached canon hash cr messages_of group_text schema_check age seen_said l ->
  nth_error (l_kel l pre) 0 = Some text -> serder_with_raw canon text = Ok e -> sad_said e = Ok pre /\ of_type (d_ked e) (s! "icp").
Proof.
  intros FA TX RE NT RD. destruct (C126_l _ _ _ _ _ _ _ _ _ _ _ _ FA TX RE NT) as (l0 & e' & g & rest & X & K & T & G & R & I & O & V). assert (e' = e) as -> by congruence.
  destruct (C120_l _ _ _ _ _ _ _ _ _ _ _ _ V) as (p' & n' & s' & ilk & labels & count & A1 & A2 & A3 & A4 & A5 & _ & _ & _ & _ & _ & A6 & A7). apply sn_field in A2, O. change (N.of_nat 0) with 0 in O. assert (n' = 0) as -> by congruence.
  apply index_field in A1, I. assert (p' = pre) as -> by congruence. destruct (beq ilk (s! "icp")) eqn:B.
  - apply beq_eq in B as ->. destruct (A6 eq_refl) as (_ & ->). split; auto.
  - exfalso. destruct A7 as (A7 & _); [intros ->; rewrite beq_refl in B; discriminate|]. vm_compute in A7. now elim A7.
Qed.
