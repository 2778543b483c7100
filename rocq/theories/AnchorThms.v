(** Property C177: one key event anchors at most one registry event. *)
From Coq Require Import String.
From Coq Require Import NArith ZArith QArith Bool List Lia.
From Verif Require Import Base Util Tables Matter Indexer Counter Prims Json Tholder Common Saider Diger Sadder Signer Prefixer Pather Messaging Short Verify Ingest Events.
From Verif Require Import Spec SpecPrims SpecJson SpecCommon SpecTholder SpecSaider SpecSadder SpecPrefixer SpecSigner SpecLog SpecIngest SpecCred SpecAgain SpecAnchor World.
From Verif Require Import BaseFacts SadderFacts SaiderFacts VerifyFacts VerifyThms LogThms IngestThms CredThms LifeThms FollowFacts AgainThms.
Import ListNotations.
Open Scope N_scope.

Lemma Forall2_len {A B} {P : A -> B -> Prop} {a b} : Forall2 P a b -> length a = length b.
Proof. induction 1; cbn; congruence. Qed.
Lemma field_str v k a b : field_of v k (VStr a) -> field_of v k (VStr b) -> a = b.
Proof. intros A B. pose proof (field_unique _ _ _ _ A B) as E. now injection E. Qed.
Lemma owned_unique canon st e a b : owned canon st e a -> owned canon st e b -> a = b.
Proof.
  intros [(T & A)|(T & r & e0 & R & (x & X & X') & A)] [(T' & A')|(T' & r' & e0' & R' & (x' & X2 & X2') & A')].
  - now apply (field_str _ _ _ _ A).
  - exfalso. destruct T' as [T'|T']; pose proof (field_str _ _ _ _ T T'); discriminate.
  - exfalso. destruct T as [T|T]; pose proof (field_str _ _ _ _ T T'); discriminate.
  - pose proof (field_str _ _ _ _ R R'). subst r'. assert (e0 = e0') as <- by congruence. now apply (field_str _ _ _ _ A).
Qed.
Lemma sealed_unique v pre number said pre' number' said' : sealed v pre number said -> sealed v pre' number' said' -> pre = pre' /\ number = number' /\ said = said'.
Proof.
  intros (x & X & A & B & C) (y & Y & A' & B' & C'). pose proof (field_unique _ _ _ _ X Y) as E. injection E as <-. split; [now apply (field_str _ _ _ _ A)|]. split; [now apply (field_str _ _ _ _ B)|now apply (field_str _ _ _ _ C)].
Qed.
Lemma number_ordinal (a b : sadder) h n m : field_of (d_ked a) (s! "s") (VStr h) -> field_of (d_ked b) (s! "s") (VStr h) -> ordinal (d_ked a) n -> ordinal (d_ked b) m -> n = m.
Proof.
  intros A B N (h' & B' & M). pose proof (field_str _ _ _ _ B B'). subst h'. apply sn_field in N. assert (serder_sn a = Ok m) by (apply sn_field; exists h; auto). congruence.
Qed.

(*# C177_one_registry_event_for_each_anchor
   Two registry events, both accepted, whose registries have one owner and whose couples have the same number, are the same event: they have the same prefix, number and identifier.
##
Example C177_one_case : let l := view no_floats revoked_ledger in
  verify_transaction_event no_floats mix toy lettered 9 l iss0 [couple 2 anchor2] (Some false) [] = Ok (true, []) /\ verify_transaction_event no_floats mix toy lettered 9 l rev0 [couple 3 anchor3] (Some false) [] = Ok (true, []) /\
  verify_transaction_event no_floats mix toy lettered 9 l rev0 [couple 2 anchor2] (Some false) [] = Err EVerification.
Proof. split; [vm_compute; reflexivity|]. split; vm_compute; reflexivity. Qed.
#*)
Lemma C177_one_l (canon : bytes -> option bytes) (hash : bytes -> bytes -> bytes) (cr1 cr2 : crypto) (messages_of1 messages_of2 : bytes -> R (list message)) (fuel1 fuel2 : nat) (st : store) (e1 e2 : sadder)
    (seqner1 saider1 seqner2 saider2 : matter) (deep1 deep2 : option bool) (seen1 seen2 : list bytes) (r1 r2 : bool * list bytes) (owner : bytes) (n : N) :
  verify_transaction_event canon hash cr1 messages_of1 fuel1 st e1 [(seqner1, saider1)] deep1 seen1 = Ok r1 -> verify_transaction_event canon hash cr2 messages_of2 fuel2 st e2 [(seqner2, saider2)] deep2 seen2 = Ok r2 ->
  owned canon st e1 owner -> owned canon st e2 owner -> seqner_sn seqner1 = Ok n -> seqner_sn seqner2 = Ok n ->
  exists pre number said, field_of (d_ked e1) (s! "i") (VStr pre) /\ field_of (d_ked e1) (s! "s") (VStr number) /\ sad_said e1 = Ok said /\
    field_of (d_ked e2) (s! "i") (VStr pre) /\ field_of (d_ked e2) (s! "s") (VStr number) /\ sad_said e2 = Ok said.
Proof.
  intros V1 V2 O1 O2 S1 S2. destruct r1 as (b1, x1), r2 as (b2, x2). apply C129_l in V1 as (q1 & d1 & w1 & p1 & h1 & i1 & n1 & t1 & a1 & E1 & N1 & _ & I1 & H1 & D1 & W1 & (y1 & Y1 & Z1 & _) & L1).
  apply C129_l in V2 as (q2 & d2 & w2 & p2 & h2 & i2 & n2 & t2 & a2 & E2 & N2 & _ & I2 & H2 & D2 & W2 & (y2 & Y2 & Z2 & _) & L2). injection E1 as <- <-. injection E2 as <- <-.
  pose proof (owned_unique _ _ _ _ _ O1 W1). pose proof (owned_unique _ _ _ _ _ O2 W2). subst w1 w2. assert (n1 = n) as -> by congruence. assert (n2 = n) as -> by congruence. assert (a1 = a2) as <- by congruence.
  destruct (sealed_unique _ _ _ _ _ _ _ L1 L2) as (<- & <- & <-). exists p1, h1, i1. auto 10.
Qed.

Lemma anchor_of canon hash cr messages_of group_text schema_check age seen_said l owner place :
  sized_hash hash -> finds_all canon seen_said -> textual group_text -> reads_back messages_of group_text -> reached canon hash cr messages_of group_text schema_check age seen_said l -> of_owner canon l owner place ->
  exists k text anchor e number said, (k < length (l_kel l owner))%nat /\ nth_error (l_kel l owner) k = Some text /\ serder_with_raw canon text = Ok anchor /\ sealed (d_ked anchor) (fst place) number said /\
    field_of (d_ked e) (s! "s") (VStr number) /\ ordinal (d_ked e) (N.of_nat (snd place)) /\ sad_said e = Ok said /\ exists t, nth_error (l_tel l (fst place)) (snd place) = Some t /\ serder_with_raw canon t = Ok e.
Proof.
  intros SH FA TX RB RE (LT & text & e & NE & SE & OW). destruct (C169_l canon hash cr messages_of group_text schema_check age seen_said l (fst place) (snd place) text SH FA TX RB RE NE LT) as (e' & value & rest & more & bound & _ & SE' & FI & FO & _ & V).
  assert (e' = e) as -> by congruence. destruct (V bound (Some false) [] (le_n _)) as (seen' & V'). apply C129_l in V' as (q & d & w & p & h & i & n & t & a & _ & N & _ & I & H & D & W & (y & Y & Z & _) & L).
  pose proof (owned_unique _ _ _ _ _ OW W). subst w. pose proof (field_str _ _ _ _ FI I). subst p. unfold view in Y. cbn [get_key_event] in Y. unfold at_sn in Y. destruct (nth_error _ _) as [y'|] eqn:YE in Y; [|discriminate]. injection Y as <-.
  exists (N.to_nat (asked_for n)), y', a, e, h, i. split; [apply nth_error_Some; rewrite YE; discriminate|]. split; [exact YE|]. split; [exact Z|]. split; [exact L|]. split; [exact H|]. split; [exact FO|]. split; [exact D|]. eauto.
Qed.

(*# C177_every_registry_event_has_its_own_anchor
   In a ledger made by taking in streams, the registry events of one owner, in whatever registry logs, are no more than the owner's key events; each of them has a key event of its own with one seal, for it.
   Numbers are below 2^32.
##
Example C177_case : sized_hash mix /\ finds_all no_floats (fun _ _ => true) /\ textual own_letter /\ reads_back lettered own_letter /\
  reached no_floats mix toy lettered own_letter (fun _ _ => Ok true) (fun _ => Ok 0%Z) (fun _ _ => true) revoked_ledger /\ NoDup [(rpre0, 0%nat); (csaid0, 0%nat); (csaid0, 1%nat)] /\
  Forall (of_owner no_floats revoked_ledger pre0) [(rpre0, 0%nat); (csaid0, 0%nat); (csaid0, 1%nat)] /\ length (l_kel revoked_ledger pre0) = 4%nat.
Proof.
  split; [exact mix_sized|]. split; [intros l said _; reflexivity|]. split; [exact own_textual|]. split; [exact own_read|]. split; [exact revoked_reached|].
  split; [repeat constructor; cbn; intros X; repeat (destruct X as [X|X]; [vm_compute in X; discriminate X|]); exact X|]. split; [|vm_compute; reflexivity].
  constructor; [|constructor; [|constructor; [|constructor]]]; (split; [vm_compute; reflexivity|]); do 2 eexists; (split; [vm_compute; reflexivity|]); (split; [vm_compute; reflexivity|]).
  - left. split; apply index_field; vm_compute; reflexivity.
  - right. split; [left; apply index_field; vm_compute; reflexivity|]. exists rpre0, reg0. split; [apply index_field; vm_compute; reflexivity|]. split; [eexists; split; [vm_compute; reflexivity|]; vm_compute; reflexivity|apply index_field; vm_compute; reflexivity].
  - right. split; [right; apply index_field; vm_compute; reflexivity|]. exists rpre0, reg0. split; [apply index_field; vm_compute; reflexivity|]. split; [eexists; split; [vm_compute; reflexivity|]; vm_compute; reflexivity|apply index_field; vm_compute; reflexivity].
Qed.
#*)
Lemma C177_l (canon : bytes -> option bytes) (hash : bytes -> bytes -> bytes) (cr : crypto) (messages_of : bytes -> R (list message)) (group_text : group -> R bytes)
    (schema_check : bytes -> bytes -> R bool) (age : bytes -> R Z) (seen_said : ledger -> bytes -> bool) (l : ledger) (owner : bytes) (places : list (bytes * nat)) :
  sized_hash hash -> finds_all canon seen_said -> textual group_text -> reads_back messages_of group_text -> reached canon hash cr messages_of group_text schema_check age seen_said l ->
  NoDup places -> Forall (of_owner canon l owner) places ->
  exists anchors, NoDup anchors /\ (length places <= length (l_kel l owner))%nat /\
    Forall2 (fun place k => exists text anchor number said, nth_error (l_kel l owner) k = Some text /\ serder_with_raw canon text = Ok anchor /\ sealed (d_ked anchor) (fst place) number said) places anchors.
Proof.
  intros SH FA TX RB RE ND F. assert (exists anchors, Forall2 (fun place k => (k < length (l_kel l owner))%nat /\ exists text anchor e number said, nth_error (l_kel l owner) k = Some text /\ serder_with_raw canon text = Ok anchor /\
    sealed (d_ked anchor) (fst place) number said /\ field_of (d_ked e) (s! "s") (VStr number) /\ ordinal (d_ked e) (N.of_nat (snd place))) places anchors) as (ks & K).
  { clear ND. induction F as [|p ps P F IH]; [exists []; constructor|]. destruct IH as (ks & K). destruct (anchor_of _ _ _ _ _ _ _ _ _ _ _ SH FA TX RB RE P) as (k & text & a & e & h & i & X1 & X2 & X3 & X4 & X5 & X6 & _). exists (k :: ks). constructor; [|exact K]. eauto 12. }
  assert (NoDup ks) as NK.
  { clear F. induction K as [|p k ps ks (LK & t & a & e & h & i & X1 & X2 & X3 & X4 & X5) K IH]; [constructor|]. inversion ND as [|? ? NI ND']; subst. constructor; [|auto]. intros IN. apply NI. clear IH ND ND' NI.
    induction K as [|p' k' ps ks (LK' & t' & a' & e' & h' & i' & Y1 & Y2 & Y3 & Y4 & Y5) K IH]; [destruct IN|]. destruct IN as [->|IN]; [left|right; auto]. assert (a' = a) as -> by congruence.
    destruct (sealed_unique _ _ _ _ _ _ _ X3 Y3) as (E1 & <- & _). pose proof (number_ordinal _ _ _ _ _ X4 Y4 X5 Y5) as E2. apply Nnat.Nat2N.inj in E2. destruct p, p'. cbn [fst snd] in *. congruence. }
  exists ks. split; [exact NK|]. split.
  - rewrite (Forall2_len K), <- (seq_length (length (l_kel l owner)) 0). apply NoDup_incl_length; [exact NK|]. intros k I. apply in_seq. clear - K I. induction K as [|p k' ps ks (LK & _) K IH]; [destruct I|]. destruct I as [->|I]; [lia|auto].
  - clear - K. induction K as [|p k ps ks (LK & t & a & e & h & i & X1 & X2 & X3 & _) K IH]; constructor; [|exact IH]. eauto 10.
Qed.

(** An owner who revokes a credential twice, and two parties who see one revocation each. *)
Definition rev1 := Eval vm_compute in of_text (snd (got ([], []) (credential_revoke no_floats mix (s! "2020-01-03T00:00:00.000000+00:00") (s! "m") csaid0 rpre0 (got [] (sad_said iss0))))).
Definition anchor4 := Eval vm_compute in got no_event (interact no_floats mix pre0 (got [] (sad_said anchor3)) (Some 4) (Some (VArr [seal_of rev1])) None None).
Definition asigs4 := Eval vm_compute in signed keys0 anchor4.
Definition fork_letters : list (bytes * group) := letters ++ [(s! "x", GQuadlets [GSigs asigs4]); (s! "y", GSources [couple 4 anchor4])].
Definition forked (t : bytes) : R (list message) :=
  if beq t (s! "issued") then Ok issued_stream
  else if beq t (s! "anchors") then Ok [MPayload (d_raw anchor3); MGroup (GQuadlets [GSigs asigs3]); MPayload (d_raw anchor4); MGroup (GQuadlets [GSigs asigs4])]
  else if beq t (s! "one") then Ok [MPayload (d_raw rev0); MGroup (GSources [couple 3 anchor3])] else if beq t (s! "other") then Ok [MPayload (d_raw rev1); MGroup (GSources [couple 4 anchor4])]
  else match assoc t fork_letters with Some g => Ok [MGroup g] | None => Ok [] end.
Definition fork_letter (g : group) : R bytes := match find (fun p => group_eqb (snd p) g) fork_letters with Some p => Ok (fst p) | None => Err EDecoding end.
Lemma fork_textual : textual fork_letter.
Proof. intros g t H. unfold fork_letter in H. destruct (find _ fork_letters) as [(k, x)|] eqn:F; [|discriminate]. injection H as <-. apply find_some in F as (F & _). cbn [fork_letters letters app In] in F. repeat (destruct F as [[= <- _]|F]; [reflexivity|]). destruct F. Qed.
Lemma fork_read : reads_back forked fork_letter.
Proof.
  intros g t H. unfold fork_letter in H. destruct (find _ fork_letters) as [(k, x)|] eqn:F; [|discriminate]. injection H as <-. apply find_some in F as (F & E). cbn [fst snd] in *. apply group_eqb_eq in E. subst x. exists [].
  cbn [fork_letters letters app In] in F. repeat (destruct F as [[= <- <-]|F]; [reflexivity|]). destruct F.
Qed.
Definition fork_take (l : ledger) (stream : bytes) : ledger := fst (ingest_messages no_floats mix toy forked fork_letter (fun _ _ => Ok true) (fun _ => Ok 0%Z) (fun _ _ => true) 9 l stream (Some false) None).
Definition fork_a : ledger := fork_take (fork_take (fork_take empty (s! "issued")) (s! "anchors")) (s! "one").
Definition fork_b : ledger := fork_take (fork_take (fork_take empty (s! "issued")) (s! "anchors")) (s! "other").
Lemma fork_takes l stream : reached no_floats mix toy forked fork_letter (fun _ _ => Ok true) (fun _ => Ok 0%Z) (fun _ _ => true) l -> reached no_floats mix toy forked fork_letter (fun _ _ => Ok true) (fun _ => Ok 0%Z) (fun _ _ => true) (fork_take l stream).
Proof. intros R. eapply reached_more; [exact R| |apply surjective_pairing]. discriminate. Qed.
Lemma fork_a_reached : reached no_floats mix toy forked fork_letter (fun _ _ => Ok true) (fun _ => Ok 0%Z) (fun _ _ => true) fork_a.
Proof. unfold fork_a. do 3 apply fork_takes. apply reached_empty. Qed.
Lemma fork_b_reached : reached no_floats mix toy forked fork_letter (fun _ _ => Ok true) (fun _ => Ok 0%Z) (fun _ _ => true) fork_b.
Proof. unfold fork_b. do 3 apply fork_takes. apply reached_empty. Qed.

(*# C177_forks_of_registry_logs_show_in_the_key_log
   Two parties took in the same key events of an owner, and hold different events of that owner under the same number of one registry log. Then the owner's key log holds two events, under different numbers, each with one
   seal for an event in this registry log: one for the first, one for the other. So an owner who shows two parties different events shows both in the key log. Events of other owners in this log are another matter: see C129_only_owner_revokes_refuted.
##
Example C177_fork_case : l_kel fork_a pre0 = l_kel fork_b pre0 /\ (exists e1 e2 t1 t2 d1 d2, nth_error (l_tel fork_a csaid0) 1 = Some t1 /\ nth_error (l_tel fork_b csaid0) 1 = Some t2 /\
    serder_with_raw no_floats t1 = Ok e1 /\ serder_with_raw no_floats t2 = Ok e2 /\ sad_said e1 = Ok d1 /\ sad_said e2 = Ok d2 /\ beq d1 d2 = false) /\
  of_owner no_floats fork_a pre0 (csaid0, 1%nat) /\ of_owner no_floats fork_b pre0 (csaid0, 1%nat) /\ textual fork_letter /\ reads_back forked fork_letter /\
  reached no_floats mix toy forked fork_letter (fun _ _ => Ok true) (fun _ => Ok 0%Z) (fun _ _ => true) fork_a /\ reached no_floats mix toy forked fork_letter (fun _ _ => Ok true) (fun _ => Ok 0%Z) (fun _ _ => true) fork_b.
Proof.
  split; [vm_compute; reflexivity|]. split; [do 6 eexists; split; [vm_compute; reflexivity|]; split; [vm_compute; reflexivity|]; split; [vm_compute; reflexivity|]; split; [vm_compute; reflexivity|]; split; [vm_compute; reflexivity|]; split; [vm_compute; reflexivity|]; vm_compute; reflexivity|].
  split; [|split]. 3: { split; [exact fork_textual|]. split; [exact fork_read|]. split; [exact fork_a_reached|exact fork_b_reached]. }
  all: split; [vm_compute; reflexivity|]; do 2 eexists; (split; [vm_compute; reflexivity|]); (split; [vm_compute; reflexivity|]);
    (right; split; [right; apply index_field; vm_compute; reflexivity|]; exists rpre0, reg0; split; [apply index_field; vm_compute; reflexivity|]; split; [eexists; split; [vm_compute; reflexivity|]; vm_compute; reflexivity|apply index_field; vm_compute; reflexivity]).
Qed.
#*)
Lemma C177_forks_l (canon : bytes -> option bytes) (hash : bytes -> bytes -> bytes) (cr1 cr2 : crypto) (messages_of1 messages_of2 : bytes -> R (list message)) (group_text1 group_text2 : group -> R bytes)
    (schema_check1 schema_check2 : bytes -> bytes -> R bool) (age1 age2 : bytes -> R Z) (seen_said1 seen_said2 : ledger -> bytes -> bool) (l1 l2 : ledger) (owner pre : bytes) (n : nat) (text1 text2 : bytes) (e1 e2 : sadder) (said1 said2 : bytes) :
  sized_hash hash -> finds_all canon seen_said1 -> finds_all canon seen_said2 -> textual group_text1 -> textual group_text2 -> reads_back messages_of1 group_text1 -> reads_back messages_of2 group_text2 ->
  reached canon hash cr1 messages_of1 group_text1 schema_check1 age1 seen_said1 l1 -> reached canon hash cr2 messages_of2 group_text2 schema_check2 age2 seen_said2 l2 -> l_kel l1 owner = l_kel l2 owner ->
  of_owner canon l1 owner (pre, n) -> of_owner canon l2 owner (pre, n) -> nth_error (l_tel l1 pre) n = Some text1 -> nth_error (l_tel l2 pre) n = Some text2 ->
  serder_with_raw canon text1 = Ok e1 -> serder_with_raw canon text2 = Ok e2 -> sad_said e1 = Ok said1 -> sad_said e2 = Ok said2 -> said1 <> said2 ->
  exists k1 k2 a1 a2 t1 t2 number1 number2, k1 <> k2 /\ nth_error (l_kel l1 owner) k1 = Some t1 /\ nth_error (l_kel l1 owner) k2 = Some t2 /\ serder_with_raw canon t1 = Ok a1 /\ serder_with_raw canon t2 = Ok a2 /\
    sealed (d_ked a1) pre number1 said1 /\ sealed (d_ked a2) pre number2 said2.
Proof.
  intros SH F1 F2 X1 X2 R1 R2 L1 L2 EK O1 O2 N1 N2 S1 S2 D1 D2 NE.
  destruct (anchor_of _ _ _ _ _ _ _ _ _ _ _ SH F1 X1 R1 L1 O1) as (k1 & t1 & a1 & f1 & h1 & i1 & _ & K1 & A1 & B1 & _ & _ & C1 & y1 & Y1 & Z1).
  destruct (anchor_of _ _ _ _ _ _ _ _ _ _ _ SH F2 X2 R2 L2 O2) as (k2 & t2 & a2 & f2 & h2 & i2 & _ & K2 & A2 & B2 & _ & _ & C2 & y2 & Y2 & Z2). cbn [fst snd] in *.
  assert (f1 = e1) as -> by congruence. assert (f2 = e2) as -> by congruence. assert (i1 = said1) as -> by congruence. assert (i2 = said2) as -> by congruence. rewrite <- EK in K2.
  exists k1, k2, a1, a2, t1, t2, h1, h2. split; [|auto 10]. intros <-. assert (a1 = a2) as <- by congruence. destruct (sealed_unique _ _ _ _ _ _ _ B1 B2) as (_ & _ & E). contradiction.
Qed.
