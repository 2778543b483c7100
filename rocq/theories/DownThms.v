(** Property C154, exactly: which attachments bring the verification of an acceptable event down. *)
From Coq Require Import String.
From Coq Require Import NArith ZArith QArith Bool List Lia.
From Verif Require Import Base Tables Matter Indexer Prims Json Tholder Common Saider Diger Sadder Signer Prefixer Pather Short Verify Ingest Events.
From Verif Require Import SpecPrims SpecTholder SpecSaider SpecSadder SpecSigner SpecLog SpecIngest SpecExtra SpecDown World.
From Verif Require Import BaseFacts SadderFacts TholderThms VerifyFacts VerifyThms ExtraFacts ExtraThms.
Import ListNotations.
Open Scope N_scope.

Lemma below {A} (vs : list A) i v : nth_error vs (N.to_nat i) = Some v -> i < len vs.
Proof. intros H. assert (N.to_nat i < length vs)%nat as L by (apply nth_error_Some; congruence). unfold len. lia. Qed.
Lemma verify_answers cr v sig ser : verfer_verify cr v sig ser <> Panic.
Proof.
  unfold verfer_verify, validate. destruct (has_code verfer_codes (m_code v)); [|discriminate]. rewrite bind_Ok. unfold check, scheme_of, foreign.
  repeat match goal with |- context [if ?c then _ else _] => destruct c end; rewrite ?bind_Ok; try discriminate; repeat match goal with |- context [match ?c with _ => _ end] => destruct c end; try discriminate.
Qed.
Lemma sigs_down cr vs raw sigs : check_sigs cr vs raw sigs = Panic <-> exists l x l', sigs = l ++ x :: l' /\ i_index x = len vs /\ Forall (checkable cr vs raw) l.
Proof.
  induction sigs as [|y r IH]; cbn [check_sigs]; [split; [discriminate|]; intros ([|] & x & l' & E & _); discriminate E|]. destruct (N.ltb_spec (len vs) (i_index y)) as [L|L].
  - split; [discriminate|]. intros ([|z l] & x & l' & E & I & F); injection E as -> E; [lia|]. inversion F as [|p q (v & b & V & _) F2]; subst. apply below in V. lia.
  - destruct (nth_error vs (N.to_nat (i_index y))) as [v|] eqn:V.
    + pose proof (verify_answers cr v (i_raw y) raw) as NP. destruct (verfer_verify cr v (i_raw y) raw) as [ok|e|] eqn:C; [|cbn [bind]|congruence].
      * rewrite bind_Ok. destruct (check_sigs cr vs raw r) as [w|e|]; [split; [discriminate|]|split; [discriminate|]|split; [intros _|reflexivity]].
        1,2: intros ([|z l] & x & l' & E & I & F); injection E as -> E; [apply below in V; lia|]; inversion F as [|p q _ F2]; subst; discriminate (proj2 IH (ex_intro _ l (ex_intro _ x (ex_intro _ l' (conj eq_refl (conj I F2)))))).
        destruct (proj1 IH eq_refl) as (l & x & l' & -> & I & F). exists (y :: l), x, l'. split; [reflexivity|]. split; auto. constructor; auto. exists v, ok. auto.
      * split; [discriminate|]. intros ([|z l] & x & l' & E & I & F); injection E as -> E; [apply below in V; lia|]. inversion F as [|p q (v' & b & V' & B) F2]; subst. congruence.
    + split; [intros _|reflexivity]. exists [], y, r. split; [reflexivity|]. split; [|constructor]. apply nth_error_None in V. unfold len in *. lia.
Qed.

Lemma sigs_fine cr vs raw sigs : (exists w, check_sigs cr vs raw sigs = Ok w) <-> Forall (checkable cr vs raw) sigs.
Proof.
  induction sigs as [|y r IH]; cbn [check_sigs]; [split; [constructor|eauto]|]. destruct (N.ltb_spec (len vs) (i_index y)) as [L|L].
  - split; [intros (w & X); discriminate|]. intros F. inversion F as [|p q (v & b & V & _) F2]; subst. apply below in V. lia.
  - destruct (nth_error vs (N.to_nat (i_index y))) as [v|] eqn:V.
    + split.
      * intros (w & H). apply bind_ok in H as (ok & C & H). apply bind_ok in H as (u & U & H). constructor; [exists v, ok; auto|]. apply IH. eauto.
      * intros F. inversion F as [|p q (v' & b & V' & B) F2]; subst. assert (v' = v) as -> by congruence. apply IH in F2 as (u & U). rewrite B, bind_Ok, U, bind_Ok. eauto.
    + split; [intros (w & X); discriminate|]. intros F. inversion F as [|p q (v & b & X & _) F2]; subst. congruence.
Qed.
Lemma groups_down cr vs raw g : check_groups cr vs raw g = Panic <-> overrun cr vs raw g.
Proof.
  unfold overrun. induction g as [|a r IH]; cbn [check_groups]; [split; [discriminate|]; intros ([|a0 ls0] & l & x & l' & rest & E & _); discriminate E|].
  destruct a as [sg|z|z|z|]; try (split; [discriminate|]; intros ([|a0 ls0] & l & x & l' & rest & E & _); discriminate E). destruct (check_sigs cr vs raw sg) as [w|e|] eqn:C.
  - rewrite bind_Ok. assert (Forall (checkable cr vs raw) sg) as FS by (apply sigs_fine; eauto). split.
    + intros H. assert (check_groups cr vs raw r = Panic) as P by (destruct (check_groups cr vs raw r); [discriminate|discriminate|reflexivity]). destruct (proj1 IH P) as (ls & l & x & l' & rest & -> & I & F).
      exists (sg :: ls), l, x, l', rest. split; [reflexivity|]. split; auto. cbn [concat]. rewrite <- app_assoc. apply Forall_app. auto.
    + intros (ls & l & x & l' & rest & E & I & F). destruct ls as [|q ls]; cbn [map app] in E; injection E as E1 E2.
      * exfalso. assert (check_sigs cr vs raw sg = Panic) as P by (apply sigs_down; exists l, x, l'; auto). congruence.
      * subst q. cbn [concat] in F. rewrite <- app_assoc in F. apply Forall_app in F as (_ & F). rewrite (proj2 IH); [reflexivity|]. exists ls, l, x, l', rest. auto.
  - cbn [bind]. split; [discriminate|]. intros (ls & l & x & l' & rest & E & I & F). destruct ls as [|q ls]; cbn [map app] in E; injection E as E1 E2.
    + assert (check_sigs cr vs raw sg = Panic) as P by (apply sigs_down; exists l, x, l'; auto). congruence.
    + subst q. cbn [concat] in F. rewrite <- app_assoc in F. apply Forall_app in F as (F & _). apply sigs_fine in F as (w & F). congruence.
  - split; [intros _|reflexivity]. apply sigs_down in C as (l & x & l' & -> & I & F). exists [], l, x, l', r. auto.
Qed.

(*# C154_verification_answers_exactly
   Which attachments bring verification down, exactly. Take an event that is accepted with some signatures and attach instead any groups whatsoever: verification panics if and only if, reading the groups from the front,
   a signature with the number of the keys as its index comes before any other group, any index beyond that, and any signature that cannot be checked. The keys and announced digests must have texts, weighted
   thresholds a weight with a small denominator for each key.
##
Example C154_exactly_case : verify_key_event no_floats mix toy no_messages 1 (view no_floats log1) event1 [GSigs sigs1] None [] = Ok (false, []) /\
  (exists ks t, governing no_floats (view no_floats log1) pre0 1 event1 ks t /\ len ks = 2 /\ field_of (d_ked event1) (s! "i") (VStr pre0) /\ ordinal (d_ked event1) 1 /\
    legible no_floats (view no_floats log1) pre0 1 ks /\ settled no_floats (view no_floats log1) pre0 1 ks t) /\ sized_hash mix /\
  verify_key_event no_floats mix toy no_messages 1 (view no_floats log1) event1 [GSigs (firstn 1 sigs1); GSigs [stray 2; stray 3]; GOther] None [] = Panic /\
  verify_key_event no_floats mix toy no_messages 1 (view no_floats log1) event1 [GSigs (firstn 1 sigs1); GSigs [stray 3; stray 2]; GOther] None [] = Err EVerification.
Proof.
  split; [vm_compute; reflexivity|]. split; [exact governs1|]. split; [exact mix_sized|]. split; vm_compute; reflexivity.
Qed.
#*)
Lemma C154_exactly_l (canon : bytes -> option bytes) (hash : bytes -> bytes -> bytes) (cr : crypto) (messages_of : bytes -> R (list message)) (fuel : nat) (st : store) (e : sadder)
    (g g' : list group) (deep : option bool) (seen : list bytes) (r : bool * list bytes) (pre : bytes) (n : N) (ks : list matter) (t : tholder) :
  sized_hash hash -> verify_key_event canon hash cr messages_of fuel st e g deep seen = Ok r ->
  field_of (d_ked e) (s! "i") (VStr pre) -> ordinal (d_ked e) n -> governing canon st pre n e ks t -> legible canon st pre n ks -> settled canon st pre n ks t ->
  (verify_key_event canon hash cr messages_of fuel st e g' deep seen = Panic <-> overrun cr ks (d_raw e) g').
Proof.
  intros SH H P S G (PK & PD) (SK & SN). destruct r as (ex, seen'). apply accepted_inv in H as (f & pre' & p & sn & ilk & said & (ks', t') & found & -> & A).
  destruct (again _ _ _ _ _ _ _ _ _ _ _ _ _ _ _ _ _ _ _ A) as (rot & _ & D & V). rewrite V. destruct A as [Hpre Hp Hsn Hilk Hsaid Hplace Hkeys Hfound He HL Hprior Hst]. cbn [fst snd] in *.
  apply pre_field in P. apply sn_field in S. assert (pre' = pre) as -> by congruence. assert (sn = n) as -> by congruence. apply type_text in Hilk.
  destruct (governing_keys _ _ _ _ _ _ _ _ Hilk Hkeys) as (G' & _). destruct (governing_once _ _ _ _ _ _ _ _ _ G G') as (<- & <-). clear G'.
  rewrite <- groups_down. destruct (check_groups cr ks (d_raw e) g') as [l|er|] eqn:CG; [|split; intros X; discriminate X|split; reflexivity]. split; [|intros X; discriminate X]. rewrite bind_Ok. intros X. exfalso. revert X.
  apply found_below in CG as FB. destruct G as (ilk' & e' & _ & _ & _ & TH). apply threshold_new in TH as (v & TH).
  destruct (steady_answers canon v t (len ks) (map fst l) TH SK) as (b & ->). { apply Forall_map. exact FB. } rewrite bind_Ok. destruct b; [|discriminate]. cbn [negb].
  destruct D as [D|(e2 & ds & nt & A1 & A2 & A3 & D)]; [rewrite D; discriminate|]. rewrite D. destruct (shown_answers hash ks ds l SH PK (PD _ _ A1 A2) FB) as (idx & -> & BI). rewrite bind_Ok.
  destruct (next_new _ _ _ A3) as (v2 & T2). destruct (steady_answers canon v2 nt (len ds) idx T2 (SN _ _ _ A1 A2 A3) BI) as (b & ->). destruct b; discriminate.
Qed.
