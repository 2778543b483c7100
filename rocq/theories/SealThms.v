(** Proofs of the theorems about registry events that bring their verifier down. *)
From Coq Require Import String.
From Coq Require Import NArith ZArith QArith Bool List Lia.
From Verif Require Import Base Tables Matter Indexer Prims Json Tholder Common Saider Diger Sadder Signer Prefixer Pather Short Verify Ingest Events.
From Verif Require Import Spec SpecPrims SpecJson SpecCommon SpecTholder SpecSaider SpecSadder SpecPrefixer SpecSigner SpecLog SpecIngest SpecCred SpecExtra SpecEndorse SpecExact SpecAgain SpecSeal World Forgery Chain.
From Verif Require Import BaseFacts MatterFacts MatterText PrimsFacts SaiderFacts SaiderThms CommonFacts PrefixerThms MatterThms ShortThms StaleThms SadderFacts SadderThms TholderFacts TholderThms VerifyFacts VerifyThms ExtraFacts LogThms IngestThms CredThms ChainThms EndorseThms ExactThms AgainThms.
Import ListNotations.
Open Scope N_scope.

Lemma said_clean canon raw e : serder_with_raw canon raw = Ok e -> (forall t, field_of (d_ked e) (s! "d") (VStr t) -> clean t) -> built (d_saider e).
Proof. intros R C. apply read_said in R as (t & F & X & _). apply (read_clean t); auto. Qed.
Lemma prefix_np hash pre : clean pre -> prefixer_with_qb64 hash pre <> Panic /\ forall p, prefixer_with_qb64 hash pre = Ok p -> built p.
Proof. intros C. unfold prefixer_with_qb64, prefixer_new. change (validate prefix_codes (or_else None (s! "B"))) with (Ok tt). rewrite bind_Ok. cbn [matter_new]. split; [apply C|]. intros p X. now apply (read_clean pre). Qed.

Section Seal.
Variable canon : bytes -> option bytes.
Variable hash : bytes -> bytes -> bytes.
Variable cr : crypto.
Variable mo : bytes -> R (list message).
Variable st : store.

Lemma anchor_np fuel owner sq sd e seen : seqner_sn sq <> Panic -> infil sd <> Panic -> (forall n, answers canon (get_key_event st owner n)) ->
  (forall n anchor t, seqner_sn sq = Ok n -> infil sd = Ok t -> logged canon st owner (asked_for n) anchor t -> seals_whole (d_ked anchor)) -> ~ lacks (d_ked e) (s! "s") -> serder_pre e <> Panic -> sad_said e <> Panic ->
  verify_anchor canon hash cr mo fuel st owner sq sd e (Some false) seen <> Panic.
Proof.
  intros SQ SD AN SW LS LP LD. unfold verify_anchor. apply bind_np'; auto. intros n N. change (as_u32 n) with (asked_for n). destruct (AN (asked_for n)) as (A1 & A2). apply bind_np'; auto. intros text T. destruct (A2 text T) as (A3 & A4).
  apply bind_np'; auto. intros a RA. apply bind_np'; auto. intros asaid SA. apply bind_np'; auto. intros want W. destruct (beq asaid want) eqn:B; cbn [negb]; [|discriminate]. apply beq_eq in B. subst want.
  destruct (SW n a asaid N W) as (S1 & S2). { exists text. auto. } apply bind_np'. { intros X. apply S1. now apply index_lacks. } intros v V. apply bind_np'. { destruct v; discriminate. } intros seals SE. destruct seals as [|seal [|]]; try discriminate.
  assert (field_of (d_ked a) (s! "a") (VArr [seal])) as FA. { apply index_field. destruct v; try discriminate. now injection SE as <-. }
  assert (forall k, In k [s! "i"; s! "s"; s! "d"] -> text_at seal k <> Panic) as TS. { intros k I. apply text_np. now apply (S2 seal). }
  apply bind_np'; [apply TS; cbn; auto|]. intros spre _. apply bind_np'; [apply TS; cbn; auto|]. intros ssn _. apply bind_np'; [apply TS; cbn; auto|]. intros sdig _. cbn [or_else andb]. rewrite bind_Ok.
  apply bind_np'; [now apply text_np|]. intros s _. destruct (negb _); [discriminate|]. apply bind_np'; auto. intros p _. destruct (negb _); [discriminate|]. apply bind_np'; auto. discriminate.
Qed.

Lemma register_np fuel e c seen : built (d_saider e) -> regular e ->
  (forall pre, field_of (d_ked e) (s! "i") (VStr pre) -> sound_register canon st pre) ->
  (forall ri, field_of (d_ked e) (s! "ri") (VStr ri) -> answers canon (get_transaction_event st ri 0) /\ forall e0, recorded canon st ri 0 e0 -> ~ lacks (d_ked e0) (s! "ii")) ->
  (forall sq sd, c = [(sq, sd)] -> seqner_sn sq <> Panic /\ infil sd <> Panic /\
    forall owner, owned canon st e owner -> (forall n, answers canon (get_key_event st owner n)) /\
      forall n anchor t, seqner_sn sq = Ok n -> infil sd = Ok t -> logged canon st owner (asked_for n) anchor t -> seals_whole (d_ked anchor)) ->
  verify_transaction_event canon hash cr mo (S fuel) st e c (Some false) seen <> Panic.
Proof.
  intros BS (HL & HC & HV & HI) SR SO SC. cbn [verify_transaction_event]. assert (serder_pre e <> Panic) as NP. { intros H. apply (C110_l e [] 0 true) in H. revert H. apply HL. cbn. auto. }
  apply bind_np'; auto. intros pre HP. apply pre_field in HP as FP. destruct (prefix_np hash pre) as (PX & PB). { apply (HC (s! "i")); [cbn; auto|exact FP]. }
  assert (exists m, d_ked e = VObj m) as (m & MO) by (apply field_obj in FP as (m & -> & _); eauto).
  apply bind_np'; auto. intros p HPX. specialize (PB p HPX). apply bind_np'. { intros H. apply (C110_l e [] 0 true) in H. revert H. apply HL. cbn. auto. } intros n SN.
  assert (~ lacks (d_ked e) (s! "t")) as NT by (apply HL; cbn; auto). apply bind_np'; [now apply text_np|]. intros ilk T. apply type_text in T as T'. apply bind_np'; [now apply printed|]. intros said SD.
  apply bind_np'. { unfold registry_of. destruct (beq ilk (s! "vcp")); auto. destruct (beq ilk (s! "iss") || beq ilk (s! "rev")) eqn:B; [|discriminate]. apply text_np. apply HI. apply orb_true_iff in B as [B|B]; apply beq_eq in B; subst; auto. }
  intros ri RI. destruct c as [|(sq, sd) [|]]; try discriminate. destruct (SC sq sd eq_refl) as (SQ & SS & SO'). apply bind_np'. { unfold transaction_labels. repeat (destruct (beq _ _); [discriminate|]). discriminate. }
  intros labels LB. apply bind_np'. { unfold verify_ked_labels. rewrite MO. discriminate. } intros [|] CL; [|discriminate]. cbn [negb]. cbv zeta. destruct (SR pre FP) as (C1 & C2 & C3). apply bind_np'; auto. intros count CT. specialize (C2 _ CT).
  apply bind_np'.
  { unfold anchoring. unfold registry_of in RI. destruct (beq ilk (s! "vcp")) eqn:BV.
    - apply bind_np'. { intros V. now apply (C89a_l hash p (d_ked e) (Some true) PB) in V. } intros [|] _; [|discriminate]. cbn [negb]. apply text_np. apply HV. apply beq_eq in BV. now subst.
    - destruct (beq ilk (s! "iss") || beq ilk (s! "rev")); [|discriminate]. apply bind_np'. { rewrite MO. change (said_verify hash (d_saider e) (VObj m) (Some false) (Some true) None None []) with (said_verify hash (d_saider e) (VObj m) (Some false) (Some true) None (Some (s! "d")) []). apply C61_l; [exact BS|discriminate]. }
      intros [|] _; [|discriminate]. cbn [negb]. apply text_field in RI. destruct (SO ri RI) as ((A1 & A2) & A3). apply bind_np'; auto. intros tx TX. destruct (A2 tx TX) as (A4 & _). apply bind_np'; auto. intros e0 E0. apply text_np. apply A3. exists tx. auto. }
  intros owner OW. pose proof (anchoring_owned _ _ _ _ _ _ _ _ T RI OW) as OD. destruct (SO' owner OD) as (K1 & K2). apply bind_np'. { apply anchor_np; auto. { apply HL. cbn. auto. } now apply printed. }
  intros (an, seen1) AN. cbn [fst snd]. destruct an; [|discriminate]. cbn [negb].
  apply bind_np'.
  - destruct (_ || _) eqn:IN; [destruct (negb _); discriminate|]. destruct (N.ltb_spec n 1); [discriminate|]. destruct (N.ltb_spec count n); [discriminate|].
    assert (before n = Ok (asked_for n - 1)) as ->. { apply before_ok. split; auto. unfold asked_for. change (2 ^ 32) with 4294967296 in *. rewrite N.mod_small; lia. } rewrite bind_Ok. destruct (C3 (asked_for n - 1)) as (A1 & A2). apply bind_np'; auto.
    intros text TX. destruct (A2 _ TX) as (A3 & A4). apply bind_np'; auto. intros pe PE. apply bind_np'; auto. intros psaid PS. cbn [or_else andb]. rewrite bind_Ok. apply bind_np'; [|intros q _; destruct (negb _); discriminate].
    apply text_np. intros L. apply labels_required in CL as (CL & _). unfold transaction_labels in LB. apply orb_false_iff in IN as (I1 & I2). rewrite I1, I2 in LB. destruct (beq _ _) in LB; [|discriminate]. injection LB as <-.
    rewrite Forall_forall in CL. destruct (CL (s! "p")) as (y & Y); [cbn; tauto|]. now apply (L y).
  - intros (es, seen2) _. cbn [fst]. apply bind_np'; [|discriminate]. destruct es; [|discriminate]. unfold check_stored_transaction. destruct (C3 (as_u32 n)) as (A1 & A2). apply bind_np'; auto.
    intros text TX. destruct (A2 _ TX) as (A3 & A4). apply bind_np'; auto. intros e' RE. apply bind_np'; auto. intros s _. destruct (negb _); discriminate.
Qed.
End Seal.

Lemma stored_answers canon hash cr mo group_text schema_check age seen_said l : finds_all canon seen_said -> textual group_text -> reached canon hash cr mo group_text schema_check age seen_said l ->
  (forall pre n, answers canon (get_key_event (view canon l) pre n)) /\ (forall pre n, answers canon (get_transaction_event (view canon l) pre n)).
Proof.
  intros FA TX RE. split; intros pre n; cbn [view get_key_event get_transaction_event]; unfold at_sn.
  - destruct (nth_error (l_kel l pre) (N.to_nat n)) as [text|] eqn:E; [|split; [discriminate|intros ? [=]]]. split; [discriminate|]. intros ? [= <-].
    destruct (C126_l _ _ _ _ _ _ _ _ _ _ _ _ FA TX RE E) as (l0 & e & value & rest & _ & _ & _ & _ & R & _ & _ & V). rewrite R. split; [discriminate|]. intros ? [= <-]. apply accepted_inv in V as (f & p & q & sn & ilk & said & k & found & _ & [H1 H2 H3 H4 H5 H6 H7 H8 H9 H10 H11 H12]). congruence.
  - destruct (nth_error (l_tel l pre) (N.to_nat n)) as [text|] eqn:E; [|split; [discriminate|intros ? [=]]]. split; [discriminate|]. intros ? [= <-].
    destruct (C126r_l _ _ _ _ _ _ _ _ _ _ _ _ FA TX RE E) as (l0 & e & value & rest & fu & de & se & se' & _ & _ & _ & _ & R & _ & _ & V). rewrite R. split; [discriminate|]. intros ? [= <-].
    apply registered_well in V as (pr & m & said' & count & (a1 & a2 & a3 & a4 & a5 & a6 & a7 & a8 & a9 & a10 & _ & _ & _ & _ & _ & S & _) & _). congruence.
Qed.

(** An issuance that names a credential as its registry. *)
Definition iss_x := Eval vm_compute in of_text (snd (got ([], []) (credential_issue no_floats mix (s! "2020-01-01T00:00:00.000000+00:00") (s! "n") csaid_m csaid0))).
(** A registry without owner. *)
Definition reg_x := Eval vm_compute in got no_event (
  let* m := to_map (d_ked reg0) in
  let ked := VObj (filter (fun p => negb (beq (fst p) (s! "ii"))) m) in
  let* p := prefixer_with_ked mix ked None (Some (s! "E")) in
  let* pre := infil p in
  let* k2 := set_str ked (s! "i") (VStr pre) in
  let* k3 := set_str k2 (s! "d") (VStr pre) in
  serder_with_ked no_floats k3 None None).
(** A key event with the seal of a digest only. *)
Definition anchor_x := Eval vm_compute in got no_event (interact no_floats mix pre0 (got [] (sad_said anchor2)) (Some 3) (Some (VArr [VObj [(s! "d", VStr csaid0)]])) None None).
Definition asigs_x := Eval vm_compute in signed keys0 anchor_x.
Definition sealed_x : ledger := insert_key_event issued pre0 (d_raw anchor_x).
Lemma recorded_first canon l pre text rest e : l_tel l pre = text :: rest -> serder_with_raw canon text = Ok e -> recorded canon (view canon l) pre 0 e.
Proof. intros T R. exists text. split; auto. cbn [view get_transaction_event]. rewrite T. reflexivity. Qed.
Lemma issued_first : recorded no_floats (view no_floats issued) csaid0 0 iss0.
Proof. apply (recorded_first _ _ _ (d_raw iss0 ++ s! "f") []); vm_compute; reflexivity. Qed.
Lemma registry_first : recorded no_floats (view no_floats issued_ledger) rpre0 0 reg0.
Proof. apply (recorded_first _ _ _ (d_raw reg0 ++ s! "e") []); vm_compute; reflexivity. Qed.
Lemma lacks_by v k : index_str v k = Panic -> lacks v k.
Proof. intros H. now apply index_lacks. Qed.

Lemma regular_rev : regular rev0.
Proof.
  assert (forall k, In k [s! "i"; s! "s"; s! "t"; s! "ri"] -> ~ lacks (d_ked rev0) k) as L. { intros k I X. apply index_lacks in X. repeat (destruct I as [<-|I]; [vm_compute in X; discriminate|]). destruct I. }
  split; [intros k I; apply L; cbn in *; tauto|]. split.
  - intros k t I F. apply clean_by. apply index_field in F. destruct I as [<-|[<-|[]]]; vm_compute in F; injection F as <-; vm_compute; reflexivity.
  - split; [|intros _; apply L; cbn; auto]. intros T. apply type_text in T. vm_compute in T. discriminate.
Qed.
Lemma register_ledger canon l pre texts : l_tel l pre = texts -> len texts < 2 ^ 32 -> (forall text, In text texts -> exists e, serder_with_raw canon text = Ok e /\ sad_said e <> Panic) -> sound_register canon (view canon l) pre.
Proof.
  intros T L H. split; [discriminate|]. split. { cbn [view count_transaction_events]. rewrite T. intros c [= <-]. exact L. } intros n. cbn [view get_transaction_event]. rewrite T. unfold at_sn.
  destruct (nth_error texts (N.to_nat n)) as [text|] eqn:E; [|split; [discriminate|intros ? [=]]]. split; [discriminate|]. intros ? [= <-]. apply nth_error_In in E. destruct (H _ E) as (e & -> & S). split; [discriminate|]. now intros ? [= <-].
Qed.
Lemma register_issued : sound_register no_floats (view no_floats issued) csaid0.
Proof.
  apply (register_ledger _ _ _ [d_raw iss0 ++ s! "f"]); [vm_compute; reflexivity|vm_compute; reflexivity|]. intros text [<-|[]]. exists iss0. split; [vm_compute; reflexivity|vm_compute; discriminate].
Qed.

(*# C171_registry_events_answer_refuted
   The verifier of registry events can be brought down in more ways, in every store and at every depth. No key is needed for these: an event without prefix, number or type; an issuance or revocation without registry; with
   one couple attached, whatever it names, the inception of a registry that is well made but has no owner, which is no required field; and an issuance or revocation, with a right identifier, that names as its
   registry a log whose first event has no owner, such as the log of any credential. Who has a log of their own can also name an event of it that holds a single seal without prefix, number or identifier, such as the seal of a digest.
##
Example C171_case : verify_key_event no_floats mix toy runic 9 (view no_floats issued) anchor_x [GSigs asigs_x] None [] = Ok (false, []) /\
  verify_transaction_event no_floats mix toy runic 9 (view no_floats issued) iss_x [couple 2 anchor2] None [] = Panic /\
  verify_transaction_event no_floats mix toy runic 9 (view no_floats issued) reg_x [couple 2 anchor2] None [] = Panic /\
  verify_transaction_event no_floats mix toy runic 9 (view no_floats sealed_x) reg0 [couple 3 anchor_x] None [] = Panic /\
  (exists e0, recorded no_floats (view no_floats issued) csaid0 0 e0 /\ lacks (d_ked e0) (s! "ii")) /\ field_of (d_ked iss_x) (s! "ri") (VStr csaid0) /\
  said_verify mix (d_saider iss_x) (d_ked iss_x) (Some false) (Some true) None None [] = Ok true.
Proof.
  do 4 (split; [vm_compute; reflexivity|]). split. { exists iss0. split; [exact issued_first|apply lacks_by; vm_compute; reflexivity]. } split; [apply index_field; vm_compute; reflexivity|vm_compute; reflexivity].
Qed.
#*)
Lemma C171_refuted_l (canon : bytes -> option bytes) (hash : bytes -> bytes -> bytes) (cr : crypto) (messages_of : bytes -> R (list message)) (fuel : nat) (st : store) (e : sadder)
    (c : list (matter * matter)) (deep : option bool) (seen : list bytes) :
  (lacks (d_ked e) (s! "i") -> verify_transaction_event canon hash cr messages_of (S fuel) st e c deep seen = Panic) /\
  (forall pre p, field_of (d_ked e) (s! "i") (VStr pre) -> prefixer_with_qb64 hash pre = Ok p ->
     (lacks (d_ked e) (s! "s") \/ (exists n, ordinal (d_ked e) n) /\ lacks (d_ked e) (s! "t") -> verify_transaction_event canon hash cr messages_of (S fuel) st e c deep seen = Panic) /\
     (forall n ilk said, ordinal (d_ked e) n -> of_type (d_ked e) ilk -> sad_said e = Ok said ->
        (ilk = s! "iss" \/ ilk = s! "rev" -> lacks (d_ked e) (s! "ri") -> verify_transaction_event canon hash cr messages_of (S fuel) st e c deep seen = Panic) /\
        (forall labels sq sd count, c = [(sq, sd)] -> In (ilk, labels) registry_required -> Forall (has_field (d_ked e)) labels -> count_transaction_events st pre = Ok count ->
           (ilk = s! "vcp" -> prefixer_verify hash p (d_ked e) (Some true) = Ok true -> lacks (d_ked e) (s! "ii") -> verify_transaction_event canon hash cr messages_of (S fuel) st e c deep seen = Panic) /\
           (forall ri e0, ilk <> s! "vcp" -> said_verify hash (d_saider e) (d_ked e) (Some false) (Some true) None None [] = Ok true -> field_of (d_ked e) (s! "ri") (VStr ri) ->
              recorded canon st ri 0 e0 -> lacks (d_ked e0) (s! "ii") -> verify_transaction_event canon hash cr messages_of (S fuel) st e c deep seen = Panic) /\
           (forall owner k t anchor seal, (ilk = s! "vcp" -> prefixer_verify hash p (d_ked e) (Some true) = Ok true) ->
              (ilk <> s! "vcp" -> said_verify hash (d_saider e) (d_ked e) (Some false) (Some true) None None [] = Ok true) -> owned canon st e owner ->
              seqner_sn sq = Ok k -> infil sd = Ok t -> logged canon st owner (asked_for k) anchor t -> field_of (d_ked anchor) (s! "a") (VArr [seal]) ->
              lacks seal (s! "i") \/ (exists i, field_of seal (s! "i") (VStr i)) /\ (lacks seal (s! "s") \/ (exists s, field_of seal (s! "s") (VStr s)) /\ lacks seal (s! "d")) ->
              verify_transaction_event canon hash cr messages_of (S fuel) st e c deep seen = Panic)))).
Proof.
  cbn [verify_transaction_event]. split. { intros L. apply (C110_l e [] 0 true) in L. now rewrite L. } intros pre p F P. apply pre_field in F as F'. rewrite F', bind_Ok, P, bind_Ok. split.
  { intros [L|((n & O) & L)]. { apply (C110_l e [] 0 true) in L. now rewrite L. } apply sn_field in O. rewrite O, bind_Ok. apply text_panic in L. unfold text_at. now rewrite L. }
  intros n ilk said O T S. apply sn_field in O. pose proof T as T'. apply type_text in T'. rewrite O, bind_Ok, T', bind_Ok, S, bind_Ok. split.
  { intros I L. unfold registry_of. assert (beq ilk (s! "vcp") = false /\ beq ilk (s! "iss") || beq ilk (s! "rev") = true) as (-> & ->) by (destruct I as [->| ->]; split; reflexivity). apply text_panic in L. unfold text_at. now rewrite L. }
  intros labels sq sd count -> L V C. apply registry_types in L as L'. assert (exists m, d_ked e = VObj m) as MO by (apply field_obj in F as (m & -> & _); eauto).
  assert (verify_ked_labels (d_ked e) labels = Ok true) as VL by (apply labels_required; auto). split; [|split].
  - intros -> PV LI. unfold registry_of at 1. rewrite beq_refl, F', bind_Ok, L', bind_Ok, VL, bind_Ok. cbn [negb]. cbv zeta. rewrite C, bind_Ok. unfold anchoring. rewrite beq_refl, PV, bind_Ok. cbn [negb]. apply text_panic in LI. unfold text_at. now rewrite LI.
  - intros ri e0 NV SV FR (tx & G & R) LI. assert (beq ilk (s! "vcp") = false /\ beq ilk (s! "iss") || beq ilk (s! "rev") = true) as (B1 & B2). { destruct L as [[= <- _]|[[= <- _]|[[= <- _]|[]]]]; [congruence|split; reflexivity|split; reflexivity]. }
    apply text_field in FR. unfold registry_of at 1. rewrite B1, B2, FR, bind_Ok, L', bind_Ok, VL, bind_Ok. cbn [negb]. cbv zeta. rewrite C, bind_Ok. unfold anchoring. rewrite B1, B2, SV, bind_Ok. cbn [negb]. rewrite G, bind_Ok, R, bind_Ok. apply text_panic in LI. unfold text_at. now rewrite LI.
  - intros owner k t anchor seal PV SV OW K TT LG FA LK.
    assert (exists ri, registry_of ilk e = Ok ri /\ anchoring canon hash st e p ilk ri = Ok owner) as (ri & RI & AN).
    { unfold registry_of, anchoring. destruct OW as [(O1 & O2)|(O1 & ri & e0 & O2 & (tx & O3 & O4) & O5)].
      - rewrite (type_once _ _ _ O1 T) in *. rewrite beq_refl, F'. exists pre. split; auto. rewrite (PV eq_refl), bind_Ok. cbn [negb]. now apply text_field.
      - assert (beq ilk (s! "vcp") = false /\ beq ilk (s! "iss") || beq ilk (s! "rev") = true /\ ilk <> s! "vcp") as (-> & -> & NV). { destruct O1 as [O1|O1]; rewrite <- (type_once _ _ _ O1 T); repeat split; discriminate. }
        exists ri. split; [now apply text_field|]. rewrite (SV NV), bind_Ok. cbn [negb]. rewrite O3, bind_Ok, O4, bind_Ok. now apply text_field. }
    rewrite RI, bind_Ok, L', bind_Ok, VL, bind_Ok. cbn [negb]. cbv zeta. rewrite C, bind_Ok, AN, bind_Ok. unfold verify_anchor. destruct LG as (tx & G & R & SA). rewrite K, bind_Ok. change (as_u32 k) with (asked_for k). rewrite G, bind_Ok, R, bind_Ok, SA, bind_Ok, TT, bind_Ok, beq_refl. cbn [negb].
    apply index_field in FA. rewrite FA, bind_Ok. cbn [to_vec]. rewrite bind_Ok. assert (forall k, lacks seal k -> text_at seal k = Panic) as TP. { intros q Q. apply text_panic in Q. unfold text_at. now rewrite Q. }
    destruct LK as [Q|((i & I) & [Q|((s & I2) & Q)])]; [now rewrite (TP _ Q)| |]; apply text_field in I; rewrite I, bind_Ok; [now rewrite (TP _ Q)|]. apply text_field in I2. rewrite I2, bind_Ok. now rewrite (TP _ Q).
Qed.

(*# C171_registry_events_answer_partial
   What holds, with the store trusted: whatever is attached, verifying a registry event that was read gives an answer or an error, if it has prefix, number, type and registry or owner and its primitives are clean; the log of its
   prefix is sound; the log it names as its registry, if there is one, starts with an event that has an owner; and the couple, if it is one, can be printed and names no event of the owner with one seal that is not whole.
   Missing for the full statement: verification at depth in stores not covered by the next theorem; the cases of C171_registry_events_answer_refuted are among those excluded.
##
Example C171_answers_case : serder_with_raw no_floats (d_raw rev0) = Ok rev0 /\ regular rev0 /\ field_of (d_ked rev0) (s! "i") (VStr csaid0) /\ field_of (d_ked rev0) (s! "ri") (VStr rpre0) /\ sound_register no_floats (view no_floats issued) csaid0 /\
  is_err (verify_transaction_event no_floats mix toy runic 9 (view no_floats issued) rev0 [couple 2 anchor2] (Some false) []) = true.
Proof.
  split; [vm_compute; reflexivity|]. split; [exact regular_rev|]. do 2 (split; [apply index_field; vm_compute; reflexivity|]). split; [exact register_issued|vm_compute; reflexivity].
Qed.
#*)
Lemma C171_partial_l (canon : bytes -> option bytes) (hash : bytes -> bytes -> bytes) (cr : crypto) (messages_of : bytes -> R (list message)) (fuel : nat) (st : store) (raw : bytes) (e : sadder)
    (c : list (matter * matter)) (seen : list bytes) :
  serder_with_raw canon raw = Ok e -> regular e ->
  (forall pre, field_of (d_ked e) (s! "i") (VStr pre) -> sound_register canon st pre) ->
  (forall ri, field_of (d_ked e) (s! "ri") (VStr ri) -> answers canon (get_transaction_event st ri 0) /\ forall e0, recorded canon st ri 0 e0 -> ~ lacks (d_ked e0) (s! "ii")) ->
  (forall sq sd, c = [(sq, sd)] -> seqner_sn sq <> Panic /\ infil sd <> Panic /\
    forall owner, owned canon st e owner -> (forall n, answers canon (get_key_event st owner n)) /\
      forall n anchor t, seqner_sn sq = Ok n -> infil sd = Ok t -> logged canon st owner (asked_for n) anchor t -> seals_whole (d_ked anchor)) ->
  verify_transaction_event canon hash cr messages_of (S fuel) st e c (Some false) seen <> Panic.
Proof. intros R RG. apply register_np; auto. apply (said_clean canon raw); auto. intros t. apply RG. cbn. auto. Qed.

(*# C171_registry_events_answer_deep_partial
   In a ledger taken in with verification nothing need be asked of what the store answers, and the same holds at any depth, once the recursion may be deep enough.
##
Example C171_deep_case : sized_hash mix /\ finds_all no_floats (fun _ _ => true) /\ textual own_letter /\ reads_back lettered own_letter /\
  reached no_floats mix toy lettered own_letter (fun _ _ => Ok true) (fun _ => Ok 0%Z) (fun _ _ => true) issued_ledger /\ serder_with_raw no_floats (d_raw rev0) = Ok rev0 /\ regular rev0 /\
  field_of (d_ked rev0) (s! "ri") (VStr rpre0) /\ (exists e0, recorded no_floats (view no_floats issued_ledger) rpre0 0 e0 /\ field_of (d_ked e0) (s! "ii") (VStr pre0)) /\
  is_err (verify_transaction_event no_floats mix toy lettered 9 (view no_floats issued_ledger) rev0 [couple 2 anchor2] None []) = true.
Proof.
  split; [exact mix_sized|]. split; [intros l said _; reflexivity|]. split; [exact own_textual|]. split; [exact own_read|]. split; [exact issued_reached|]. split; [vm_compute; reflexivity|]. split; [exact regular_rev|].
  split; [apply index_field; vm_compute; reflexivity|]. split; [|vm_compute; reflexivity]. exists reg0. split; [exact registry_first|]. apply index_field. vm_compute. reflexivity.
Qed.
#*)
Lemma C171_deep_partial_l (canon : bytes -> option bytes) (hash : bytes -> bytes -> bytes) (cr : crypto) (messages_of : bytes -> R (list message)) (group_text : group -> R bytes)
    (schema_check : bytes -> bytes -> R bool) (age : bytes -> R Z) (seen_said : ledger -> bytes -> bool) (l : ledger) (raw : bytes) (e : sadder) (c : list (matter * matter)) :
  sized_hash hash -> finds_all canon seen_said -> textual group_text -> reads_back messages_of group_text -> reached canon hash cr messages_of group_text schema_check age seen_said l ->
  serder_with_raw canon raw = Ok e -> regular e -> (forall pre, field_of (d_ked e) (s! "i") (VStr pre) -> len (l_tel l pre) < 2 ^ 32) ->
  (forall ri e0, field_of (d_ked e) (s! "ri") (VStr ri) -> recorded canon (view canon l) ri 0 e0 -> ~ lacks (d_ked e0) (s! "ii")) ->
  (forall sq sd, c = [(sq, sd)] -> seqner_sn sq <> Panic /\ infil sd <> Panic /\
    forall owner n anchor t, owned canon (view canon l) e owner -> seqner_sn sq = Ok n -> infil sd = Ok t -> logged canon (view canon l) owner (asked_for n) anchor t -> seals_whole (d_ked anchor)) ->
  exists bound, forall fuel deep seen, (bound <= fuel)%nat -> verify_transaction_event canon hash cr messages_of fuel (view canon l) e c deep seen <> Panic.
Proof.
  intros SH FA TX RB RE R RG LE RI CO. destruct (stored_answers _ _ _ _ _ _ _ _ _ FA TX RE) as (A1 & A2).
  destruct (tel_verdict canon hash cr messages_of group_text schema_check age seen_said l SH FA TX RE RB e c) as (b & B). exists b. intros fuel deep seen LF P. specialize (B fuel deep seen LF). rewrite P in B.
  apply (C171_partial_l canon hash cr messages_of 0 (view canon l) raw e c [] R RG).
  - intros pre F. split; [discriminate|]. split; [|apply A2]. intros k [= <-]. auto.
  - intros ri F. split; [apply A2|]. intros e0. now apply RI.
  - intros sq sd E. destruct (CO sq sd E) as (C1 & C2 & C3). split; auto. split; auto. intros owner OW. split; [apply A1|]. intros n anchor t. now apply C3.
  - destruct (verify_transaction_event canon hash cr messages_of 1 (view canon l) e c (Some false) []) as [(x, y)| |]; try discriminate. reflexivity.
Qed.
