(** Facts about further signatures on accepted events, used by the theorems. *)
From Coq Require Import String.
From Coq Require Import NArith ZArith QArith Bool List Lia.
From Verif Require Import Base Tables Matter Indexer Prims Json Tholder Common Saider Diger Sadder Signer Prefixer Pather Short Verify.
From Verif Require Import SpecPrims SpecTholder SpecSaider SpecSadder SpecSigner SpecLog SpecExtra.
From Verif Require Import BaseFacts MatterFacts MatterText PrimsFacts SaiderFacts SaiderThms SadderFacts SadderThms FieldThms DigerThms TholderFacts TholderThms VerifyFacts VerifyThms PartialFacts.
Import ListNotations.
Open Scope N_scope.

(** ** Thresholds *)
Lemma steady_answers canon v t n idx : tholder_new canon None None (Some v) = Ok t -> steady t n -> Forall (fun i => i < n) idx -> exists b, satisfy t idx = Ok b.
Proof.
  intros H S F. apply accepted in H as [(k & T)|(cs & T)].
  - rewrite (satisfy_numeric_eq k t _ T). eauto.
  - destruct (S (wt_weighted _ _ T)) as ((L & B) & ws & Ww & Sm). rewrite (keys_thold _ _ T) in *. rewrite Forall_forall in F.
    rewrite (satisfy_in_range cs t idx T B) by (intros i Hi; apply F in Hi; lia).
    assert (same_weights cs ws) as SW. { eapply v2r_weights; [|rewrite (wt_thold _ _ T) in Ww; exact Ww]. apply v2r_canon; apply T. }
    pose proof (small_sums cs ws idx (wt_wf _ _ T) SW Sm 0) as NP.
    pose proof (sat_w_exact idx cs ws (wt_wf _ _ T) (same_weights_eq _ _ SW) 0) as X. destruct (sat_w idx 0 cs) as [b|e|]; [eauto|destruct X|congruence].
Qed.
Lemma threshold_new canon e t : serder_tholder canon e = Ok (Some t) -> exists v, tholder_new canon None None (Some v) = Ok t.
Proof.
  intros H. assert (exists m, d_ked e = VObj m) as M. { unfold serder_tholder, threshold_at in H. apply bind_ok in H as (m & M & _). destruct (d_ked e); try discriminate. eauto. }
  apply (C102_thresholds_l canon e (Some t) M) in H as [(v & t' & _ & T & [= <-])|(_ & [=])]. eauto.
Qed.
Lemma next_new canon e t : serder_ntholder canon e = Ok (Some t) -> exists v, tholder_new canon None None (Some v) = Ok t.
Proof.
  intros H. assert (exists m, d_ked e = VObj m) as M. { unfold serder_ntholder, threshold_at in H. apply bind_ok in H as (m & M & _). destruct (d_ked e); try discriminate. eauto. }
  apply (C102_thresholds_l canon e (Some t) M) in H as [(v & t' & _ & T & [= <-])|(_ & [=])]. eauto.
Qed.

(** ** What governs an event is determined *)
Lemma governing_once canon st pre n e ks t ks' t' : governing canon st pre n e ks t -> governing canon st pre n e ks' t' -> ks = ks' /\ t = t'.
Proof.
  intros (ilk & x & T & W & A & B) (ilk' & x' & T' & W' & A' & B'). rewrite (type_once _ _ _ T' T) in *. assert (x = x') as <-.
  { destruct W as [(I & ->)|(I & tx & G & S)], W' as [(I' & ->)|(I' & tx' & G' & S')]; try contradiction; auto. congruence. }
  split; congruence.
Qed.

(** ** Signatures and what they show *)
Lemma sigs_answer cr vs raw sigs : (forall x, In x sigs -> i_index x <> len vs) -> check_sigs cr vs raw sigs <> Panic.
Proof.
  induction sigs as [|x r IH]; intros H; cbn [check_sigs]; [discriminate|]. destruct (N.ltb_spec (len vs) (i_index x)) as [L|L]; [discriminate|].
  destruct (nth_error vs (N.to_nat (i_index x))) as [v|] eqn:V.
  - assert (verfer_verify cr v (i_raw x) raw <> Panic) as NP.
    { unfold verfer_verify, validate. destruct (has_code verfer_codes (m_code v)); [|discriminate]. rewrite bind_Ok. unfold check, scheme_of, foreign.
      repeat match goal with |- context [if ?c then _ else _] => destruct c end; rewrite ?bind_Ok; try discriminate; repeat match goal with |- context [match ?c with _ => _ end] => destruct c end; try discriminate. }
    destruct (verfer_verify cr v (i_raw x) raw) as [ok| |]; [|discriminate|congruence]. rewrite bind_Ok. specialize (IH (fun y Y => H y (or_intror Y))).
    destruct (check_sigs cr vs raw r); [|discriminate|congruence]. discriminate.
  - apply nth_error_None in V. specialize (H x (or_introl eq_refl)). unfold len in *. lia.
Qed.
Lemma groups_answer cr vs raw g : ~ indexed g (len vs) -> check_groups cr vs raw g <> Panic.
Proof.
  induction g as [|a r IH]; intros H; cbn [check_groups]; [discriminate|]. destruct a; try discriminate.
  match goal with |- context [check_sigs cr vs raw ?l] => pose proof (sigs_answer cr vs raw l) as S end. destruct (check_sigs cr vs raw _) as [a| |]; [|discriminate|].
  - rewrite bind_Ok. destruct (check_groups cr vs raw r); [discriminate|discriminate|]. exfalso. apply IH; auto. intros (l' & x & I & J & K). apply H. exists l', x. split; [now right|auto].
  - exfalso. apply S; auto. intros x I E. apply H. eexists _, x. split; [now left|auto].
Qed.
Lemma found_below cr vs raw g found : check_groups cr vs raw g = Ok found -> Forall (fun p => fst p < len vs) found.
Proof.
  intros H. apply groups_ok in H as (_ & H). apply sigs_ok in H as (F & good & T & ->). apply Forall_map. cbn [fst]. clear - F T. induction T; inversion F; subst; auto.
Qed.
Lemma groups_app cr vs raw a b : check_groups cr vs raw (a ++ b) = let* x := check_groups cr vs raw a in let* y := check_groups cr vs raw b in Ok (x ++ y).
Proof.
  induction a as [|g r IH]; cbn [app check_groups]. { rewrite bind_Ok. destruct (check_groups cr vs raw b); reflexivity. }
  destruct g; try reflexivity. destruct (check_sigs cr vs raw _) as [x| |]; [|reflexivity|reflexivity]. rewrite !bind_Ok, IH. destruct (check_groups cr vs raw r) as [y| |]; [|reflexivity|reflexivity].
  rewrite !bind_Ok. destruct (check_groups cr vs raw b) as [z| |]; [|reflexivity|reflexivity]. rewrite !bind_Ok. now rewrite app_assoc.
Qed.
Lemma shown_answers hash vs ds found : sized_hash hash -> printable vs -> printable ds -> Forall (fun p => fst p < len vs) found ->
  exists idx, revealed hash vs ds found = Ok idx /\ Forall (fun o => o < len ds) idx.
Proof.
  intros SH PV PD F. induction F as [|(i, o) r L F (idx & IH & B)]; cbn [revealed]; [eauto|]. cbn [fst] in L. destruct (N.ltb_spec o (len ds)) as [O|O].
  - destruct (nth_error vs (N.to_nat i)) as [v|] eqn:V; [|apply nth_error_None in V; unfold len in L; lia].
    destruct (nth_error ds (N.to_nat o)) as [d|] eqn:D; [|apply nth_error_None in D; unfold len in O; lia].
    unfold printable in *. rewrite Forall_forall in PV, PD. destruct (PV v (nth_error_In _ _ V)) as (tv & ->). destruct (PD d (nth_error_In _ _ D)) as (td & ->).
    rewrite bind_Ok, (default_digest hash tv SH), bind_Ok. assert (has_code said_codes (s! "E") = true) as HS by reflexivity. destruct (said_built hash (s! "E") tv SH HS) as (_ & W).
    destruct (wf_round _ W) as (t1 & b1 & T1 & _). rewrite T1, !bind_Ok, IH, bind_Ok. eexists. split; [reflexivity|]. destruct (beq t1 td); auto.
  - rewrite bind_Ok, IH, bind_Ok. eauto.
Qed.

(** ** The same event with other signatures *)
Lemma rotation_next canon hash st e pe pre n keys found0 n' text said : before n = Ok n' ->
  get_key_event st pre n' = Ok text -> serder_with_raw canon text = Ok pe -> sad_said pe = Ok said ->
  check_rotation canon hash st e pe pre n keys found0 = Ok tt ->
  (forall found, check_rotation canon hash st e pe pre n keys found = Ok tt) \/
  exists e' ds nt, announcing canon st pre n e' /\ serder_digers e' = Ok ds /\ serder_ntholder canon e' = Ok (Some nt) /\
    forall found, check_rotation canon hash st e pe pre n keys found = let* idx := revealed hash keys ds found in let* ok := satisfy nt idx in if ok then Ok tt else Err EValidation.
Proof.
  intros BN G1 G2 G3 H. unfold check_rotation in *. apply bind_ok in H as (est & E & H). destruct est; [|left; intros found; now rewrite E, bind_Ok]. right.
  apply bind_ok in H as (pest & P & H). apply bind_ok in H as ((digests & t) & NX & H). apply bind_ok in H as (idx & R & H). apply bind_ok in H as (ok & S & H).
  destruct ok; [|discriminate]. cbn [fst snd] in *. pose proof P as P'. apply est_field in P' as (ilkp & Tp & Bp). pose proof BN as BN'. apply before_ok in BN as (BN & ->).
  assert (logged canon st pre (asked_for n - 1) pe said) as LG by (exists text; auto).
  assert (forall x, next_keys canon x = Ok (digests, t) -> serder_digers x = Ok digests /\ (serder_ntholder canon x = Ok (Some t) \/ t = tholder_default)) as G.
  { intros x X. unfold next_keys in X. apply bind_ok in X as (d & D & X). apply bind_ok in X as (o & O & X). injection X as -> X. split; auto. destruct o; cbn in X; subst; auto. }
  assert (exists e', announcing canon st pre n e' /\ next_keys canon e' = Ok (digests, t)) as (e' & A & NX').
  { destruct pest.
    - exists pe. split; auto. exists pe, said, ilkp. split; auto. split; auto. left. split; auto. now apply Bp.
    - pose proof NX as NX1. apply bind_ok in NX1 as (m & M & NX1). rewrite BN' in M. injection M as <-. apply bind_ok in NX1 as (tx & X & NX1). apply bind_ok in NX1 as (e' & Y & NX1). exists e'. split; auto.
      exists pe, said, ilkp. split; auto. split; auto. right. split; [intros Z; apply Bp in Z; discriminate|]. exists tx. auto. }
  destruct (G _ NX') as (D & [O|O]); [|subst t; discriminate]. exists e', digests, t. repeat (split; [assumption|]).
  intros found. rewrite E, bind_Ok, P, bind_Ok, NX, bind_Ok. reflexivity.
Qed.
Lemma again canon hash cr mo f st e g deep seen ex seen' pre p sn ilk said keys found :
  accepts canon hash cr mo f st e g deep seen ex seen' pre p sn ilk said keys found ->
  exists rot : list (N * N) -> R unit, rot found = Ok tt /\
    ((forall l, rot l = Ok tt) \/
     exists e' ds nt, announcing canon st pre sn e' /\ serder_digers e' = Ok ds /\ serder_ntholder canon e' = Ok (Some nt) /\
       forall l, rot l = let* idx := revealed hash (fst keys) ds l in let* ok := satisfy nt idx in if ok then Ok tt else Err EValidation) /\
    forall g', verify_key_event canon hash cr mo (S f) st e g' deep seen =
      let* l := check_groups cr (fst keys) (d_raw e) g' in
      let* enough := satisfy (snd keys) (map fst l) in
      if negb enough then Err EVerification else let* _u := rot l in Ok (ex, seen').
Proof.
  intros [H1 H2 H3 H4 H5 H6 H7 H8 H9 (labels & L1 & L2) H11 H12].
  assert ((if ex then check_stored canon st pre said sn else Ok tt) = Ok tt) as HS by (destruct ex; auto).
  assert (forall g', verify_key_event canon hash cr mo (S f) st e g' deep seen =
    let* l := check_groups cr (fst keys) (d_raw e) g' in let* enough := satisfy (snd keys) (map fst l) in if negb enough then Err EVerification else
      let* seen := if beq ilk (s! "icp") then Ok seen else
            let* n := before sn in
            let* event := get_key_event st pre n in
            let* pserder := serder_with_raw canon event in
            let* psaid := sad_said pserder in
            let* p := text_at (d_ked e) (s! "p") in
            if negb (beq psaid p) then Err EValidation
            else
              let* _u := check_rotation canon hash st e pserder pre sn (fst keys) l in
              if or_else deep false && negb (has_code seen psaid) then
                let* rest := from_str event (len (d_raw pserder)) in
                let* g := first_group mo rest in
                match g with
                | GQuadlets value => let* r := verify_key_event canon hash cr mo f st pserder value deep (psaid :: seen) in Ok (snd r)
                | _ => Err EDecoding
                end
              else Ok seen in Ok (ex, seen)) as V.
  { intros g'. rewrite verify_unfold. rewrite H1, bind_Ok, H2, bind_Ok, H3, bind_Ok, H4, bind_Ok, H5, bind_Ok. cbv zeta. rewrite H6, bind_Ok, H7, bind_Ok.
    destruct (check_groups cr (fst keys) (d_raw e) g') as [l| |]; [|reflexivity|reflexivity]. rewrite !bind_Ok. destruct (satisfy (snd keys) (map fst l)) as [[]| |]; try reflexivity.
    rewrite !bind_Ok. cbn [negb]. rewrite L1, bind_Ok, L2, bind_Ok. cbn [negb]. match goal with |- bind ?a _ = bind ?b _ => change b with a; destruct a as [s1| |]; [|reflexivity|reflexivity] end.
    rewrite !bind_Ok, HS. reflexivity. }
  destruct H11 as [(B & ->)|(B & n & event & pe & psaid & P1 & P2 & P3 & P4 & P5 & P6 & D)].
  - exists (fun _ => Ok tt). split; auto. split; auto. intros g'. rewrite V, B. destruct (check_groups cr (fst keys) (d_raw e) g'); [|reflexivity|reflexivity]. rewrite !bind_Ok. destruct (satisfy _ _) as [[]| |]; reflexivity.
  - exists (check_rotation canon hash st e pe pre sn (fst keys)). split; auto. split; [eapply rotation_next; eauto|]. intros g'. rewrite V, B.
    destruct (check_groups cr (fst keys) (d_raw e) g') as [l| |]; [|reflexivity|reflexivity]. rewrite !bind_Ok. destruct (satisfy (snd keys) (map fst l)) as [[]| |]; [|reflexivity|reflexivity|reflexivity].
    rewrite !bind_Ok. cbn [negb]. rewrite P1, bind_Ok, P2, bind_Ok, P3, bind_Ok, P4, bind_Ok, P5, bind_Ok, beq_refl. cbn [negb].
    destruct (check_rotation canon hash st e pe pre sn (fst keys) l); [|reflexivity|reflexivity]. rewrite !bind_Ok.
    destruct D as [(-> & rest & value & r & D1 & D2 & D3 & ->)|(-> & ->)]; [|reflexivity]. rewrite D1, bind_Ok, D2, bind_Ok, D3, !bind_Ok. reflexivity.
Qed.
