(** Properties C161 and C162, exactly: which attachments bring the verification of an acceptable credential down, and which it is accepted with. *)
From Coq Require Import String.
From Coq Require Import NArith ZArith QArith Bool List Lia Permutation.
From Verif Require Import Base Tables Matter Indexer Prims Json Tholder Common Saider Diger Sadder Signer Prefixer Pather Short Verify Ingest Events.
From Verif Require Import Spec SpecPrims SpecJson SpecCommon SpecTholder SpecSaider SpecSadder SpecPrefixer SpecSigner SpecLog SpecIngest SpecCred SpecExtra SpecEndorse SpecDown SpecAgain SpecFall World Forgery Chain.
From Verif Require Import BaseFacts MatterFacts PrimsFacts SadderFacts SadderThms TholderFacts TholderThms VerifyFacts VerifyThms ExtraFacts ExtraThms LogThms IngestThms CredThms ChainThms AgainThms EndorseThms DownThms DepthThms.
Import ListNotations.
Open Scope N_scope.

Lemma answered_dec cr ks raw x : answered cr ks raw x \/ ~ answered cr ks raw x.
Proof.
  unfold answered. destruct (nth_error ks (N.to_nat (i_index x))) as [v|] eqn:V; [|right; intros (v & b & X & _); discriminate X]. destruct (verfer_verify cr v (i_raw x) raw) as [b|e|] eqn:C.
  - left. exists v, b. auto.
  - right. intros (v' & b & [= <-] & B). congruence.
  - right. intros (v' & b & [= <-] & B). congruence.
Qed.
Lemma answered_below cr ks raw x : answered cr ks raw x -> i_index x <> len ks.
Proof. intros (v & b & V & _). apply below in V. lia. Qed.
Lemma distinct_more l : forall acc, exists more, distinct acc l = acc ++ more.
Proof.
  induction l as [|y l IH]; intros acc; cbn [distinct]. { exists []. now rewrite app_nil_r. } destruct (existsb (sig_eqb y) acc); [apply IH|]. destruct (IH (acc ++ [y])) as (m & ->). exists (y :: m). now rewrite <- app_assoc.
Qed.
Lemma first_off {A} (P : A -> Prop) : forall l x r l' x' r', l ++ x :: r = l' ++ x' :: r' -> Forall P l -> Forall P l' -> ~ P x -> ~ P x' -> x = x'.
Proof.
  induction l as [|a l IH]; intros x r [|a' l'] x' r' E F F' N N'; cbn [app] in E; injection E as E1 E2.
  - exact E1.
  - subst a'. inversion F'; subst. contradiction.
  - subst a. inversion F; subst. contradiction.
  - inversion F; subst. inversion F'; subst. eapply IH; eauto.
Qed.
Lemma distinct_off cr ks raw : forall sigs acc, Forall (answered cr ks raw) acc ->
  ((exists l x l', distinct acc sigs = l ++ x :: l' /\ i_index x = len ks /\ Forall (answered cr ks raw) l) <-> exists l x l', sigs = l ++ x :: l' /\ i_index x = len ks /\ Forall (answered cr ks raw) l).
Proof.
  induction sigs as [|y r IH]; intros acc FA; cbn [distinct].
  { split; intros (l & x & l' & E & I & F); [|destruct l; discriminate E]. exfalso. rewrite E in FA. apply Forall_app in FA as (_ & FA). inversion FA as [|? ? X _]; subst. exact (answered_below _ _ _ _ X I). }
  destruct (answered_dec cr ks raw y) as [Y|Y].
  - rewrite IH. 2:{ destruct (existsb (sig_eqb y) acc); auto. apply Forall_app. auto. } split.
    + intros (l & x & l' & -> & I & F). exists (y :: l), x, l'. auto.
    + intros ([|z l] & x & l' & E & I & F); injection E as -> E; [destruct (answered_below _ _ _ _ Y I)|]. inversion F; subst. exists l, x, l'. auto.
  - destruct (existsb (sig_eqb y) acc) eqn:EX. { exfalso. apply existsb_exists in EX as (z & Z & EZ). apply sig_eqb_eq in EZ. subst z. rewrite Forall_forall in FA. auto. }
    destruct (distinct_more r (acc ++ [y])) as (m & ->). rewrite <- app_assoc. cbn [app]. split.
    + intros (l & x & l' & E & I & F). assert (x = y) as ->. { symmetry. eapply (first_off (answered cr ks raw)); eauto. intros X. exact (answered_below _ _ _ _ X I). } exists [], y, r. auto.
    + intros ([|z l] & x & l' & E & I & F); injection E as -> E; [exists acc, x, m; auto|]. inversion F; subst. contradiction.
Qed.

Section down.
Variable canon : bytes -> option bytes.
Variable hash : bytes -> bytes -> bytes.
Variable cr : crypto.
Variable mo : bytes -> R (list message).
Lemma path_down f st c g seen : (exists path, bext_of (sp_pather g) = Ok path) -> (bext_of (sp_pather g) = Ok (s! "-") -> placed canon st g) ->
  (check_path_sig canon hash cr mo f st c (Some false) g seen = Panic <-> bext_of (sp_pather g) = Ok (s! "-") /\ overruns canon cr st (d_raw c) g).
Proof.
  intros (path & B) PL. unfold check_path_sig. rewrite B, bind_Ok. destruct (beq path (s! "-")) eqn:E; cbn [negb].
  2:{ split; [discriminate|]. intros ([= ->] & _). rewrite beq_refl in E. discriminate. }
  apply beq_eq in E. subst path. specialize (PL B). destruct PL as [(pre & n & er & H1 & H2 & H3)|[(pre & n & x & said & want & H1 & H2 & (text & H4 & H5 & H6) & H3 & NE)|(x & ks & t & RF & ST)]].
  - rewrite H1, bind_Ok, H2, bind_Ok, asked_mod, H3. split; [discriminate|]. intros (_ & e & ks & t & l & y & l' & (pre' & n' & said & A1 & A2 & _ & (text & A4 & _) & _) & _). exfalso. congruence.
  - rewrite H1, bind_Ok, H2, bind_Ok, asked_mod, H4, bind_Ok, H5, bind_Ok, H6, bind_Ok, H3, bind_Ok. destruct (beq said want) eqn:EQ; [apply beq_eq in EQ; congruence|]. cbn [negb]. split; [discriminate|].
    intros (_ & e & ks & t & l & y & l' & (pre' & n' & said' & A1 & A2 & A3 & (text' & A4 & A5 & A6) & _) & _). exfalso. congruence.
  - pose proof RF as (pre & n & said & H1 & H2 & H3 & (text & H4 & H5 & H6) & H7 & H8).
    rewrite H1, bind_Ok, H2, bind_Ok, asked_mod, H4, bind_Ok, H5, bind_Ok, H6, bind_Ok, H3, bind_Ok, beq_refl. cbn [negb or_else andb]. rewrite bind_Ok, H7, bind_Ok.
    transitivity (check_sigs cr ks (d_raw c) (distinct [] (sp_sigers g)) = Panic).
    + destruct (check_sigs cr ks (d_raw c) (distinct [] (sp_sigers g))) as [w|er|] eqn:CS; [|split; discriminate|split; reflexivity]. split; [|discriminate]. rewrite bind_Ok, H8, bind_Ok. intros X. exfalso. revert X.
      apply sigs_ok in CS as (F & good & TH & ->). destruct (threshold_new _ _ _ H8) as (v & TN).
      destruct (steady_answers canon v t (len ks) (map fst (map (fun x => (i_index x, i_ondex x)) good)) TN ST) as (b & ->). { rewrite map_map. apply Forall_map. cbn [fst]. clear - F TH. induction TH; inversion F; subst; auto. }
      rewrite bind_Ok. destruct b; discriminate.
    + rewrite sigs_down. change (checkable cr ks (d_raw c)) with (answered cr ks (d_raw c)). rewrite (distinct_off cr ks (d_raw c) _ [] (Forall_nil _)). split.
      * intros (l & y & l' & L & I & F). split; auto. exists x, ks, t, l, y, l'. auto.
      * intros (_ & e & ks' & t' & l & y & l' & (pre' & n' & said' & A1 & A2 & A3 & (text' & A4 & A5 & A6) & A7 & A8) & L & I & F).
        assert (pre' = pre) as -> by congruence. assert (n' = n) as -> by congruence. assert (text' = text) as -> by congruence. assert (e = x) as -> by congruence. assert (ks' = ks) as -> by congruence. exists l, y, l'. auto.
Qed.
Lemma overruns_unendorsed st raw g : overruns canon cr st raw g -> ~ endorsed canon cr st raw g.
Proof.
  intros (e & ks & t & l & x & l' & (pre & n & said & A1 & A2 & A3 & (text & A4 & A5 & A6) & A7 & A8) & L & I & F) (e' & ks' & t' & sigs & good & (pre' & n' & said' & B1 & B2 & B3 & (text' & B4 & B5 & B6) & B7 & B8) & ND & SI & AN & _).
  assert (pre' = pre) as -> by congruence. assert (n' = n) as -> by congruence. assert (text' = text) as -> by congruence. assert (e' = e) as -> by congruence. assert (ks' = ks) as -> by congruence.
  rewrite Forall_forall in AN. apply (answered_below cr ks raw x); auto. apply AN, SI. rewrite L. apply in_or_app. right. now left.
Qed.
Lemma paths_down f st c seen : forall l ro, Forall (fun g => exists path, bext_of (sp_pather g) = Ok path) l -> (forall g, In g l -> bext_of (sp_pather g) = Ok (s! "-") -> placed canon st g) ->
  (check_path_sigs canon hash cr mo f st c (Some false) l ro seen = Panic <-> exists a p b, l = a ++ p :: b /\ bext_of (sp_pather p) = Ok (s! "-") /\ overruns canon cr st (d_raw c) p /\
     forall q, In q a -> bext_of (sp_pather q) = Ok (s! "-") -> endorsed canon cr st (d_raw c) q).
Proof.
  induction l as [|g l IH]; intros ro FT PL; cbn [check_path_sigs]. { split; [discriminate|]. intros ([|a0 ls0] & p & b & E & _); discriminate E. }
  inversion FT as [|? ? TG FT']; subst. pose proof (path_down f st c g seen TG (PL g (or_introl eq_refl))) as PD.
  assert (forall ro', check_path_sigs canon hash cr mo f st c (Some false) l ro' seen = Panic <-> exists a p b, l = a ++ p :: b /\ bext_of (sp_pather p) = Ok (s! "-") /\ overruns canon cr st (d_raw c) p /\
     forall q, In q a -> bext_of (sp_pather q) = Ok (s! "-") -> endorsed canon cr st (d_raw c) q) as IH' by (intros ro'; apply IH; auto; intros q Q; apply PL; now right). clear IH.
  destruct (check_path_sig canon hash cr mo f st c (Some false) g seen) as [o|er|] eqn:C.
  - apply (path_iff canon hash cr mo (fun _ _ => Ok true) (fun _ => Ok 0%Z)) in C as (path & B & C). rewrite bind_Ok.
    assert ((match o with None => check_path_sigs canon hash cr mo f st c (Some false) l ro seen | Some s1 => check_path_sigs canon hash cr mo f st c (Some false) l true s1 end) = Panic <->
      exists a p b, l = a ++ p :: b /\ bext_of (sp_pather p) = Ok (s! "-") /\ overruns canon cr st (d_raw c) p /\ forall q, In q a -> bext_of (sp_pather q) = Ok (s! "-") -> endorsed canon cr st (d_raw c) q) as ->.
    { destruct C as [(_ & ->)|(_ & -> & _)]; apply IH'. } split.
    + intros (a & p & b & -> & X & O & EN). exists (g :: a), p, b. split; [reflexivity|]. split; auto. split; auto. intros q [<-|Q] Y; [|auto]. destruct C as [(N & _)|(_ & _ & C)]; [congruence|exact C].
    + intros ([|q a] & p & b & E & X & O & EN); injection E as -> E.
      * exfalso. destruct C as [(N & _)|(_ & _ & C)]; [congruence|]. exact (overruns_unendorsed _ _ _ O C).
      * exists a, p, b. split; auto. split; auto. split; auto. intros z Z. apply EN. now right.
  - cbn [bind]. split; [discriminate|]. intros ([|q a] & p & b & E & X & O & EN); injection E as -> E; [discriminate (proj2 PD (conj X O))|].
    exfalso. destruct TG as (path & B). destruct (beq path (s! "-")) eqn:Q.
    + apply beq_eq in Q. subst path. assert (check_path_sig canon hash cr mo f st c (Some false) q seen = Ok (Some seen)) as W; [|congruence]. apply (path_iff canon hash cr mo (fun _ _ => Ok true) (fun _ => Ok 0%Z)). exists (s! "-"). split; auto. right. split; auto. split; auto. apply EN; auto. now left.
    + assert (check_path_sig canon hash cr mo f st c (Some false) q seen = Ok None) as W; [|congruence]. apply (path_iff canon hash cr mo (fun _ _ => Ok true) (fun _ => Ok 0%Z)). exists path. split; auto. left. split; auto. intros ->. rewrite beq_refl in Q. discriminate.
  - cbn [bind]. split; [|reflexivity]. intros _. destruct (proj1 PD eq_refl) as (X & O). exists [], g, l. split; [reflexivity|]. split; auto. split; auto. intros q [].
Qed.
Lemma path_groups_down f st c seen : forall gs ro, (forall l p, In (GPaths l) gs -> In p l -> exists path, bext_of (sp_pather p) = Ok path) -> (forall p, about_all gs p -> placed canon st p) ->
  (check_path_groups canon hash cr mo f st c (Some false) gs ro seen = Panic <-> falls canon cr st (d_raw c) gs).
Proof.
  unfold falls. induction gs as [|a gs IH]; intros ro FT PL; cbn [check_path_groups]. { split; [discriminate|]. intros ([|a0 ls0] & l & p & l' & rest & E & _); discriminate E. }
  destruct a as [z|z|sg|z|]; try (split; [discriminate|]; intros ([|a0 ls0] & l & p & l' & rest & E & _); discriminate E).
  assert (Forall (fun g => exists path, bext_of (sp_pather g) = Ok path) sg) as TS by (apply Forall_forall; intros g G; exact (FT sg g (or_introl eq_refl) G)).
  pose proof (paths_down f st c seen sg ro TS (fun g G B => PL g (ex_intro _ sg (conj (or_introl eq_refl) (conj G B))))) as PD.
  assert (forall ro', check_path_groups canon hash cr mo f st c (Some false) gs ro' seen = Panic <-> falls canon cr st (d_raw c) gs) as IH'.
  { intros ro'. apply IH; [intros l p L; apply FT; now right|]. intros p (l & L & Q). apply PL. exists l. split; auto. now right. } clear IH. unfold falls in IH'.
  destruct (check_path_sigs canon hash cr mo f st c (Some false) sg ro seen) as [(ro1, se1)|er|] eqn:C.
  - apply (paths_iff canon hash cr mo (fun _ _ => Ok true) (fun _ => Ok 0%Z)) in C as (_ & EN & S1 & _). cbn [fst snd] in *. subst se1. rewrite bind_Ok. cbn [fst snd]. rewrite IH'. split.
    + intros (ls & l & p & l' & rest & -> & X & O & Q). exists (sg :: ls), l, p, l', rest. split; [reflexivity|]. split; auto. split; auto. intros q I. cbn [concat] in I. rewrite <- app_assoc in I. apply in_app_or in I as [I|I]; auto.
    + intros ([|z ls] & l & p & l' & rest & E & X & O & Q); cbn [map app] in E; injection E as E1 E2.
      * exfalso. apply (overruns_unendorsed _ _ _ O). apply EN; auto. rewrite E1. apply in_or_app. right. now left.
      * subst z. exists ls, l, p, l', rest. split; auto. split; auto. split; auto. intros q I. apply Q. cbn [concat]. rewrite <- app_assoc. apply in_or_app. auto.
  - cbn [bind]. split; [discriminate|]. intros ([|z ls] & l & p & l' & rest & E & X & O & Q); cbn [map app] in E; injection E as E1 E2.
    + discriminate (proj2 PD (ex_intro _ l (ex_intro _ p (ex_intro _ l' (conj E1 (conj X (conj O Q))))))).
    + subst z. exfalso. assert (exists r, check_path_sigs canon hash cr mo f st c (Some false) sg ro seen = Ok r) as (r & W); [|congruence].
      set (b := existsb (fun g => match bext_of (sp_pather g) with Ok p => beq p (s! "-") | _ => false end) sg). exists (ro || b, seen). apply (paths_iff canon hash cr mo (fun _ _ => Ok true) (fun _ => Ok 0%Z)). cbn [fst snd]. split; auto.
      split; [intros g G; apply Q; cbn [concat]; rewrite <- app_assoc; apply in_or_app; auto|]. split; auto. rewrite orb_true_iff. unfold b. rewrite existsb_exists. split; (intros [|(g & I & Y)]; [now left|right; exists g; split; auto]).
      * destruct (bext_of (sp_pather g)) as [w| |]; try discriminate. apply beq_eq in Y. now subst w.
      * rewrite Y. apply beq_refl.
  - cbn [bind]. split; [|reflexivity]. intros _. destruct (proj1 PD eq_refl) as (x & p & y & -> & X & O & Q). exists [], x, p, y, gs. auto.
Qed.
End down.

(*# C161_credential_verification_answers_exactly
   Which attachments bring the verification of a credential down, exactly. Take a credential that is accepted with some attachments and attach instead any groups whatsoever, with the store trusted: verification panics if
   and only if, reading the groups from the front, among the signatures of a stored key event on the whole credential one has the number of the keys of that event as its index, before any signature that cannot be
   checked, any group of another kind, and any group about the whole that does not endorse it. Paths must have texts; the store must answer about the events named, if it has them with thresholds that give each key
   a weight with a small denominator.
##
Example C161_exactly_case : verify_acdc no_floats mix toy runic accepts_all young 9 (view no_floats issued) cred0 [GPaths [csigs0]] (Some false) [] = Ok (true, []) /\
  (forall x, placed no_floats (view no_floats issued) (lone x)) /\ placed no_floats (view no_floats issued) csigs0 /\ placed no_floats (view no_floats issued) csigs_m /\
  verify_acdc no_floats mix toy runic accepts_all young 9 (view no_floats issued) cred0 [GPaths [csigs0; lone (Ix (s! "A") [] 2 2)]; GOther] (Some false) [] = Panic /\
  verify_acdc no_floats mix toy runic accepts_all young 9 (view no_floats issued) cred0 [GPaths [csigs0; lone (Ix (s! "A") [] 3 3)]; GPaths [lone (Ix (s! "A") [] 2 2)]] (Some false) [] = Err EVerification /\
  verify_acdc no_floats mix toy runic accepts_all young 9 (view no_floats issued) cred0 [GPaths [csigs0]; GPaths [csigs_m]; GPaths [lone (Ix (s! "A") [] 2 2)]] (Some false) [] = Err EForeign.
Proof.
  split; [exact issued_accepted|]. destruct issued_refers as (ks & t & A & B & C). assert (steady t (len ks)) as ST by (intros W; congruence).
  split; [intros x; right; right; exists event0, ks, t; split; [exact A|exact ST]|]. split; [right; right; exists event0, ks, t; split; [exact A|exact ST]|].
  split. { left. exists pre_m, 0, EForeign. split; [vm_compute; reflexivity|]. split; vm_compute; reflexivity. } split; [vm_compute; reflexivity|]. split; vm_compute; reflexivity.
Qed.
#*)
Lemma C161_exactly_l (canon : bytes -> option bytes) (hash : bytes -> bytes -> bytes) (cr : crypto) (messages_of : bytes -> R (list message)) (schema_check : bytes -> bytes -> R bool) (age : bytes -> R Z)
    (fuel : nat) (st : store) (e : sadder) (g g' : list group) (seen : list bytes) (r : bool * list bytes) :
  verify_acdc canon hash cr messages_of schema_check age fuel st e g (Some false) seen = Ok r ->
  (forall l p, In (GPaths l) g' -> In p l -> exists path, bext_of (sp_pather p) = Ok path) -> (forall p, about_all g' p -> placed canon st p) ->
  (verify_acdc canon hash cr messages_of schema_check age fuel st e g' (Some false) seen = Panic <-> falls canon cr st (d_raw e) g').
Proof.
  destruct fuel as [|f]; intros H T A; [discriminate|]. destruct r as (there & seen'). inv_passed H. rewrite (acdc_again _ _ _ _ _ _ _ _ _ _ _ _ _ _ _ _ _ _ _ _ _ _ _ _ _ _ _ H).
  rewrite <- (path_groups_down canon hash cr messages_of f st e seen1 g' false T A).
  destruct (check_path_groups canon hash cr messages_of f st e (Some false) g' false seen1) as [rs|er|] eqn:C; [|split; discriminate|split; reflexivity]. split; [|discriminate]. rewrite bind_Ok. intros X. exfalso. revert X.
  apply (groups_iff canon hash cr messages_of schema_check age) in C as (_ & _ & -> & _). destruct (negb (fst rs)); [discriminate|].
  destruct H as [_ _ _ _ _ _ _ _ _ _ _ _ _ HP _ HE _]. apply (groups_iff canon hash cr messages_of schema_check age) in HP as (_ & _ & E2 & _). cbn [snd] in E2. subst seen2. rewrite HE, bind_Ok. discriminate.
Qed.

(*# C161_credential_verification_answers_exactly_at_depth
   The same at any depth, once the recursion may be deep enough, in a ledger taken in from an empty one with verification on, if every credential in the chains that start from this one is in good standing.
##
Example C161_at_depth_case : sized_hash mix /\ finds_all no_floats (fun _ _ => true) /\ textual own_knot /\ reads_back knotted own_knot /\
  reached no_floats mix toy knotted own_knot accepts_all young (fun _ _ => true) own_chain /\ (forall pre, len (l_tel own_chain pre) <= 2 ^ 32) /\
  verify_acdc no_floats mix toy knotted accepts_all young 1 (view no_floats own_chain) cred_b [GPaths [csigs_b]] (Some false) [] = Ok (true, []) /\ (forall x, placed no_floats (view no_floats own_chain) (lone x)) /\
  verify_acdc no_floats mix toy knotted accepts_all young 9 (view no_floats own_chain) cred_b [GPaths [csigs_b; lone (Ix (s! "A") [] 2 2)]] None [] = Panic /\
  is_err (verify_acdc no_floats mix toy knotted accepts_all young 9 (view no_floats own_chain) cred_b [GPaths [csigs_b; lone (Ix (s! "A") [] 3 3)]] None []) = true.
Proof.
  split; [exact mix_sized|]. split; [intros l said _; reflexivity|]. split; [exact knot_textual|]. split; [exact knot_read|]. split; [exact chain_reached|]. split; [exact own_short|]. split; [exact own_accepted|].
  split; [|split; vm_compute; reflexivity]. intros x. right. right. destruct issued_refers as (ks & t & (pre & n & said & A1 & A2 & A3 & (text & A4 & A5 & A6) & A7 & A8) & B & C). exists event0, ks, t. split; [|intros W; congruence].
  exists pre0, 0, (World.got [] (sad_said event0)). split; [vm_compute; reflexivity|]. split; [vm_compute; reflexivity|]. split; [vm_compute; reflexivity|]. split; [|split; [exact A7|exact A8]].
  exists (World.got [] (get_key_event (view no_floats own_chain) pre0 (asked_for 0))). split; [vm_compute; reflexivity|]. split; vm_compute; reflexivity.
Qed.
#*)
Lemma C161_at_depth_l (canon : bytes -> option bytes) (hash : bytes -> bytes -> bytes) (cr : crypto) (messages_of : bytes -> R (list message)) (group_text : group -> R bytes)
    (schema_check : bytes -> bytes -> R bool) (age : bytes -> R Z) (seen_said : ledger -> bytes -> bool) (l : ledger) (age' : bytes -> R Z) (e : sadder) (g g' : list group) (r : bool * list bytes) :
  sized_hash hash -> finds_all canon seen_said -> textual group_text -> reads_back messages_of group_text -> reached canon hash cr messages_of group_text schema_check age seen_said l ->
  (forall pre, len (l_tel l pre) <= 2 ^ 32) -> (forall s, descends canon (view canon l) (d_ked e) s -> standing canon age' (view canon l) s) ->
  verify_acdc canon hash cr messages_of schema_check age' 1 (view canon l) e g (Some false) [] = Ok r ->
  (forall l0 p, In (GPaths l0) g' -> In p l0 -> exists path, bext_of (sp_pather p) = Ok path) -> (forall p, about_all g' p -> placed canon (view canon l) p) ->
  exists bound, forall fuel deep seen, (bound <= fuel)%nat ->
    (verify_acdc canon hash cr messages_of schema_check age' fuel (view canon l) e g' deep seen = Panic <-> falls canon cr (view canon l) (d_raw e) g').
Proof.
  intros SH FA TX RB RE LT DS H T A. destruct (C170d_l canon hash cr messages_of group_text schema_check age seen_said l age' e g' SH FA TX RB RE LT DS) as (b & B). exists b. intros fuel deep seen LE. specialize (B fuel deep seen LE).
  rewrite <- (C161_exactly_l canon hash cr messages_of schema_check age' 1 (view canon l) e g g' [] r H T A).
  destruct (verify_acdc canon hash cr messages_of schema_check age' fuel (view canon l) e g' deep seen) as [(x, y)|er|]; destruct (verify_acdc canon hash cr messages_of schema_check age' 1 (view canon l) e g' (Some false) []) as [(x', y')|er'|]; try discriminate B; split; congruence.
Qed.

(*# C162_further_endorsements_exactly
   Which attachments an acceptable credential is accepted with, exactly. Take a credential that is accepted with some attachments and attach instead any groups, with the store trusted: it is accepted, with the same
   answer, if and only if all groups are of signatures on parts of it, one at least is about the whole, and each of these names a stored key event and has enough good signatures by its keys. So a further
   endorsement does no harm exactly if it is good.
##
Example C162_exactly_case : verify_acdc no_floats mix toy runic accepts_all young 9 (view no_floats issued) cred0 [GPaths [csigs0]] (Some false) [] = Ok (true, []) /\
  verify_acdc no_floats mix toy runic accepts_all young 9 (view no_floats issued) cred0 [GPaths [csigs0]; GPaths [csigs0]] (Some false) [] = Ok (true, []) /\
  verify_acdc no_floats mix toy runic accepts_all young 9 (view no_floats issued) cred0 [] (Some false) [] = Err EVerification /\
  verify_acdc no_floats mix toy runic accepts_all young 9 (view no_floats issued) cred0 [GPaths [csigs0]; GOther] (Some false) [] = Err EDecoding.
Proof. split; [exact issued_accepted|]. split; [vm_compute; reflexivity|]. split; vm_compute; reflexivity. Qed.
#*)
Lemma C162_exactly_l (canon : bytes -> option bytes) (hash : bytes -> bytes -> bytes) (cr : crypto) (messages_of : bytes -> R (list message)) (schema_check : bytes -> bytes -> R bool) (age : bytes -> R Z)
    (fuel : nat) (st : store) (e : sadder) (g g' : list group) (seen : list bytes) (r : bool * list bytes) :
  verify_acdc canon hash cr messages_of schema_check age fuel st e g (Some false) seen = Ok r ->
  (verify_acdc canon hash cr messages_of schema_check age fuel st e g' (Some false) seen = Ok r <->
   Forall on_parts g' /\ (exists p, about_all g' p) /\ forall p, about_all g' p -> endorsed canon cr st (d_raw e) p).
Proof.
  destruct fuel as [|f]; intros H; [discriminate|]. destruct r as (there & seen'). inv_passed H. rewrite (acdc_again _ _ _ _ _ _ _ _ _ _ _ _ _ _ _ _ _ _ _ _ _ _ _ _ _ _ _ H).
  destruct H as [_ _ _ _ _ _ _ _ _ _ _ _ _ HP _ HE _]. apply (groups_iff canon hash cr messages_of schema_check age) in HP as (_ & _ & E2 & _). cbn [snd] in E2. subst seen2. split.
  - intros X. apply bind_ok in X as ((ro & se) & C & X). apply (groups_iff canon hash cr messages_of schema_check age) in C as (C1 & C2 & C3 & C4). cbn [fst snd] in *. split; [exact C1|]. split; [|exact C2]. destruct ro; [|discriminate X].
    destruct (proj1 C4 eq_refl) as [W|W]; [discriminate W|exact W].
  - intros (C1 & C2 & C3). rewrite (proj2 (groups_iff canon hash cr messages_of schema_check age f st e seen1 g' false (true, seen1))). { rewrite bind_Ok. cbn [fst snd negb]. rewrite HE. reflexivity. }
    cbn [fst snd]. split; [exact C1|]. split; [exact C3|]. split; [reflexivity|]. split; auto.
Qed.

(*# C162_further_endorsements_exactly_at_depth
   The same at any depth, once the recursion may be deep enough, in a ledger taken in from an empty one with verification on, if every credential in the chains that start from this one is in good standing.
##
Example C162_at_depth_case : sized_hash mix /\ finds_all no_floats (fun _ _ => true) /\ textual own_knot /\ reads_back knotted own_knot /\
  reached no_floats mix toy knotted own_knot accepts_all young (fun _ _ => true) own_chain /\ (forall pre, len (l_tel own_chain pre) <= 2 ^ 32) /\
  verify_acdc no_floats mix toy knotted accepts_all young 1 (view no_floats own_chain) cred_b [GPaths [csigs_b]] (Some false) [] = Ok (true, []) /\
  verdict (verify_acdc no_floats mix toy knotted accepts_all young 9 (view no_floats own_chain) cred_b [GPaths [csigs_b]; GPaths [csigs_b]] None []) = Ok true.
Proof.
  split; [exact mix_sized|]. split; [intros l said _; reflexivity|]. split; [exact knot_textual|]. split; [exact knot_read|]. split; [exact chain_reached|]. split; [exact own_short|]. split; [exact own_accepted|]. vm_compute. reflexivity.
Qed.
#*)
Lemma C162_at_depth_l (canon : bytes -> option bytes) (hash : bytes -> bytes -> bytes) (cr : crypto) (messages_of : bytes -> R (list message)) (group_text : group -> R bytes)
    (schema_check : bytes -> bytes -> R bool) (age : bytes -> R Z) (seen_said : ledger -> bytes -> bool) (l : ledger) (age' : bytes -> R Z) (e : sadder) (g g' : list group) (there : bool) :
  sized_hash hash -> finds_all canon seen_said -> textual group_text -> reads_back messages_of group_text -> reached canon hash cr messages_of group_text schema_check age seen_said l ->
  (forall pre, len (l_tel l pre) <= 2 ^ 32) -> (forall s, descends canon (view canon l) (d_ked e) s -> standing canon age' (view canon l) s) ->
  verify_acdc canon hash cr messages_of schema_check age' 1 (view canon l) e g (Some false) [] = Ok (there, []) ->
  exists bound, forall fuel deep seen, (bound <= fuel)%nat ->
    ((exists seen', verify_acdc canon hash cr messages_of schema_check age' fuel (view canon l) e g' deep seen = Ok (there, seen')) <->
     Forall on_parts g' /\ (exists p, about_all g' p) /\ forall p, about_all g' p -> endorsed canon cr (view canon l) (d_raw e) p).
Proof.
  intros SH FA TX RB RE LT DS H. destruct (C170d_l canon hash cr messages_of group_text schema_check age seen_said l age' e g' SH FA TX RB RE LT DS) as (b & B). exists b. intros fuel deep seen LE. specialize (B fuel deep seen LE).
  rewrite <- (C162_exactly_l canon hash cr messages_of schema_check age' 1 (view canon l) e g g' [] (there, []) H).
  assert (forall x y, verify_acdc canon hash cr messages_of schema_check age' 1 (view canon l) e g' (Some false) [] = Ok (x, y) -> y = []) as Y by (intros x y X; apply exactly_accepted in X as (-> & _); reflexivity).
  destruct (verify_acdc canon hash cr messages_of schema_check age' fuel (view canon l) e g' deep seen) as [(x, y)|er|]; destruct (verify_acdc canon hash cr messages_of schema_check age' 1 (view canon l) e g' (Some false) []) as [(x', y')|er'|]; try discriminate B.
  - cbn in B. injection B as ->. rewrite (Y _ _ eq_refl). split; [intros (s & [= <- _]); reflexivity|intros [= <-]; eauto].
  - split; [intros (s & X)|]; discriminate.
  - split; [intros (s & X)|]; discriminate.
Qed.
