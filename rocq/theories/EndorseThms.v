(** Proofs of the theorems on attachments and edges of credentials. *)
From Coq Require Import String.
From Coq Require Import NArith ZArith QArith Bool List Lia Permutation.
From Verif Require Import Base Tables Matter Indexer Prims Json Tholder Common Saider Diger Sadder Signer Prefixer Pather Short Verify Ingest Events.
From Verif Require Import Spec SpecPrims SpecJson SpecCommon SpecTholder SpecSaider SpecSadder SpecPrefixer SpecSigner SpecLog SpecIngest SpecCred SpecExtra SpecEndorse World Forgery Chain.
From Verif Require Import BaseFacts MatterFacts PrimsFacts SadderFacts SadderThms TholderFacts TholderThms VerifyFacts VerifyThms ExtraFacts LogThms IngestThms CredThms ChainThms.
Import ListNotations.
Open Scope N_scope.

(** ** Signatures *)
Definition okb (cr : crypto) (ks : list matter) (raw : bytes) (x : indexer) : bool :=
  match nth_error ks (N.to_nat (i_index x)) with Some v => match verfer_verify cr v (i_raw x) raw with Ok b => b | _ => false end | None => false end.
Lemma okb_verifies cr ks raw x : okb cr ks raw x = true <-> verifies cr ks raw x.
Proof.
  unfold okb, verifies. split.
  - destruct (nth_error ks _) as [v|]; [|discriminate]. destruct (verfer_verify cr v (i_raw x) raw) as [b| |] eqn:V; try discriminate. intros ->. eauto.
  - intros (v & -> & ->). reflexivity.
Qed.
Lemma those_filter {A} (P : A -> Prop) f l k : (forall x, f x = true <-> P x) -> those P l k -> k = filter f l.
Proof.
  intros E T. induction T as [|x l k Q T IH|x l k Q T IH]; cbn [filter]; auto.
  - destruct (f x) eqn:F; [now rewrite IH|]. apply E in Q. congruence.
  - destruct (f x) eqn:F; [|auto]. apply E in F. contradiction.
Qed.
Lemma filter_is {A} (P : A -> Prop) f l : (forall x, f x = true <-> P x) -> those P l (filter f l).
Proof.
  intros E. induction l as [|x l IH]; cbn [filter]; [constructor|]. destruct (f x) eqn:F; constructor; auto; [now apply E|]. intros Q. apply E in Q. congruence.
Qed.
Lemma check_iff cr ks raw sigs found : check_sigs cr ks raw sigs = Ok found <->
  Forall (answered cr ks raw) sigs /\ found = map (fun x => (i_index x, i_ondex x)) (filter (okb cr ks raw) sigs).
Proof.
  revert found. induction sigs as [|x r IH]; intros found; cbn [check_sigs]. { cbn. split; [intros [= <-]; split; [constructor|reflexivity]|intros (_ & ->); reflexivity]. }
  split.
  - destruct (len ks <? i_index x); [discriminate|]. destruct (nth_error ks (N.to_nat (i_index x))) as [v|] eqn:V; [|discriminate]. intros H. apply bind_ok in H as (ok & K & H). apply bind_ok in H as (l & L & H).
    apply IH in L as (F & ->). split; [constructor; auto; exists v, ok; auto|]. cbn [filter]. replace (okb cr ks raw x) with ok by (unfold okb; now rewrite V, K). destruct ok; injection H as <-; reflexivity.
  - intros (F & ->). inversion F as [|? ? (v & b & V & K) F']; subst. assert (N.to_nat (i_index x) < length ks)%nat as B by (apply nth_error_Some; congruence).
    replace (len ks <? i_index x) with false by (symmetry; apply N.ltb_ge; unfold len; lia). rewrite V, K, bind_Ok. rewrite (proj2 (IH _) (conj F' eq_refl)), bind_Ok. cbn [filter]. replace (okb cr ks raw x) with b by (unfold okb; now rewrite V, K). destruct b; reflexivity.
Qed.
Lemma filter_perm {A} (f : A -> bool) l l' : Permutation l l' -> Permutation (filter f l) (filter f l').
Proof.
  intros P. induction P as [|x l l' P IH|x y l|l l' l'' P1 IH1 P2 IH2]; cbn [filter]; auto; [destruct (f x); auto| |eapply perm_trans; eauto].
  destruct (f x), (f y); auto. apply perm_swap.
Qed.
Lemma existsb_same {A} (f : A -> bool) l l' : (forall x, In x l <-> In x l') -> existsb f l = existsb f l'.
Proof.
  intros E. apply eq_true_iff_eq. rewrite !existsb_exists. split; intros (x & I & F); exists x; split; auto; now apply E.
Qed.
Lemma clauses_same (f g : N -> bool) : (forall i, f i = g i) -> forall cs pos, satisfy_clauses f pos cs = satisfy_clauses g pos cs.
Proof.
  intros E. assert (forall c pos, signed_weights f pos c = signed_weights g pos c) as S. { induction c as [|w c IH]; intros pos; cbn; auto. now rewrite E, IH. }
  induction cs as [|c cs IH]; intros pos; cbn; auto. rewrite S. destruct (rat_sum (signed_weights g pos c)) as [a| |]; cbn; auto. destruct (rat_lt1 a); auto.
Qed.
Lemma satisfy_perm t idx idx' : Permutation idx idx' -> satisfy t idx = satisfy t idx'.
Proof.
  intros P. assert (forall x, In x idx <-> In x idx') as E. { intros x. split; apply Permutation_in; [exact P|now apply Permutation_sym]. }
  unfold satisfy, satisfy_numeric, satisfy_weighted. destruct (t_number t).
  - unfold len. now rewrite (Permutation_length P).
  - destruct (t_bexter t); auto. rewrite (existsb_same _ _ _ E). destruct (existsb _ idx'); auto. destruct (values_to_rationals (t_thold t)) as [cs| |]; auto. rewrite !bind_Ok. destruct (t_size t <? len (concat cs)); auto.
    apply clauses_same. intros i. now apply existsb_same.
Qed.

(** ** Groups, without depth *)
Section Shallow.
Variable canon : bytes -> option bytes.
Variable hash : bytes -> bytes -> bytes.
Variable cr : crypto.
Variable mo : bytes -> R (list message).
Variable schema_check : bytes -> bytes -> R bool.
Variable age : bytes -> R Z.
Lemma path_iff f st c g seen o : check_path_sig canon hash cr mo f st c (Some false) g seen = Ok o <->
  exists path, bext_of (sp_pather g) = Ok path /\ (path <> s! "-" /\ o = None \/ path = s! "-" /\ o = Some seen /\ endorsed canon cr st (d_raw c) g).
Proof.
  unfold check_path_sig. split.
  - intros H. apply bind_ok in H as (path & B & H). exists path. split; auto. destruct (beq path (s! "-")) eqn:E; cbn [negb] in H.
    2:{ injection H as <-. left. split; auto. intros ->. rewrite beq_refl in E. discriminate. }
    apply beq_eq in E. right. split; auto. apply bind_ok in H as (pre & H1 & H). apply bind_ok in H as (n & H2 & H). apply bind_ok in H as (event & H3 & H). apply bind_ok in H as (e & H4 & H).
    apply bind_ok in H as (said & H5 & H). apply bind_ok in H as (want & H6 & H). destruct (beq said want) eqn:E2; cbn [negb] in H; [|discriminate]. apply beq_eq in E2. subst want. cbn [or_else andb] in H. rewrite bind_Ok in H.
    apply bind_ok in H as (ks & H7 & H). apply bind_ok in H as (found & H8 & H). apply bind_ok in H as (t & H9 & H). destruct t as [t|]; [|discriminate]. apply bind_ok in H as (ok & H10 & H). destruct ok; [|discriminate]. injection H as <-.
    split; auto. apply check_iff in H8 as (F & ->). destruct (distinct_ok (sp_sigers g) [] (NoDup_nil _)) as (D1 & D2). rewrite map_map in H10.
    exists e, ks, t, (distinct [] (sp_sigers g)), (filter (okb cr ks (d_raw c)) (distinct [] (sp_sigers g))). split. { exists pre, n, said. repeat (split; [assumption|]). split; auto. exists event. rewrite <- asked_mod. auto. }
    split; auto. split. { intros x. rewrite D2. cbn. tauto. } split; auto. split; auto. apply filter_is. apply okb_verifies.
  - intros (path & -> & H). rewrite bind_Ok. destruct H as [(N & ->)|(-> & -> & (e & ks & t & sigs & good & (pre & n & said & H1 & H2 & H3 & (event & H4 & H5 & H6) & H7 & H8) & ND & SI & F & T & SA))].
    { destruct (beq path (s! "-")) eqn:E; auto. apply beq_eq in E. contradiction. }
    rewrite beq_refl. cbn [negb]. rewrite H1, bind_Ok, H2, bind_Ok, asked_mod, H4, bind_Ok, H5, bind_Ok, H6, bind_Ok, H3, bind_Ok, beq_refl. cbn [negb or_else andb]. rewrite bind_Ok, H7, bind_Ok.
    destruct (distinct_ok (sp_sigers g) [] (NoDup_nil _)) as (D1 & D2). assert (Permutation sigs (distinct [] (sp_sigers g))) as P. { apply NoDup_Permutation; auto. intros x. rewrite SI, D2. cbn. tauto. }
    assert (Forall (answered cr ks (d_raw c)) (distinct [] (sp_sigers g))) as F'. { rewrite Forall_forall in *. intros x I. apply F. eapply Permutation_in; [apply Permutation_sym, P|exact I]. }
    rewrite (proj2 (check_iff cr ks (d_raw c) _ _) (conj F' eq_refl)), bind_Ok, H8, bind_Ok, map_map. cbn [fst]. apply (those_filter _ (okb cr ks (d_raw c))) in T; [|apply okb_verifies].
    rewrite <- (satisfy_perm t (map i_index good)); [rewrite SA; reflexivity|]. subst good. apply Permutation_map. now apply filter_perm.
Qed.
Lemma paths_iff f st c seen : forall l rooted r, check_path_sigs canon hash cr mo f st c (Some false) l rooted seen = Ok r <->
  Forall (fun g => exists path, bext_of (sp_pather g) = Ok path) l /\ (forall g, In g l -> bext_of (sp_pather g) = Ok (s! "-") -> endorsed canon cr st (d_raw c) g) /\
  snd r = seen /\ (fst r = true <-> rooted = true \/ exists g, In g l /\ bext_of (sp_pather g) = Ok (s! "-")).
Proof.
  induction l as [|g l IH]; intros rooted (ro & se); cbn [check_path_sigs fst snd].
  { split; [intros [= <- <-]; split; [constructor|]; split; [intros g []|]; split; auto; split; auto; intros [|(g & [] & _)]; auto|]. intros (_ & _ & -> & H). f_equal. f_equal. apply eq_true_iff_eq. rewrite H. split; auto. intros [|(g & [] & _)]; auto. }
  split.
  - intros H. apply bind_ok in H as (o & O & H). apply path_iff in O as (path & B & [(N & ->)|(-> & -> & E)]).
    + apply IH in H as (H1 & H2 & H3 & H4). cbn [fst snd] in *. split; [constructor; eauto|]. split. { intros x [<-|I] X; [congruence|auto]. } split; auto. rewrite H4. split; [intros [|(x & I & X)]; auto; right; exists x; split; auto; now right|].
      intros [|(x & [<-|I] & X)]; auto; [congruence|right; eauto].
    + apply IH in H as (H1 & H2 & H3 & H4). cbn [fst snd] in *. split; [constructor; eauto|]. split. { intros x [<-|I] X; auto. } split; auto. rewrite H4. split; [|intros _; now left]. intros _. right. exists g. split; auto. now left.
  - intros (H1 & H2 & H3 & H4). inversion H1 as [|? ? (path & B) H1']; subst. destruct (beq path (s! "-")) eqn:E.
    + apply beq_eq in E. subst path. rewrite (proj2 (path_iff f st c g seen (Some seen))), bind_Ok. 2:{ exists (s! "-"). split; auto. right. split; auto. split; auto. apply H2; auto. now left. }
      apply IH. cbn [fst snd]. split; auto. split; [intros x I; apply H2; now right|]. split; auto. rewrite H4. split; [intros _; now left|]. intros _. right. exists g. split; auto. now left.
    + rewrite (proj2 (path_iff f st c g seen None)), bind_Ok. 2:{ exists path. split; auto. left. split; auto. intros ->. rewrite beq_refl in E. discriminate. }
      apply IH. cbn [fst snd]. split; auto. split; [intros x I; apply H2; now right|]. split; auto. rewrite H4. split; [|intros [|(x & I & X)]; auto; right; exists x; split; auto; now right].
      intros [|(x & [<-|I] & X)]; auto; [|right; eauto]. assert (path = s! "-") as -> by congruence. rewrite beq_refl in E. discriminate.
Qed.
Lemma groups_iff f st c seen : forall gs rooted r, check_path_groups canon hash cr mo f st c (Some false) gs rooted seen = Ok r <->
  Forall on_parts gs /\ (forall g, about_all gs g -> endorsed canon cr st (d_raw c) g) /\ snd r = seen /\ (fst r = true <-> rooted = true \/ exists g, about_all gs g).
Proof.
  induction gs as [|a gs IH]; intros rooted (ro & se); cbn [check_path_groups fst snd].
  { split.
    - intros [= <- <-]. split; [constructor|]. split; [intros g (l & [] & _)|]. split; auto. split; auto. intros [|(g & l & [] & _)]; auto.
    - intros (_ & _ & -> & H). f_equal. f_equal. apply eq_true_iff_eq. rewrite H. split; auto. intros [|(g & l & [] & _)]; auto. }
  split.
  - intros H. destruct a as [| |l| |]; try discriminate. apply bind_ok in H as ((ro1 & se1) & O & H). apply paths_iff in O as (A1 & A2 & A3 & A4). cbn [fst snd] in *. subst se1. apply IH in H as (H1 & H2 & H3 & H4). cbn [fst snd] in *.
    split; [constructor; auto; exists l; auto|]. split. { intros g (l' & [E|I] & J & X); [injection E as <-; auto|]. apply H2. exists l'. auto. } split; auto. rewrite H4, A4. split.
    + intros [[|(g & I & X)]|(g & l' & I & J & X)]; auto; right; [exists g, l; split; auto; now left|exists g, l'; split; auto; now right].
    + intros [|(g & l' & [E|I] & J & X)]; auto; [injection E as <-; left; right; eauto|right; exists g, l'; auto].
  - intros (H1 & H2 & H3 & H4). inversion H1 as [|? ? (l & -> & Fl) H1']; subst. cbv beta iota.
    assert (exists ro1, check_path_sigs canon hash cr mo f st c (Some false) l rooted seen = Ok (ro1, seen) /\ (ro1 = true <-> rooted = true \/ exists g, In g l /\ bext_of (sp_pather g) = Ok (s! "-"))) as (ro1 & O & A4).
    { set (b := existsb (fun g => match bext_of (sp_pather g) with Ok p => beq p (s! "-") | _ => false end) l).
      assert (b = true <-> exists g, In g l /\ bext_of (sp_pather g) = Ok (s! "-")) as Eb.
      { unfold b. rewrite existsb_exists. split; intros (g & I & X); exists g; split; auto; [|rewrite X; apply beq_refl]. destruct (bext_of (sp_pather g)) as [p| |]; try discriminate. apply beq_eq in X. now subst p. }
      exists (rooted || b). assert (rooted || b = true <-> rooted = true \/ exists g, In g l /\ bext_of (sp_pather g) = Ok (s! "-")) as EE by (rewrite orb_true_iff, Eb; tauto). split; auto.
      apply paths_iff. cbn [fst snd]. split; auto. split; auto. intros g I X. apply H2. exists l. split; auto. now left. }
    rewrite O, bind_Ok. cbn [fst snd]. apply IH. cbn [fst snd]. split; auto. split. { intros g (l' & I & J & X). apply H2. exists l'. split; auto. now right. } split; auto. rewrite H4, A4. split.
    + intros [|(g & l' & [E|I] & J & X)]; auto; [injection E as <-; left; right; eauto|right; exists g, l'; auto].
    + intros [[|(g & I & X)]|(g & l' & I & J & X)]; auto; right; [exists g, l; split; auto; now left|exists g, l'; split; auto; now right].
Qed.

(** ** Edges *)
Lemma node_iff st c node : (exists x, check_node canon schema_check st c node = Ok x) <-> in_order canon schema_check st c node.
Proof.
  split.
  - intros (((nsaid & msg) & pa) & H). pose proof H as H0. apply node_ok in H0 as (N1 & N2 & N3 & N4 & ops & subject & N5 & N6 & N7 & N8). exists nsaid, pa, ops.
    unfold check_node in H. apply bind_ok in H as (m & M & H). unfold to_map in M. destruct node as [| | | | | |m']; try discriminate. injection M as ->. apply bind_ok in H as (n & N & H). apply bind_ok in H as (ns & NS & H).
    apply bind_ok in H as (msg' & G & H). apply bind_ok in H as (pa' & C & H). apply bind_ok in H as (ok & K & H). destruct ok; [|discriminate]. cbn [negb] in H. apply bind_ok in H as (o & O & H). apply bind_ok in H as (su & SU & H). apply bind_ok in H as (ms & MS & H).
    assert (ns = nsaid) as ->. { unfold leads in N1. apply field_assoc in N1. unfold entry in N. rewrite N1 in N. injection N as <-. cbn in NS. congruence. } assert (msg' = msg) as -> by congruence. assert (pa' = pa) as -> by congruence.
    apply index_field in SU. assert (subject = su) as -> by (eapply field_unique; eauto). unfold to_map in MS. destruct su as [| | | | | |su]; try discriminate. injection MS as ->. exists ms. split; auto. split; [exists msg; auto|]. split; auto.
    destruct (assoc (s! "s") m) as [v|] eqn:A; [|left; intros x X; apply field_assoc in X; congruence]. right. apply bind_ok in K as (schema & SC & K). apply bind_ok in K as (text & T & K). pose proof (utf8_from _ _ T). subst text.
    destruct v; try discriminate. injection SC as ->. exists schema. split; [now apply field_assoc|auto].
  - intros (said & e' & ops & subject & L & (msg & G & C) & S & O & NN & SU & D). exists (said, msg, e'). unfold check_node. unfold leads in L. assert (exists m, node = VObj m) as (m & ->) by (apply field_obj in L as (m & -> & _); eauto).
    cbn [to_map]. rewrite bind_Ok. unfold entry. apply field_assoc in L. rewrite L, bind_Ok. cbn [to_string]. rewrite bind_Ok, G, bind_Ok, C, bind_Ok.
    assert ((match assoc (s! "s") m with Some v => let* node_schema := to_string v in let* text := from_utf8 (d_raw e') in schema_check node_schema text | None => Ok true end) = Ok true) as ->.
    { destruct S as [S|(schema & S & U & V)]; [|apply field_assoc in S; rewrite S; cbn [to_string]; now rewrite bind_Ok, U, bind_Ok]. destruct (assoc (s! "s") m) as [v|] eqn:A; auto. exfalso. apply (S v). now apply field_assoc. }
    rewrite bind_Ok. cbn [negb]. unfold operators_of.
    assert ((match assoc (s! "o") m with None => Ok [] | Some v => match to_string v with Ok t => Ok [t] | _ => let* l := to_vec v in Verify.texts l end end) = Ok ops) as ->.
    { destruct O as [(LK & ->)|[(t & T & ->)|T]].
      - destruct (assoc (s! "o") m) as [v|] eqn:A; auto. exfalso. apply (LK v). now apply field_assoc.
      - apply field_assoc in T. rewrite T. reflexivity.
      - apply field_assoc in T. rewrite T. cbn [to_string to_vec]. rewrite bind_Ok. clear. induction ops as [|o ops IH]; cbn [map Verify.texts]; auto. cbn [to_string]. now rewrite IH. }
    rewrite bind_Ok. destruct (has_code ops (s! "NOT")) eqn:HN; [apply has_code_In in HN; contradiction|]. rewrite bind_Ok. unfold creder_subject. rewrite (proj2 (index_field _ _ _) SU), bind_Ok. cbn [to_map]. rewrite bind_Ok.
    set (chosen := filter (has_code [s! "I2I"; s! "NI2I"; s! "DI2I"]) ops). assert (forall k, those unary ops k -> k = chosen) as TH. { intros k T. apply (those_filter _ (has_code [s! "I2I"; s! "NI2I"; s! "DI2I"])) in T; auto. intros x. apply has_code_In. }
    destruct D as [([T|(T & x & X)] & (issuer & I1 & I2))|[T|(T & X)]]; apply TH in T; rewrite <- T; cbn [operator_of].
    + rewrite bind_Ok. change (beq (s! "I2I") (s! "I2I")) with true. cbv iota. apply field_assoc in I2. rewrite I2, bind_Ok. cbn [to_string]. rewrite bind_Ok. unfold creder_issuer. rewrite (proj2 (index_field _ _ _) I1), bind_Ok. cbn [to_string]. rewrite bind_Ok, beq_refl. reflexivity.
    + apply field_assoc in I2. unfold contains_key. rewrite I2, bind_Ok. change (beq (s! "I2I") (s! "I2I")) with true. cbv iota. rewrite bind_Ok. cbn [to_string]. rewrite bind_Ok. unfold creder_issuer. rewrite (proj2 (index_field _ _ _) I1), bind_Ok. cbn [to_string]. rewrite bind_Ok, beq_refl. reflexivity.
    + rewrite bind_Ok. reflexivity.
    + unfold contains_key. destruct (assoc (s! "i") subject) as [v|] eqn:A; [exfalso; apply (X v); now apply field_assoc|]. rewrite bind_Ok. reflexivity.
Qed.
Lemma nodes_shallow_iff f st c : forall nodes seen seen', nodes_of canon hash cr mo schema_check age f st c (Some false) nodes seen = Ok seen' <->
  seen' = seen /\ forall label node, In (label, node) nodes -> label <> s! "d" -> label <> s! "o" -> in_order canon schema_check st c node.
Proof.
  induction nodes as [|(label, node) nodes IH]; intros seen seen'; cbn [nodes_of]. { split; [intros [= ->]; split; [auto|intros ? ? []]|intros (-> & _); reflexivity]. }
  destruct (has_code [s! "d"; s! "o"] label) eqn:HC.
  - apply has_code_In in HC. rewrite IH. split; intros (-> & H); split; auto.
    + intros lb nd [E|I] N1 N2; [|eauto]. injection E as -> ->. destruct HC as [|[|[]]]; congruence.
    + intros lb nd I. apply (H lb nd). now right.
  - split.
    + intros H. apply bind_ok in H as (((ns & msg) & pa) & N & H). cbn [or_else andb] in H. rewrite bind_Ok in H. apply IH in H as (-> & H). split; auto. intros lb nd [E|I] N1 N2; [|eauto]. injection E as <- <-. apply node_iff. eauto.
    + intros (-> & H). destruct (proj2 (node_iff st c node)) as (((ns & msg) & pa) & ->). { apply (H label node); [now left| |]; intros ->; discriminate. } rewrite bind_Ok. cbn [or_else andb]. rewrite bind_Ok. apply IH. split; auto. intros lb nd I. apply (H lb nd). now right.
Qed.
Lemma edges_shallow_iff f st c : forall edges seen seen', edges_of canon hash cr mo schema_check age f st c (Some false) edges seen = Ok seen' <->
  seen' = seen /\ exists l, edges = map VObj l /\ forall es label node, In es l -> In (label, node) es -> label <> s! "d" -> label <> s! "o" -> in_order canon schema_check st c node.
Proof.
  induction edges as [|x edges IH]; intros seen seen'; cbn [edges_of]. { split; [intros [= ->]; split; auto; exists []; split; auto; intros ? ? ? []|intros (-> & _); reflexivity]. }
  split.
  - intros H. apply bind_ok in H as (m & M & H). unfold to_map in M. destruct x as [| | | | | |m']; try discriminate. injection M as ->. apply bind_ok in H as (seen1 & N & H). apply nodes_shallow_iff in N as (-> & N). apply IH in H as (-> & l & -> & H).
    split; auto. exists (m :: l). split; auto. intros es label node [<-|I]; eauto.
  - intros (-> & [|m l] & E & H); [discriminate|]. injection E as -> ->. cbn [to_map]. rewrite bind_Ok. rewrite (proj2 (nodes_shallow_iff f st c m seen seen)), bind_Ok. 2:{ split; auto. intros label node. apply (H m). now left. }
    apply IH. split; auto. exists l. split; auto. intros es label node I. apply (H es). now right.
Qed.

(** ** The whole of it *)
Lemma acdc_again f st c g deep seen seen' there status vcid schema event prov saider state secs ssaid t edges seen1 seen2 :
  passed canon hash cr mo schema_check age f st c g deep seen seen' there status vcid schema event prov saider state secs ssaid t edges seen1 seen2 ->
  forall g', verify_acdc canon hash cr mo schema_check age (S f) st c g' deep seen =
    let* rs := check_path_groups canon hash cr mo f st c deep g' false seen1 in
    if negb (fst rs) then Err EVerification else let* seen3 := edges_of canon hash cr mo schema_check age f st c deep edges (snd rs) in Ok (there, seen3).
Proof.
  intros [H1 H2 H3 H4 H5 H6 H7 H8 (dt & H9 & H10 & HA) H11 H12 (H13 & HT) (H14 & H15) H16 H17 H18 H19] g'.
  cbn [verify_acdc]. rewrite H1, bind_Ok, H2, bind_Ok, H3, bind_Ok, H4, bind_Ok, H5, bind_Ok, H6, bind_Ok. cbn [negb]. rewrite H7, bind_Ok, H8, bind_Ok, H9, bind_Ok, H10, bind_Ok. destruct (Z.ltb_spec 36000000000 secs); [lia|].
  rewrite H11, bind_Ok. unfold state_of in H12. rewrite H12, bind_Ok, H13, bind_Ok. destruct (has_code [s! "rev"; s! "brv"] t) eqn:E; [apply has_code_In in E; contradiction|]. rewrite H14, bind_Ok, H15, bind_Ok. cbn [negb].
  destruct (check_path_groups canon hash cr mo f st c deep g' false seen1) as [rs| |]; [|reflexivity|reflexivity]. rewrite !bind_Ok. destruct (negb (fst rs)); [reflexivity|].
  assert ((match prov with VObj _ => Ok [prov] | VArr l => Ok l | _ => Err EVerification end : R (list value)) = Ok edges) as -> by (destruct prov; try contradiction; subst; reflexivity).
  rewrite bind_Ok. match goal with |- bind ?a _ = bind ?b _ => change b with a; destruct a as [s3| |]; [|reflexivity|reflexivity] end. rewrite !bind_Ok. unfold there_of in H19.
  destruct (get_acdc st vcid) as [message| |]; [|injection H19 as <-; reflexivity|discriminate].
  apply bind_ok in H19 as (e & -> & H19). apply bind_ok in H19 as (es & E1 & H19). rewrite bind_Ok, E1, bind_Ok. destruct (negb (beq vcid es)); [discriminate|]. injection H19 as <-. reflexivity.
Qed.
Lemma paths_app f st c deep : forall a b rooted seen, check_path_sigs canon hash cr mo f st c deep (a ++ b) rooted seen =
  let* o := check_path_sigs canon hash cr mo f st c deep a rooted seen in check_path_sigs canon hash cr mo f st c deep b (fst o) (snd o).
Proof.
  induction a as [|g a IH]; intros b rooted seen; cbn [app check_path_sigs]; [reflexivity|]. destruct (check_path_sig canon hash cr mo f st c deep g seen) as [[s1|]| |]; rewrite ?bind_Ok; auto.
Qed.
Lemma path_groups_app f st c deep : forall a b rooted seen, check_path_groups canon hash cr mo f st c deep (a ++ b) rooted seen =
  let* o := check_path_groups canon hash cr mo f st c deep a rooted seen in check_path_groups canon hash cr mo f st c deep b (fst o) (snd o).
Proof.
  induction a as [|g a IH]; intros b rooted seen; cbn [app check_path_groups]; [reflexivity|]. destruct g as [| |l| |]; try reflexivity. destruct (check_path_sigs canon hash cr mo f st c deep l rooted seen) as [o| |]; [|reflexivity|reflexivity].
  rewrite !bind_Ok. apply IH.
Qed.
(** What a group names has been gone into. *)
Definition visited (st : store) (p : sad_path_sig) (seen : list bytes) : Prop :=
  exists pre n said e, infil (sp_prefixer p) = Ok pre /\ seqner_sn (sp_seqner p) = Ok n /\ infil (sp_saider p) = Ok said /\ logged canon st pre (asked_for n) e said /\ In said seen.
Lemma path_visited f st c deep g seen seen' : or_else deep true = true -> check_path_sig canon hash cr mo f st c deep g seen = Ok (Some seen') -> visited st g seen'.
Proof.
  unfold check_path_sig. intros D H. apply bind_ok in H as (path & B & H). destruct (negb (beq path (s! "-"))); [discriminate|]. apply bind_ok in H as (pre & H1 & H). apply bind_ok in H as (n & H2 & H). apply bind_ok in H as (event & H3 & H). apply bind_ok in H as (e & H4 & H).
  apply bind_ok in H as (said & H5 & H). apply bind_ok in H as (want & H6 & H). destruct (beq said want) eqn:E2; cbn [negb] in H; [|discriminate]. apply beq_eq in E2. subst want. rewrite D in H. cbn [andb] in H. apply bind_ok in H as (seen1 & S & H).
  apply bind_ok in H as (ks & H7 & H). apply bind_ok in H as (found & H8 & H). apply bind_ok in H as (t & H9 & H). destruct t as [t|]; [|discriminate]. apply bind_ok in H as (ok & H10 & H). destruct (negb ok); [discriminate|]. injection H as <-.
  exists pre, n, said, e. repeat (split; [assumption|]). split; [exists event; rewrite <- asked_mod; auto|]. destruct (has_code seen said) eqn:HC; cbn [negb] in S.
  - injection S as <-. now apply has_code_In.
  - apply bind_ok in S as (rest & _ & S). apply bind_ok in S as (gg & _ & S). destruct gg; try discriminate. apply bind_ok in S as (r1 & V & S). injection S as <-. apply (key_grows canon hash cr mo st) in V as (V & _). apply V. now left.
Qed.
Lemma visited_grows st p seen seen' : visited st p seen -> grows canon st seen seen' -> visited st p seen'.
Proof. intros (pre & n & said & e & A & B & C & D & I) (G & _). exists pre, n, said, e. auto 6. Qed.
Lemma paths_visited f st c deep : or_else deep true = true -> forall l rooted seen r, check_path_sigs canon hash cr mo f st c deep l rooted seen = Ok r ->
  forall p, In p l -> bext_of (sp_pather p) = Ok (s! "-") -> visited st p (snd r).
Proof.
  intros D. induction l as [|g l IH]; intros rooted seen r H p I B; [destruct I|]. cbn [check_path_sigs] in H. apply bind_ok in H as (o & O & H). destruct I as [->|I].
  - assert (exists s1, o = Some s1) as (s1 & ->). { apply (path_ok canon hash cr mo schema_check age) in O as (O & _). destruct o as [s1|]; [eauto|]. destruct (proj2 O B eq_refl). }
    apply (path_visited _ _ _ _ _ _ _ D) in O. apply (paths_grow canon hash cr mo st) in H. eapply visited_grows; eauto.
  - destruct o; eapply IH; eauto.
Qed.
Lemma groups_visited f st c deep : or_else deep true = true -> forall gs rooted seen r, check_path_groups canon hash cr mo f st c deep gs rooted seen = Ok r ->
  forall p, about_all gs p -> visited st p (snd r).
Proof.
  intros D. induction gs as [|g gs IH]; intros rooted seen r H p (l & I & J & B); [destruct I|]. cbn [check_path_groups] in H. destruct g as [| |l'| |]; try discriminate. apply bind_ok in H as (o & O & H). destruct I as [E|I].
  - injection E as ->. apply (paths_visited _ _ _ _ D _ _ _ _ O p J) in B. apply (groups_grow canon hash cr mo st) in H. eapply visited_grows; eauto.
  - eapply IH; eauto. exists l. auto.
Qed.
(** Then depth makes no difference. *)
Lemma path_flat f st c deep g seen : or_else deep true = false \/ visited st g seen -> check_path_sig canon hash cr mo f st c deep g seen = check_path_sig canon hash cr mo f st c (Some false) g seen.
Proof.
  intros D. unfold check_path_sig. destruct (bext_of (sp_pather g)) as [path| |]; [|reflexivity|reflexivity]. rewrite !bind_Ok. destruct (negb (beq path (s! "-"))); [reflexivity|].
  destruct D as [-> |(pre & n & said & e & H1 & H2 & H3 & (event & H4 & H5 & H6) & I)]; [reflexivity|]. rewrite H1, !bind_Ok, H2, !bind_Ok, asked_mod, H4, !bind_Ok, H5, !bind_Ok, H6, !bind_Ok, H3, !bind_Ok, beq_refl. cbn [negb].
  apply has_code_In in I. rewrite I. cbn [negb]. rewrite andb_false_r. reflexivity.
Qed.
Lemma alike_visited st p p' seen : alike p p' -> visited st p seen -> visited st p' seen.
Proof. intros (A & B & C) V. unfold visited in *. rewrite <- A, <- B, <- C. exact V. Qed.
Lemma groups_flat f st c deep seen : forall gs rooted, or_else deep true = false \/ (forall p, about_all gs p -> visited st p seen) ->
  Forall on_parts gs -> (forall p, about_all gs p -> endorsed canon cr st (d_raw c) p) -> exists b, check_path_groups canon hash cr mo f st c deep gs rooted seen = Ok (b, seen) /\ (rooted = true -> b = true).
Proof.
  induction gs as [|x gs IH]; intros rooted D F E; cbn [check_path_groups]; [exists rooted; auto|]. inversion F as [|? ? (l & -> & Fl) F']; subst.
  assert (forall ro, or_else deep true = false \/ (forall p, In p l -> bext_of (sp_pather p) = Ok (s! "-") -> visited st p seen) -> (forall p, In p l -> bext_of (sp_pather p) = Ok (s! "-") -> endorsed canon cr st (d_raw c) p) ->
    exists b, check_path_sigs canon hash cr mo f st c deep l ro seen = Ok (b, seen) /\ (ro = true -> b = true)) as L.
  { clear - Fl schema_check age. induction l as [|p l IH]; intros ro D E; cbn [check_path_sigs]; [exists ro; auto|]. inversion Fl as [|? ? (path & P) Fl']; subst.
    assert (or_else deep true = false \/ (forall p, In p l -> bext_of (sp_pather p) = Ok (s! "-") -> visited st p seen)) as D' by (destruct D as [D|D]; [now left|right; intros q I; apply D; now right]).
    assert (forall p, In p l -> bext_of (sp_pather p) = Ok (s! "-") -> endorsed canon cr st (d_raw c) p) as E' by (intros q I; apply E; now right).
    destruct (beq path (s! "-")) eqn:B.
    - apply beq_eq in B. subst path. rewrite (path_flat f st c deep p seen); [|destruct D as [D|D]; [now left|right; apply D; auto; now left]].
      rewrite (proj2 (path_iff f st c p seen (Some seen))); [|exists (s! "-"); split; auto; right; repeat (split; auto); apply E; auto; now left]. rewrite bind_Ok. destruct (IH Fl' true D' E') as (b & -> & T). exists b. split; auto.
    - assert (check_path_sig canon hash cr mo f st c deep p seen = Ok None) as ->. { unfold check_path_sig. now rewrite P, bind_Ok, B. } rewrite bind_Ok. apply IH; auto. }
  destruct (L rooted) as (b & -> & T). { destruct D as [D|D]; [now left|right; intros p I B; apply D; exists l; split; [now left|auto]]. } { intros p I B. apply E. exists l. split; [now left|auto]. }
  rewrite bind_Ok. cbn [fst snd]. destruct (IH b) as (b' & H & T'). { destruct D as [D|D]; [now left|right; intros p (l' & I & J & B); apply D; exists l'; split; [now right|auto]]. } { exact F'. } { intros p (l' & I & J & B). apply E. exists l'. split; [now right|auto]. }
  exists b'. auto.
Qed.
Lemma group_refers st c p : endorsed canon cr st (d_raw c) p -> exists e ks t, refers canon st p e ks t.
Proof. intros (e & ks & t & _ & _ & R & _). eauto. Qed.
Lemma refers_once st p e ks t e' ks' t' : refers canon st p e ks t -> refers canon st p e' ks' t' -> e = e' /\ ks = ks' /\ t = t'.
Proof.
  intros (pre & n & said & A & B & C & (text & D1 & D2 & D3) & E & F) (pre' & n' & said' & A' & B' & C' & (text' & D1' & D2' & D3') & E' & F').
  assert (pre = pre') as <- by congruence. assert (n = n') as <- by congruence. assert (text = text') as <- by congruence. assert (e = e') as <- by congruence. repeat split; congruence.
Qed.

(** ** What is due *)
Lemma due_iff f st c g seen : forall said, due canon hash cr schema_check age st c g said <->
  exists status schema event saider state secs ssaid t, creder_status c = Ok (Some status) /\ sad_said c = Ok said /\ creder_schema c = Ok schema /\ said_of_qb64 said = Ok saider /\
    said_verify hash saider (d_ked c) (Some false) (Some true) (Some (s! "JSON")) None [] = Ok true /\ get_latest_transaction_event st said = Ok event /\ serder_with_raw canon event = Ok state /\
    (exists dt, text_at (d_ked state) (s! "dt") = Ok dt /\ age dt = Ok secs /\ (secs <= 36000000000)%Z) /\ sad_said state = Ok ssaid /\ (text_at (d_ked state) (s! "t") = Ok t /\ ~ In t [s! "rev"; s! "brv"]) /\
    (from_utf8 (d_raw c) = Ok (d_raw c) /\ schema_check schema (d_raw c) = Ok true) /\ check_path_groups canon hash cr mo f st c (Some false) g false seen = Ok (true, seen).
Proof.
  assert (forall status, creder_status c = Ok (Some status) <-> field_of (d_ked c) (s! "ri") (VStr status)) as ST.
  { intros status. unfold creder_status. split.
    - intros H. apply bind_ok in H as (m & M & H). unfold to_map in M. destruct (d_ked c) as [| | | | | |m']; try discriminate. injection M as ->. destruct (assoc (s! "ri") m) as [v|] eqn:A; [|discriminate].
      apply bind_ok in H as (x & X & H). injection H as ->. destruct v; try discriminate. injection X as ->. now apply field_assoc.
    - intros H. apply field_obj in H as (m & -> & A). cbn [to_map]. rewrite bind_Ok, A. reflexivity. }
  intros said. unfold due. split.
  - intros (registry & schema & saider & state & ssaid & ilk & dt & secs & H1 & H2 & H3 & H4 & H5 & (event & H6 & H7) & H8 & H9 & N1 & N2 & H10 & H11 & H12 & H13 & H14 & H15 & H16 & H17).
    exists registry, schema, event, saider, state, secs, ssaid, ilk. split; [now apply ST|]. split; auto. split; [now apply text_field|]. repeat (split; [assumption|]). split; [exists dt; split; auto; now apply text_field|]. split; auto.
    split. { split; [now apply type_text|]. intros [|[|[]]]; congruence. } split; auto. apply groups_iff. split; auto. split; auto. split; auto. cbn [fst]. split; auto.
  - intros (status & schema & event & saider & state & secs & ssaid & t & H1 & H2 & H3 & H4 & H5 & H6 & H7 & (dt & H8 & H9 & H10) & H11 & (H12 & NI) & (H13 & H14) & H15).
    apply groups_iff in H15 as (G1 & G2 & _ & G3). cbn [fst] in G3. exists status, schema, saider, state, ssaid, t, dt, secs. split; [now apply ST|]. split; auto. split; [now apply text_field|]. split; auto. split; auto.
    split; [exists event; auto|]. split; auto. split; [now apply type_text|]. split; [intros ->; apply NI; now left|]. split; [intros ->; apply NI; right; now left|]. split; [now apply text_field|]. repeat (split; [assumption|]).
    split; auto. destruct (proj1 G3 eq_refl) as [|P]; [discriminate|exact P].
Qed.
(** A credential that is due is as good as its edges. *)
Lemma due_edges f st c g seen said : due canon hash cr schema_check age st c g said -> forall prov edges, creder_chains c = Ok prov ->
  match prov with VObj _ => edges = [prov] | VArr l => edges = l | _ => False end ->
  verify_acdc canon hash cr mo schema_check age (S f) st c g (Some false) seen =
    let* seen3 := edges_of canon hash cr mo schema_check age f st c (Some false) edges seen in let* there := there_of canon st said in Ok (there, seen3).
Proof.
  intros D prov edges P E. apply (due_iff f st c g seen) in D as (status & schema & event & saider & state & secs & ssaid & t & H1 & H2 & H3 & H4 & H5 & H6 & H7 & (dt & H8 & H9 & HA) & H11 & (H12 & NI) & (H13 & H14) & H15).
  cbn [verify_acdc]. rewrite H1, bind_Ok, H2, bind_Ok, H3, bind_Ok, P, bind_Ok, H4, bind_Ok, H5, bind_Ok. cbn [negb]. rewrite H6, bind_Ok, H7, bind_Ok, H8, bind_Ok, H9, bind_Ok. destruct (Z.ltb_spec 36000000000 secs); [lia|].
  rewrite H11, bind_Ok. cbn [or_else andb]. rewrite bind_Ok, H12, bind_Ok. destruct (has_code [s! "rev"; s! "brv"] t) eqn:EE; [apply has_code_In in EE; contradiction|]. rewrite H13, bind_Ok, H14, bind_Ok. cbn [negb].
  rewrite H15, bind_Ok. cbn [fst snd negb].
  assert ((match prov with VObj _ => Ok [prov] | VArr l => Ok l | _ => Err EVerification end : R (list value)) = Ok edges) as -> by (destruct prov; try contradiction; subst; reflexivity).
  rewrite bind_Ok. match goal with |- bind ?a _ = bind ?b _ => change b with a; destruct a as [s3| |]; [|reflexivity|reflexivity] end. rewrite !bind_Ok. unfold there_of.
  destruct (get_acdc st said) as [message| |]; [|reflexivity|reflexivity]. destruct (creder_with_raw canon message) as [e| |]; [|reflexivity|reflexivity]. rewrite !bind_Ok. destruct (sad_said e) as [es| |]; [|reflexivity|reflexivity]. rewrite !bind_Ok.
  destruct (negb (beq said es)); reflexivity.
Qed.
End Shallow.

Lemma chosen_panics c ops subject e' issuer (x : bytes * bytes * sadder) : field_of (d_ked c) (s! "i") (VStr issuer) -> field_of (d_ked e') (s! "a") (VObj subject) ->
  (let* subject := creder_subject e' in
    let* node_subject := to_map subject in
    let* op := operator_of (filter (has_code [s! "I2I"; s! "NI2I"; s! "DI2I"]) ops) node_subject in
    if beq op (s! "I2I") then
      let* i := entry node_subject (s! "i") in
      let* holder := to_string i in
      let* issuer := creder_issuer c in
      if negb (beq holder issuer) then Err EValidation else Ok x
    else if beq op (s! "NI2I") then Ok x
    else Panic) = Panic -> those unary ops [s! "DI2I"] \/ those unary ops [s! "I2I"] /\ lacks (VObj subject) (s! "i").
Proof.
  intros IS SU H. unfold creder_subject in H. rewrite (proj2 (index_field _ _ _) SU), bind_Ok in H. cbn [to_map] in H. rewrite bind_Ok in H.
  pose proof (filter_is unary (has_code [s! "I2I"; s! "NI2I"; s! "DI2I"]) ops (fun x => has_code_In _ _)) as TH. set (chosen := filter (has_code [s! "I2I"; s! "NI2I"; s! "DI2I"]) ops) in *.
  assert (forall o, In o chosen -> unary o) as UN. { intros o I. apply filter_In in I as (_ & I). now apply has_code_In in I. }
  destruct chosen as [|o [|]]; cbn [operator_of] in H; [| |discriminate].
  - exfalso. rewrite bind_Ok in H. destruct (contains_key (s! "i") subject) eqn:CK; [|discriminate]. change (beq (s! "I2I") (s! "I2I")) with true in H. cbv iota in H. unfold entry in H. unfold contains_key in CK. destruct (assoc (s! "i") subject) as [v|]; [|discriminate].
    rewrite bind_Ok in H. destruct v; try discriminate. cbn [to_string] in H. rewrite bind_Ok in H. unfold creder_issuer in H. rewrite (proj2 (index_field _ _ _) IS), bind_Ok in H. cbn [to_string] in H. rewrite bind_Ok in H. destruct (negb _) in H; discriminate.
  - rewrite bind_Ok in H. destruct (UN o (or_introl eq_refl)) as [<-|[<-|[<-|[]]]]; [|discriminate|now left]. right. split; auto. change (beq (s! "I2I") (s! "I2I")) with true in H. cbv iota in H. unfold entry in H. intros v V. apply field_assoc in V. rewrite V, bind_Ok in H.
    destruct v; try discriminate. cbn [to_string] in H. rewrite bind_Ok in H. unfold creder_issuer in H. rewrite (proj2 (index_field _ _ _) IS), bind_Ok in H. cbn [to_string] in H. rewrite bind_Ok in H. destruct (negb _) in H; discriminate.
Qed.
Lemma sections_chains c : (exists m, d_ked c = VObj m) -> sectioned (d_ked c) -> exists prov edges, creder_chains c = Ok prov /\ match prov with VObj _ => edges = [prov] | VArr l => edges = l | _ => False end /\
  exists l, edges = map VObj l /\ forall node, edge (d_ked c) node <-> exists es label, In es l /\ In (label, node) es /\ label <> s! "d" /\ label <> s! "o".
Proof.
  intros (m & M) S.
  assert (exists prov edges, creder_chains c = Ok prov /\ match prov with VObj _ => edges = [prov] | VArr l => edges = l | _ => False end /\ exists l, edges = map VObj l) as (prov & edges & CH & ES & l & EL).
  { unfold creder_chains. rewrite M in *. cbn [to_map]. rewrite bind_Ok. destruct S as [S|[(es & S)|(l & S)]].
    - assert (assoc (s! "e") m = None) as ->. { destruct (assoc (s! "e") m) as [x|] eqn:A; auto. exfalso. apply (S x). now apply field_assoc. } exists (VObj []), [VObj []]. split; auto. split; auto. now exists [[]].
    - apply field_assoc in S. rewrite S. exists (VObj es), [VObj es]. split; auto. split; auto. now exists [es].
    - apply field_assoc in S. rewrite S. exists (VArr (map VObj l)), (map VObj l). split; auto. split; auto. now exists l. }
  exists prov, edges. split; auto. split; auto. exists l. split; auto. intros node. rewrite (edges_in _ _ CH). split.
  - intros (label & es & I & N1 & N2 & D). exists es, label. split; auto. assert (In (VObj es) edges) as J. { destruct D as [->|(l' & -> & J)]; rewrite ES; [now left|exact J]. }
    rewrite EL in J. apply in_map_iff in J as (es' & E & J). injection E as ->. exact J.
  - intros (es & label & I & J & N1 & N2). exists label, es. repeat (split; [assumption|]). apply (in_map VObj) in I. rewrite <- EL in I. destruct prov; try contradiction; rewrite ES in I; [right; eauto|]. destruct I as [I|[]]. injection I as ->. now left.
Qed.
Lemma due_object canon hash cr schema_check age st e g said : due canon hash cr schema_check age st e g said -> exists m, d_ked e = VObj m.
Proof. intros (a1 & a2 & a3 & a4 & a5 & a6 & a7 & a8 & D & _). apply field_obj in D as (m & -> & _). eauto. Qed.
Lemma there_iff canon st said there : there_of canon st said = Ok there <->
  there = true /\ (exists e', held canon st said e' /\ sad_said e' = Ok said) \/ there = false /\ exists er, get_acdc st said = Err er.
Proof.
  unfold there_of, held. split.
  - destruct (get_acdc st said) as [text|er|]; [|intros [= <-]; right; eauto|discriminate]. intros H. apply bind_ok in H as (e & E & H). apply bind_ok in H as (es & S & H). destruct (beq said es) eqn:B; [|discriminate]. apply beq_eq in B. subst es.
    injection H as <-. left. split; auto. exists e. split; auto. eauto.
  - intros [(-> & e & (text & -> & E) & S)|(-> & er & ->)]; [|reflexivity]. now rewrite E, bind_Ok, S, bind_Ok, beq_refl.
Qed.
Lemma exactly_accepted canon hash cr messages_of schema_check age fuel st e g seen seen' there :
  verify_acdc canon hash cr messages_of schema_check age (S fuel) st e g (Some false) seen = Ok (there, seen') <->
  seen' = seen /\ exists said, due canon hash cr schema_check age st e g said /\ sectioned (d_ked e) /\ (forall node, edge (d_ked e) node -> in_order canon schema_check st e node) /\
    (there = true /\ (exists e', held canon st said e' /\ sad_said e' = Ok said) \/ there = false /\ exists er, get_acdc st said = Err er).
Proof.
  split.
  - intros H. apply passed_iff in H as (status & vcid & schema & event & prov & saider & state & secs & ssaid & t & edges & seen1 & seen2 & [H1 H2 H3 H4 H5 H6 H7 H8 HA H11 H12 H13 H14 H16 H17 H18 H19]).
    unfold state_of in H12. cbn [or_else andb] in H12. injection H12 as <-. pose proof H16 as H16'. apply (groups_iff canon hash cr messages_of schema_check age) in H16' as (_ & _ & E2 & _). cbn [snd] in E2. subst seen2.
    pose proof H18 as H18'. apply edges_shallow_iff in H18' as (-> & l & EL & HE). split; auto. exists vcid.
    assert (due canon hash cr schema_check age st e g vcid) as D. { apply (due_iff canon hash cr messages_of schema_check age fuel st e g seen). exists status, schema, event, saider, state, secs, ssaid, t. auto 15. }
    split; auto. split; [|split; [|now apply there_iff]].
    + destruct (due_object _ _ _ _ _ _ _ _ _ D) as (m & M). unfold sectioned. unfold creder_chains in H4. rewrite M in *. cbn [to_map] in H4. rewrite bind_Ok in H4. injection H4 as <-. destruct (assoc (s! "e") m) as [x|] eqn:A.
      * right. destruct x; try contradiction; [right|left; eexists; apply field_assoc; exact A]. subst edges. exists l. rewrite <- EL. now apply field_assoc.
      * left. intros x X. apply field_assoc in X. congruence.
    + intros node ED. destruct (edges_each canon hash cr messages_of schema_check age fuel st e (Some false) prov edges seen seen H4 H17 H18 node ED) as (x & X). apply node_iff. eauto.
  - intros (-> & said & D & SE & ED & TH). destruct (sections_chains e (due_object _ _ _ _ _ _ _ _ _ D) SE) as (prov & edges & CH & ES & l & EL & IN).
    rewrite (due_edges canon hash cr messages_of schema_check age fuel st e g seen said D prov edges CH ES). apply there_iff in TH. rewrite (proj2 (edges_shallow_iff canon hash cr messages_of schema_check age fuel st e edges seen seen)), bind_Ok, TH; [reflexivity|].
    split; auto. exists l. split; auto. intros es label node I J N1 N2. apply ED. apply IN. eauto 8.
Qed.
Lemma endorses_accepted canon hash cr messages_of schema_check age fuel st e g seen r :
  verify_acdc canon hash cr messages_of schema_check age fuel st e g (Some false) seen = Ok r -> forall p, about_all g p -> endorsed canon cr st (d_raw e) p.
Proof.
  destruct fuel as [|f]; [discriminate|]. destruct r as (there & seen'). intros H. apply exactly_accepted in H as (_ & said & (a1 & a2 & a3 & a4 & a5 & a6 & a7 & a8 & D) & _). apply D.
Qed.
Lemma texts_panic l : (exists x, In x l /\ forall t, x <> VStr t) <-> Verify.texts l = Panic.
Proof.
  induction l as [|v l IH]; cbn [Verify.texts]. { split; [intros (x & [] & _)|discriminate]. }
  destruct v; cbn [to_string]; try (split; [reflexivity|intros _; eexists; split; [now left|discriminate]]). destruct (Verify.texts l) as [ts| |]; cbn [bind].
  - split; [|discriminate]. intros (x & [<-|I] & N); [destruct (N _ eq_refl)|]. assert (Ok ts = Panic :> R (list bytes)) by (apply IH; eauto). discriminate.
  - split; [|discriminate]. intros (x & [<-|I] & N); [destruct (N _ eq_refl)|]. assert (Err e = Panic :> R (list bytes)) by (apply IH; eauto). discriminate.
  - split; auto. intros _. destruct (proj2 IH eq_refl) as (x & I & N). exists x. split; auto. now right.
Qed.
Lemma operators_all node m ops : node = VObj m -> operators node ops -> (match assoc (s! "o") m with None => Ok [] | Some v => match to_string v with Ok t => Ok [t] | _ => let* l := to_vec v in Verify.texts l end end) = Ok ops.
Proof.
  intros -> O. destruct O as [(LK & ->)|[(t & T & ->)|T]].
  - destruct (assoc (s! "o") m) as [v|] eqn:A; auto. exfalso. apply (LK v). now apply field_assoc.
  - apply field_assoc in T. rewrite T. reflexivity.
  - apply field_assoc in T. rewrite T. cbn [to_string to_vec]. rewrite bind_Ok. clear. induction ops as [|o ops IH]; cbn [map Verify.texts]; auto. cbn [to_string]. now rewrite IH.
Qed.
Lemma hostile_panics canon schema_check st c node : hostile canon schema_check st node -> check_node canon schema_check st c node = Panic.
Proof.
  unfold check_node. intros [(m & -> & L)|(subject & (said & e' & L & (msg & G & C) & SU & S) & D)].
  - cbn [to_map]. rewrite bind_Ok. unfold entry. destruct (assoc (s! "n") m) as [x|] eqn:A; [|reflexivity]. exfalso. apply (L x). now apply field_assoc.
  - unfold leads in L. assert (exists m, node = VObj m) as (m & ->) by (apply field_obj in L as (m & -> & _); eauto). cbn [to_map]. rewrite bind_Ok. unfold entry. apply field_assoc in L. rewrite L, bind_Ok. cbn [to_string]. rewrite bind_Ok, G, bind_Ok, C, bind_Ok.
    assert ((match assoc (s! "s") m with Some v => let* node_schema := to_string v in let* text := from_utf8 (d_raw e') in schema_check node_schema text | None => Ok true end) = Ok true) as ->.
    { destruct S as [S|(schema & S & U & V)]; [|apply field_assoc in S; rewrite S; cbn [to_string]; now rewrite bind_Ok, U, bind_Ok]. destruct (assoc (s! "s") m) as [v|] eqn:A; auto. exfalso. apply (S v). now apply field_assoc. }
    rewrite bind_Ok. cbn [negb]. unfold operators_of. destruct D as [(l & x & O & I & N)|(ops & O & NN & D)].
    + apply field_assoc in O. rewrite O. cbn [to_string to_vec]. rewrite bind_Ok. rewrite (proj1 (texts_panic l)); [reflexivity|eauto].
    + rewrite (operators_all _ m ops eq_refl O), bind_Ok. destruct (has_code ops (s! "NOT")) eqn:HN; [apply has_code_In in HN; contradiction|]. rewrite bind_Ok. unfold creder_subject. rewrite (proj2 (index_field _ _ _) SU), bind_Ok. cbn [to_map]. rewrite bind_Ok.
      set (chosen := filter (has_code [s! "I2I"; s! "NI2I"; s! "DI2I"]) ops). assert (forall k, those unary ops k -> k = chosen) as TH. { intros k T. apply (those_filter _ (has_code [s! "I2I"; s! "NI2I"; s! "DI2I"])) in T; auto. intros x. apply has_code_In. }
      destruct D as [T|(T & X)]; apply TH in T; rewrite <- T; cbn [operator_of]; rewrite bind_Ok; [reflexivity|]. change (beq (s! "I2I") (s! "I2I")) with true. cbv iota. destruct (assoc (s! "i") subject) as [v|] eqn:A; [exfalso; apply (X v); now apply field_assoc|]. reflexivity.
Qed.
Lemma nodes_mixed canon hash cr mo schema_check age f st c node seen : check_node canon schema_check st c node = Panic -> forall nodes,
  (forall label nd, In (label, nd) nodes -> label <> s! "d" -> label <> s! "o" -> nd = node \/ in_order canon schema_check st c nd) ->
  nodes_of canon hash cr mo schema_check age f st c (Some false) nodes seen = Panic \/
  nodes_of canon hash cr mo schema_check age f st c (Some false) nodes seen = Ok seen /\ forall label, In (label, node) nodes -> label = s! "d" \/ label = s! "o".
Proof.
  intros P. induction nodes as [|(label, nd) nodes IH]; intros O; cbn [nodes_of]; [right; split; auto; intros ? []|].
  assert (forall label nd, In (label, nd) nodes -> label <> s! "d" -> label <> s! "o" -> nd = node \/ in_order canon schema_check st c nd) as O' by (intros lb n I; apply (O lb n); now right). specialize (IH O').
  destruct (has_code [s! "d"; s! "o"] label) eqn:HC.
  - destruct IH as [IH|(IH & N)]; auto. right. split; auto. intros lb [E|I]; auto. injection E as -> _. apply has_code_In in HC. destruct HC as [|[|[]]]; auto.
  - destruct (O label nd) as [-> |IO]; [now left|intros ->; discriminate|intros ->; discriminate|rewrite P; now left|]. apply node_iff in IO as (((ns & msg) & pa) & X). rewrite X, bind_Ok. cbn [or_else andb]. rewrite bind_Ok.
    destruct IH as [IH|(IH & N)]; auto. right. split; auto. intros lb [E|I]; auto. injection E as -> ->. congruence.
Qed.
Lemma unhostile canon schema_check st c node issuer : field_of (d_ked c) (s! "i") (VStr issuer) -> answering canon schema_check st -> ~ hostile canon schema_check st node -> check_node canon schema_check st c node <> Panic.
Proof.
  intros IS AN NH H. apply NH. unfold check_node in H. destruct node as [| | | | | |m]; try discriminate. cbn [to_map] in H. rewrite bind_Ok in H. unfold entry in H. destruct (assoc (s! "n") m) as [x|] eqn:A.
  2:{ left. exists m. split; auto. intros x X. apply field_assoc in X. congruence. }
  rewrite bind_Ok in H. destruct x as [| | | |said| |]; try discriminate. cbn [to_string] in H. rewrite bind_Ok in H. destruct (AN said) as (A1 & A2). destruct (get_acdc st said) as [text| |] eqn:G; [|discriminate|congruence].
  destruct (A2 text eq_refl) as (e' & subject & C & S & SU & U & SC). rewrite bind_Ok, C, bind_Ok in H.
  set (K := match assoc (s! "s") m with Some v => let* node_schema := to_string v in let* text := from_utf8 (d_raw e') in schema_check node_schema text | None => Ok true end) in H.
  assert (K <> Panic /\ (K = Ok true -> lacks (VObj m) (s! "s") \/ exists schema, field_of (VObj m) (s! "s") (VStr schema) /\ from_utf8 (d_raw e') = Ok (d_raw e') /\ schema_check schema (d_raw e') = Ok true)) as (K1 & K2).
  { unfold K. destruct (assoc (s! "s") m) as [v|] eqn:AS. 2:{ split; [discriminate|]. intros _. left. intros x X. apply field_assoc in X. congruence. }
    destruct v; try (split; discriminate). cbn [to_string]. rewrite bind_Ok, U, bind_Ok. split; auto. intros Q. right. exists s. split; [now apply field_assoc|auto]. }
  destruct K as [ok| |]; [|discriminate|congruence]. rewrite bind_Ok in H. destruct ok; cbn [negb] in H; [|discriminate]. right. exists subject.
  split. { exists said, e'. split; [now apply field_assoc|]. split; [exists text; auto|]. split; auto. }
  unfold operators_of in H. destruct (assoc (s! "o") m) as [v|] eqn:AO.
  - assert (forall v, field_of (VObj m) (s! "o") v <-> assoc (s! "o") m = Some v) as FO by (intros; apply field_assoc).
    assert ((exists l, v = VArr l /\ Verify.texts l = Panic) \/ exists ops, (match to_string v with Ok t => Ok [t] | _ => let* l := to_vec v in Verify.texts l end) = Ok ops /\ operators (VObj m) ops) as [(l & -> & TP)|(ops & E & OP)].
    { destruct v as [| | | |t|l|]; cbn [to_string to_vec] in H |- *; try discriminate.
      - right. exists [t]. split; auto. right. left. exists t. split; auto. now apply FO.
      - rewrite bind_Ok. destruct (Verify.texts l) as [ts|er|] eqn:T; [|exfalso; clear - T|left; eauto].
        + right. exists ts. split; auto. right. right. apply texts_ok in T. rewrite <- T. now apply FO.
        + revert er T. induction l as [|v l IH]; intros er T; cbn [Verify.texts] in T; [discriminate|]. destruct (to_string v); try discriminate. destruct (Verify.texts l); try discriminate. eapply IH; eauto. }
    + left. apply texts_panic in TP as (x & I & N). exists l, x. split; [now apply FO|auto].
    + right. exists ops. split; auto. rewrite E, bind_Ok in H. destruct (has_code ops (s! "NOT")) eqn:HN; [discriminate|]. split; [intros I; apply has_code_In in I; congruence|]. rewrite bind_Ok in H.
      eapply chosen_panics; eauto.
  - right. exists []. split. { left. split; auto. intros x X. apply field_assoc in X. congruence. } split; [intros []|]. rewrite bind_Ok in H. cbn [has_code existsb filter] in H. rewrite bind_Ok in H. eapply chosen_panics; eauto.
Qed.

(** ** Cases *)
Definition issued : ledger := fst (take_in empty (s! "issued")).
Definition accepts_all (_ _ : bytes) : R bool := Ok true.
Definition young (_ : bytes) : R Z := Ok 0%Z.
Definition lone (x : indexer) : sad_path_sig := Sps (sp_pather csigs0) (sp_prefixer csigs0) (sp_seqner csigs0) (sp_saider csigs0) [x].
Lemma issued_about : about_all [GPaths [csigs0]] csigs0.
Proof. exists [csigs0]. split; [now left|]. split; [now left|]. vm_compute. reflexivity. Qed.
Lemma issued_accepted : verify_acdc no_floats mix toy runic accepts_all young 9 (view no_floats issued) cred0 [GPaths [csigs0]] (Some false) [] = Ok (true, []).
Proof. vm_compute. reflexivity. Qed.
Lemma issued_refers : exists ks t, refers no_floats (view no_floats issued) csigs0 event0 ks t /\ len ks = 2 /\ t_weighted t = false.
Proof.
  assert (exists ks, serder_verfers event0 = Ok ks /\ len ks = 2) as (ks & K1 & K2). { eexists. split; [vm_compute; reflexivity|]. vm_compute. reflexivity. }
  assert (exists t, serder_tholder no_floats event0 = Ok (Some t) /\ t_weighted t = false) as (t & T1 & T2). { eexists. split; [vm_compute; reflexivity|]. vm_compute. reflexivity. }
  exists ks, t. split; [|auto]. exists pre0, 0, (got [] (sad_said event0)). split; [vm_compute; reflexivity|]. split; [vm_compute; reflexivity|]. split; [vm_compute; reflexivity|]. split; [|auto].
  exists (d_raw event0 ++ s! "a"). split; [vm_compute; reflexivity|]. split; vm_compute; reflexivity.
Qed.
(** A credential with any edges, issued after the first one: the store when its issuance has come but not itself, the credential and its signatures. *)
Definition bait (es : value) : sadder :=
  got no_event (create no_floats mix (s! "2020-01-01T00:00:00.000000+00:00") ([], []) (s! "schema") pre0 (VObj [(s! "name", VStr (s! "z"))]) None None None (Some rpre0) (Some es) None None None).
Definition bait_issuance (c : sadder) : sadder := of_text (snd (got ([], []) (credential_issue no_floats mix (s! "2020-01-01T00:00:00.000000+00:00") (s! "n") (got [] (sad_said c)) rpre0))).
Definition bait_anchor (iss : sadder) : sadder := got no_event (interact no_floats mix pre0 (got [] (sad_said anchor2)) (Some 3) (Some (VArr [seal_of iss])) None None).
Definition bait_ledger (c iss anchor : sadder) : ledger := insert_transaction_event (insert_key_event issued pre0 (d_raw anchor)) (got [] (sad_said c)) (d_raw iss).
Definition bait_sigs (c : sadder) : sad_path_sig := Sps (got nothing (pather_with_path (VArr []))) (got nothing (exfil pre0)) (got nothing (seqner_with_sn 0)) (d_saider event0) (signed keys0 c).
Definition bite (es : value) : R (bool * list bytes) :=
  let c := bait es in let iss := bait_issuance c in
  verify_acdc no_floats mix toy runic accepts_all young 9 (view no_floats (bait_ledger c iss (bait_anchor iss))) c [GPaths [bait_sigs c]] (Some false) [].
Definition trap := VObj [(s! "x", VObj [])].
Definition cred_t := Eval vm_compute in bait trap.
Definition iss_t := Eval vm_compute in bait_issuance cred_t.
Definition anchor_t := Eval vm_compute in bait_anchor iss_t.
Definition csigs_t := Eval vm_compute in bait_sigs cred_t.
Definition trapped : ledger := bait_ledger cred_t iss_t anchor_t.
Lemma view_answers canon l : (forall text, In text (l_acdc l) -> exists e subject, creder_with_raw canon text = Ok e /\ field_of (d_ked e) (s! "a") (VObj subject) /\ from_utf8 (d_raw e) = Ok (d_raw e)) ->
  answering canon accepts_all (view canon l).
Proof.
  intros H said. cbn [view get_acdc]. split.
  - induction (l_acdc l) as [|x r IH]; cbn [last_of]; [discriminate|]. destruct (last_of (names canon said) r) as [y| |]; [discriminate| |]; destruct (names canon said x); discriminate.
  - intros text T. apply last_of_in in T as (I & N). destruct (H text I) as (e & su & C & A & U). exists e, su. unfold names in N. rewrite C in N. destruct (sad_said e) as [y| |] eqn:S; try discriminate. apply beq_eq in N. subst y.
    split; auto. split; auto. split; auto. split; auto. intros schema. discriminate.
Qed.
Definition tidy (text : bytes) : bool := match creder_with_raw no_floats text with Ok e => match index_str (d_ked e) (s! "a") with Ok (VObj _) => match from_utf8 (d_raw e) with Ok t => beq t (d_raw e) | _ => false end | _ => false end | _ => false end.
Lemma tidy_ok text : tidy text = true -> exists e subject, creder_with_raw no_floats text = Ok e /\ field_of (d_ked e) (s! "a") (VObj subject) /\ from_utf8 (d_raw e) = Ok (d_raw e).
Proof.
  unfold tidy. intros T. destruct (creder_with_raw no_floats text) as [e| |]; try discriminate. destruct (index_str (d_ked e) (s! "a")) as [[]| |] eqn:G; try discriminate. destruct (from_utf8 (d_raw e)) as [t| |] eqn:U; try discriminate. apply beq_eq in T. subst t.
  exists e, l. split; auto. split; auto. now apply index_field.
Qed.
Lemma tidy_answers l : forallb tidy (l_acdc l) = true -> answering no_floats accepts_all (view no_floats l).
Proof. intros T. rewrite forallb_forall in T. apply view_answers. intros text I. apply tidy_ok. now apply T. Qed.
Lemma chained_answers : answering no_floats accepts_all (view no_floats chained).
Proof. apply tidy_answers. vm_compute. reflexivity. Qed.
Lemma orderly_harmless canon schema_check st e node : in_order canon schema_check st e node -> ~ hostile canon schema_check st node.
Proof. intros O H. apply node_iff in O as (x & X). rewrite (hostile_panics _ _ _ e _ H) in X. discriminate. Qed.
Lemma trap_due : exists said, due no_floats mix toy accepts_all young (view no_floats trapped) cred_t [GPaths [csigs_t]] said /\ sectioned (d_ked cred_t) /\
  edge (d_ked cred_t) (VObj []) /\ hostile no_floats accepts_all (view no_floats trapped) (VObj []) /\ forall node, edge (d_ked cred_t) node -> node = VObj [] \/ in_order no_floats accepts_all (view no_floats trapped) cred_t node.
Proof.
  assert (field_of (d_ked cred_t) (s! "e") trap) as F. { apply index_field. vm_compute. reflexivity. }
  exists (got [] (sad_said cred_t)). split; [|split; [right; left; eexists; exact F|split; [|split]]].
  - apply (due_iff no_floats mix toy runic accepts_all young 9 (view no_floats trapped) cred_t _ []). do 8 eexists.
    do 7 (split; [vm_compute; reflexivity|]). split. { eexists. split; [vm_compute; reflexivity|]. split; [reflexivity|discriminate]. }
    split; [vm_compute; reflexivity|]. split. { split; [vm_compute; reflexivity|]. intros [Q|[Q|[]]]; discriminate Q. }
    split; [split; [vm_compute; reflexivity|reflexivity]|]. vm_compute. reflexivity.
  - exists (s! "x"), [(s! "x", VObj [])]. split; [now left|]. split; [discriminate|]. split; [discriminate|]. left. exact F.
  - left. exists []. split; auto. intros v V. apply field_assoc in V. discriminate.
  - intros node (label & es & I & N1 & N2 & [D|(l' & D & _)]); pose proof (field_unique _ _ _ _ F D) as E; [|discriminate]. injection E as <-. destruct I as [I|[]]. injection I as _ <-. now left.
Qed.
Ltac inv_passed H := apply passed_iff in H as (status & vcid & schema & event & prov & saider & state & secs & ssaid & ilk & edges & seen1 & seen2 & H).

(*# C161_credential_verification_answers_refuted
   No key is needed to bring the verification of a credential down. Take any accepted credential, in any store, at any depth. There are groups of signatures on the whole of it, each of which names a key event.
   Attach one more group that names the same event with one signature, whose index is the number of the event's keys: verification panics. The rest of the signature does not matter.
##
Example C161_case : verify_acdc no_floats mix toy runic accepts_all young 9 (view no_floats issued) cred0 [GPaths [csigs0]] (Some false) [] = Ok (true, []) /\ about_all [GPaths [csigs0]] csigs0 /\
  (exists ks t, refers no_floats (view no_floats issued) csigs0 event0 ks t /\ len ks = 2) /\ bext_of (sp_pather (lone (Ix (s! "A") [] 2 2))) = Ok (s! "-") /\
  verify_acdc no_floats mix toy runic accepts_all young 9 (view no_floats issued) cred0 [GPaths [csigs0]; GPaths [lone (Ix (s! "A") [] 2 2)]] (Some false) [] = Panic /\
  verify_acdc no_floats mix toy runic accepts_all young 9 (view no_floats issued) cred0 [GPaths [csigs0]; GPaths [lone (Ix (s! "A") [] 3 3)]] (Some false) [] = Err EVerification.
Proof.
  split; [exact issued_accepted|]. split; [exact issued_about|]. split; [destruct issued_refers as (ks & t & A & B & _); eauto|]. split; [vm_compute; reflexivity|]. split; vm_compute; reflexivity.
Qed.
#*)
Lemma C161_refuted_l (canon : bytes -> option bytes) (hash : bytes -> bytes -> bytes) (cr : crypto) (messages_of : bytes -> R (list message)) (schema_check : bytes -> bytes -> R bool) (age : bytes -> R Z)
    (fuel : nat) (st : store) (e : sadder) (g : list group) (deep : option bool) (seen : list bytes) (r : bool * list bytes) :
  verify_acdc canon hash cr messages_of schema_check age fuel st e g deep seen = Ok r ->
  (exists p, about_all g p) /\
  (forall p, about_all g p -> exists x ks t, refers canon st p x ks t) /\
  forall p x ks t p' s, about_all g p -> refers canon st p x ks t -> alike p p' -> bext_of (sp_pather p') = Ok (s! "-") -> sp_sigers p' = [s] -> i_index s = len ks ->
    verify_acdc canon hash cr messages_of schema_check age fuel st e (g ++ [GPaths [p']]) deep seen = Panic.
Proof.
  destruct fuel as [|f]; intros H; [discriminate|]. destruct r as (there & seen'). destruct (C132_l _ _ _ _ _ _ _ _ _ _ _ _ _ H) as (_ & _ & _ & _ & _ & _ & _ & _ & _ & _ & _ & _ & _ & _ & _ & _ & _ & _ & _ & _ & AB & VO).
  split; auto. split. { intros p A. destruct (VO p A) as (pre & n & said & x & ks & t & _ & _ & I1 & I2 & I3 & I4 & I5 & I6 & _). exists x, ks, t, pre, n, said. auto 7. }
  intros p x ks t p' s A R (AL1 & AL2 & AL3) B SS IX. inv_passed H. rewrite (acdc_again _ _ _ _ _ _ _ _ _ _ _ _ _ _ _ _ _ _ _ _ _ _ _ _ _ _ _ H), path_groups_app, (c_paths _ _ _ _ _ _ _ _ _ _ _ _ _ _ _ _ _ _ _ _ _ _ _ _ _ _ _ H), bind_Ok. cbn [fst snd check_path_groups check_path_sigs].
  assert (check_path_sig canon hash cr messages_of f st e deep p' seen2 = Panic) as ->; [|reflexivity].
  rewrite path_flat.
  - destruct R as (pre & n & said & H1 & H2 & H3 & (text & H4 & H5 & H6) & H7 & H8). unfold check_path_sig. rewrite B, bind_Ok, beq_refl. cbn [negb]. rewrite <- AL1, <- AL2, <- AL3, H1, bind_Ok, H2, bind_Ok, asked_mod, H4, bind_Ok, H5, bind_Ok, H6, bind_Ok, H3, bind_Ok, beq_refl.
    cbn [negb or_else andb]. rewrite bind_Ok, H7, bind_Ok, SS. cbn [distinct existsb app check_sigs]. rewrite IX, N.ltb_irrefl. replace (nth_error ks (N.to_nat (len ks))) with (@None matter); [reflexivity|]. symmetry. apply nth_error_None. unfold len. lia.
  - destruct (or_else deep true) eqn:D; [|now left]. right. apply (alike_visited canon st p p'); [repeat split; auto|].
    exact (groups_visited canon hash cr messages_of schema_check age f st e deep D g false seen1 (true, seen2) (c_paths _ _ _ _ _ _ _ _ _ _ _ _ _ _ _ _ _ _ _ _ _ _ _ _ _ _ _ H) p A).
Qed.
(*# C161_credential_verification_answers_partial
   Otherwise attachments cannot do it. Take a credential accepted with some attachments, and attach instead any groups whatsoever in which the paths have texts and each group of signatures on the whole credential names a
   stored key event, without a signature that has the number of its keys as its index: verification answers or reports an error. Weighted thresholds must have a weight with a small denominator for each key.
   Missing for the full statement: that index; thresholds with other weights; groups that name no stored event (an error in the store assumed in other properties); verification at depth; credentials that no attachments make acceptable.
##
Example C161_answers_case : verify_acdc no_floats mix toy runic accepts_all young 9 (view no_floats issued) cred0 [GPaths [csigs0]] (Some false) [] = Ok (true, []) /\
  (exists ks t, refers no_floats (view no_floats issued) csigs0 event0 ks t /\ len ks = 2 /\ steady t (len ks)) /\
  verify_acdc no_floats mix toy runic accepts_all young 9 (view no_floats issued) cred0 [GPaths [lone (Ix (s! "A") [] 1 1)]; GPaths [lone (Ix (s! "A") [] 7 7)]] (Some false) [] = Err EForeign.
Proof.
  split; [exact issued_accepted|]. split; [destruct issued_refers as (ks & t & A & B & C); exists ks, t; repeat split; auto; congruence|]. vm_compute. reflexivity.
Qed.
#*)
Lemma C161_partial_l (canon : bytes -> option bytes) (hash : bytes -> bytes -> bytes) (cr : crypto) (messages_of : bytes -> R (list message)) (schema_check : bytes -> bytes -> R bool) (age : bytes -> R Z)
    (fuel : nat) (st : store) (e : sadder) (g g' : list group) (seen : list bytes) (r : bool * list bytes) :
  verify_acdc canon hash cr messages_of schema_check age fuel st e g (Some false) seen = Ok r ->
  (forall l p, In (GPaths l) g' -> In p l -> exists path, bext_of (sp_pather p) = Ok path) ->
  (forall p, about_all g' p -> exists x ks t, refers canon st p x ks t /\ steady t (len ks) /\ forall s, In s (sp_sigers p) -> i_index s <> len ks) ->
  verify_acdc canon hash cr messages_of schema_check age fuel st e g' (Some false) seen <> Panic.
Proof.
  destruct fuel as [|f]; intros H T A; [discriminate|]. destruct r as (there & seen'). inv_passed H. rewrite (acdc_again _ _ _ _ _ _ _ _ _ _ _ _ _ _ _ _ _ _ _ _ _ _ _ _ _ _ _ H).
  assert (forall p seen, (exists path, bext_of (sp_pather p) = Ok path) -> (bext_of (sp_pather p) = Ok (s! "-") -> exists x ks t, refers canon st p x ks t /\ steady t (len ks) /\ forall s, In s (sp_sigers p) -> i_index s <> len ks) ->
    match check_path_sig canon hash cr messages_of f st e (Some false) p seen with Ok (Some s1) => s1 = seen | Panic => False | _ => True end) as P1.
  { intros p se (path & B) X. unfold check_path_sig. rewrite B, bind_Ok. destruct (beq path (s! "-")) eqn:E; cbn [negb]; auto. apply beq_eq in E. subst path. destruct (X B) as (x & ks & t & (pre & n & said & H1 & H2 & H3 & (text & H4 & H5 & H6) & H7 & H8) & ST & NI).
    rewrite H1, bind_Ok, H2, bind_Ok, asked_mod, H4, bind_Ok, H5, bind_Ok, H6, bind_Ok, H3, bind_Ok, beq_refl. cbn [negb or_else andb]. rewrite bind_Ok, H7, bind_Ok. destruct (distinct_ok (sp_sigers p) [] (NoDup_nil _)) as (_ & D).
    pose proof (sigs_answer cr ks (d_raw e) (distinct [] (sp_sigers p))) as SA. destruct (check_sigs cr ks (d_raw e) (distinct [] (sp_sigers p))) as [l| |] eqn:CS; [|exact I|exfalso; apply SA; auto; intros y Y; apply NI; apply D in Y as [[]|Y]; exact Y].
    rewrite bind_Ok, H8, bind_Ok. apply sigs_ok in CS as (F & good & TH & ->). destruct (threshold_new _ _ _ H8) as (v & TN).
    destruct (steady_answers canon v t (len ks) (map fst (map (fun x => (i_index x, i_ondex x)) good)) TN ST) as (b & ->). { rewrite map_map. apply Forall_map. cbn [fst]. clear - F TH. induction TH; inversion F; subst; auto. }
    rewrite bind_Ok. destruct b; cbn [negb]; auto. }
  assert (forall l ro seen, (forall p, In p l -> exists path, bext_of (sp_pather p) = Ok path) ->
    (forall p, In p l -> bext_of (sp_pather p) = Ok (s! "-") -> exists x ks t, refers canon st p x ks t /\ steady t (len ks) /\ forall s, In s (sp_sigers p) -> i_index s <> len ks) ->
    match check_path_sigs canon hash cr messages_of f st e (Some false) l ro seen with Ok r => snd r = seen | Panic => False | _ => True end) as P2.
  { induction l as [|p l IH]; intros ro se B X; cbn [check_path_sigs]; auto. specialize (P1 p se (B p (or_introl eq_refl)) (X p (or_introl eq_refl))). destruct (check_path_sig canon hash cr messages_of f st e (Some false) p se) as [[s1|]| |]; try exact P1; [subst s1|]; rewrite bind_Ok; apply IH; intros q Q; solve [apply B; now right | apply X; now right]. }
  assert (forall gs ro seen, (forall l p, In (GPaths l) gs -> In p l -> exists path, bext_of (sp_pather p) = Ok path) ->
    (forall p, about_all gs p -> exists x ks t, refers canon st p x ks t /\ steady t (len ks) /\ forall s, In s (sp_sigers p) -> i_index s <> len ks) ->
    match check_path_groups canon hash cr messages_of f st e (Some false) gs ro seen with Ok r => snd r = seen | Panic => False | _ => True end) as P3.
  { induction gs as [|x gs IH]; intros ro se B X; cbn [check_path_groups]; auto. destruct x as [| |l| |]; auto. specialize (P2 l ro se (fun p Q => B l p (or_introl eq_refl) Q)).
    destruct (check_path_sigs canon hash cr messages_of f st e (Some false) l ro se) as [o| |]; [|exact I|].
    - rewrite bind_Ok. rewrite P2. 2:{ intros p Q BB. apply X. exists l. split; [now left|auto]. } apply IH; [intros l' p Q; apply (B l' p); now right|]. intros p (l' & I & J & K). apply X. exists l'. split; [now right|auto].
    - apply P2. intros p Q BB. apply X. exists l. split; [now left|auto]. }
  specialize (P3 g' false seen1 T A). destruct (check_path_groups canon hash cr messages_of f st e (Some false) g' false seen1) as [rs| |]; [|discriminate|destruct P3]. rewrite bind_Ok, P3. destruct (negb (fst rs)); [discriminate|].
  destruct H as [_ _ _ _ _ _ _ _ _ _ _ _ _ HP _ HE _]. apply (groups_iff canon hash cr messages_of schema_check age) in HP as (_ & _ & E2 & _). cbn [snd] in E2. subst seen2. rewrite HE, bind_Ok. discriminate.
Qed.

(*# C162_further_endorsements_refuted
   A further endorsement can make an accepted credential refused. Take any accepted credential, in any store, at any depth, and attach the signatures on the whole of it of someone whose key event the store does not have:
   verification reports the error with which the store answers, although all that was attached before still stands.
##
Example C162_case : verify_acdc no_floats mix toy runic accepts_all young 9 (view no_floats issued) cred0 [GPaths [csigs0]] (Some false) [] = Ok (true, []) /\
  get_key_event (view no_floats issued) pre_m (asked_for 0) = Err EForeign /\ infil (sp_prefixer csigs_m) = Ok pre_m /\ seqner_sn (sp_seqner csigs_m) = Ok 0 /\ bext_of (sp_pather csigs_m) = Ok (s! "-").
Proof. split; [exact issued_accepted|]. split; [vm_compute; reflexivity|]. split; [vm_compute; reflexivity|]. split; vm_compute; reflexivity. Qed.
#*)
Lemma C162_refuted_l (canon : bytes -> option bytes) (hash : bytes -> bytes -> bytes) (cr : crypto) (messages_of : bytes -> R (list message)) (schema_check : bytes -> bytes -> R bool) (age : bytes -> R Z)
    (fuel : nat) (st : store) (e : sadder) (g : list group) (deep : option bool) (seen : list bytes) (r : bool * list bytes) (p : sad_path_sig) (pre : bytes) (n : N) (er : err) :
  verify_acdc canon hash cr messages_of schema_check age fuel st e g deep seen = Ok r ->
  bext_of (sp_pather p) = Ok (s! "-") -> infil (sp_prefixer p) = Ok pre -> seqner_sn (sp_seqner p) = Ok n -> get_key_event st pre (asked_for n) = Err er ->
  verify_acdc canon hash cr messages_of schema_check age fuel st e (g ++ [GPaths [p]]) deep seen = Err er.
Proof.
  destruct fuel as [|f]; intros H B P S G; [discriminate|]. destruct r as (there & seen'). inv_passed H. rewrite (acdc_again _ _ _ _ _ _ _ _ _ _ _ _ _ _ _ _ _ _ _ _ _ _ _ _ _ _ _ H), path_groups_app, (c_paths _ _ _ _ _ _ _ _ _ _ _ _ _ _ _ _ _ _ _ _ _ _ _ _ _ _ _ H), bind_Ok.
  cbn [fst snd check_path_groups check_path_sigs]. unfold check_path_sig. rewrite B, bind_Ok, beq_refl. cbn [negb]. rewrite P, bind_Ok, S, bind_Ok, asked_mod, G. reflexivity.
Qed.
(*# C162_further_endorsements_partial
   Endorsements that are good do no harm, nor do signatures on parts of a credential. Attach to an accepted credential further groups of signatures on parts of it, such that each on the whole of it names a stored key event and
   has enough good signatures by its keys: verification gives the same answer. At depth the event must be one that a group attached before names. Missing for the full statement: groups that name events the store does not have, or
   have too few good signatures; other events at depth.
##
Example C162_good_case : verify_acdc no_floats mix toy runic accepts_all young 9 (view no_floats issued) cred0 [GPaths [csigs0]] (Some false) [] = Ok (true, []) /\ on_parts (GPaths [csigs0]) /\
  endorsed no_floats toy (view no_floats issued) (d_raw cred0) csigs0.
Proof.
  split; [exact issued_accepted|]. split. { exists [csigs0]. split; auto. constructor; [|constructor]. eexists. vm_compute. reflexivity. }
  apply (endorses_accepted _ _ _ _ _ _ _ _ _ _ _ _ issued_accepted _ issued_about).
Qed.
#*)
Lemma C162_partial_l (canon : bytes -> option bytes) (hash : bytes -> bytes -> bytes) (cr : crypto) (messages_of : bytes -> R (list message)) (schema_check : bytes -> bytes -> R bool) (age : bytes -> R Z)
    (fuel : nat) (st : store) (e : sadder) (g more : list group) (deep : option bool) (seen : list bytes) (r : bool * list bytes) :
  verify_acdc canon hash cr messages_of schema_check age fuel st e g deep seen = Ok r ->
  Forall on_parts more -> (forall p, about_all more p -> endorsed canon cr st (d_raw e) p) ->
  deep = Some false \/ (forall p, about_all more p -> exists p', about_all g p' /\ alike p' p) ->
  verify_acdc canon hash cr messages_of schema_check age fuel st e (g ++ more) deep seen = Ok r.
Proof.
  destruct fuel as [|f]; intros H F E D; [discriminate|]. destruct r as (there & seen'). inv_passed H. rewrite (acdc_again _ _ _ _ _ _ _ _ _ _ _ _ _ _ _ _ _ _ _ _ _ _ _ _ _ _ _ H), path_groups_app, (c_paths _ _ _ _ _ _ _ _ _ _ _ _ _ _ _ _ _ _ _ _ _ _ _ _ _ _ _ H), bind_Ok.
  cbn [fst snd]. destruct (groups_flat canon hash cr messages_of schema_check age f st e deep seen2 more true) as (b & -> & T); auto.
  - destruct (or_else deep true) eqn:DD; [|now left]. right. destruct D as [-> |D]; [discriminate|]. intros p A. destruct (D p A) as (p' & A' & AL). apply (alike_visited canon st p' p seen2 AL).
    exact (groups_visited canon hash cr messages_of schema_check age f st e deep DD g false seen1 (true, seen2) (c_paths _ _ _ _ _ _ _ _ _ _ _ _ _ _ _ _ _ _ _ _ _ _ _ _ _ _ _ H) p' A').
  - rewrite bind_Ok. cbn [fst snd]. rewrite (T eq_refl). cbn [negb]. rewrite (c_nodes _ _ _ _ _ _ _ _ _ _ _ _ _ _ _ _ _ _ _ _ _ _ _ _ _ _ _ H). reflexivity.
Qed.

(*# C163_accepted_credentials_exactly
   Exactly which credentials are accepted, without depth: those for which all is due that C132 lists, whose edges are a section or an array of sections, and each of whose edges is in order: it leads to a credential in the
   store that the schema it names, if any, accepts; its operators are texts without NOT; at most one of them says who has to be whom, I2I or NI2I, and it is met. If the store has the credential already, under its identifier, this is reported.
##
Example C163_case : due no_floats mix toy accepts_all young (view no_floats chained) cred_b [GPaths [csigs_b]] csaid_b /\ edge (d_ked cred_b) edge_b /\ in_order no_floats accepts_all (view no_floats chained) cred_b edge_b.
Proof.
  assert (verify_acdc no_floats mix toy knotted accepts_all young 9 (view no_floats chained) cred_b [GPaths [csigs_b]] (Some false) [] = Ok (true, [])) as V by (vm_compute; reflexivity).
  assert (edge (d_ked cred_b) edge_b) as ED. { exists (s! "auth"), [(s! "d", VStr []); (s! "auth", edge_b)]. split; [right; now left|]. split; [discriminate|]. split; [discriminate|]. left. apply index_field. vm_compute. reflexivity. }
  apply exactly_accepted in V as (_ & said & D & _ & E & _). split; [|split; auto]. assert (sad_said cred_b = Ok csaid_b) as S by (vm_compute; reflexivity).
  destruct D as (a1 & a2 & a3 & a4 & a5 & a6 & a7 & a8 & D1 & D2 & D). assert (said = csaid_b) as -> by congruence. exists a1, a2, a3, a4, a5, a6, a7, a8. auto.
Qed.
#*)
Lemma C163_l (canon : bytes -> option bytes) (hash : bytes -> bytes -> bytes) (cr : crypto) (messages_of : bytes -> R (list message)) (schema_check : bytes -> bytes -> R bool) (age : bytes -> R Z)
    (fuel : nat) (st : store) (e : sadder) (g : list group) (seen seen' : list bytes) (there : bool) :
  verify_acdc canon hash cr messages_of schema_check age (S fuel) st e g (Some false) seen = Ok (there, seen') <->
  seen' = seen /\ exists said, due canon hash cr schema_check age st e g said /\ sectioned (d_ked e) /\ (forall node, edge (d_ked e) node -> in_order canon schema_check st e node) /\
    (there = true /\ (exists e', held canon st said e' /\ sad_said e' = Ok said) \/ there = false /\ exists er, get_acdc st said = Err er).
Proof. apply exactly_accepted. Qed.

(*# C164_edges_answer_refuted
   An issuer can bring down whoever verifies a credential. Take any credential, in any store, for which all is due but whose edges are not in order: one of them leads nowhere, or has an operator that is no text, or asks for
   delegation, or asks for a holder where there is none. If the others are in order, verification panics.
##
Example C164_case : let to (o : value) := VObj [(s! "x", VObj [(s! "n", VStr csaid0); (s! "o", o)])] in
  bite (to (VStr (s! "NI2I"))) = Ok (false, []) /\ bite trap = Panic /\ bite (to (VStr (s! "DI2I"))) = Panic /\ bite (to (VStr (s! "I2I"))) = Panic /\ bite (to (VArr [VNull])) = Panic.
Proof. cbv zeta. do 4 (split; [vm_compute; reflexivity|]). vm_compute. reflexivity. Qed.
Example C164_due_case : exists said, due no_floats mix toy accepts_all young (view no_floats trapped) cred_t [GPaths [csigs_t]] said /\ sectioned (d_ked cred_t) /\
  edge (d_ked cred_t) (VObj []) /\ hostile no_floats accepts_all (view no_floats trapped) (VObj []) /\ forall node, edge (d_ked cred_t) node -> node = VObj [] \/ in_order no_floats accepts_all (view no_floats trapped) cred_t node.
Proof. exact trap_due. Qed.
#*)
Lemma C164_refuted_l (canon : bytes -> option bytes) (hash : bytes -> bytes -> bytes) (cr : crypto) (messages_of : bytes -> R (list message)) (schema_check : bytes -> bytes -> R bool) (age : bytes -> R Z)
    (fuel : nat) (st : store) (e : sadder) (g : list group) (seen : list bytes) (said : bytes) (node : value) :
  due canon hash cr schema_check age st e g said -> sectioned (d_ked e) -> edge (d_ked e) node -> hostile canon schema_check st node ->
  (forall node', edge (d_ked e) node' -> node' = node \/ in_order canon schema_check st e node') ->
  verify_acdc canon hash cr messages_of schema_check age (S fuel) st e g (Some false) seen = Panic.
Proof.
  intros D SE ED HO OT. destruct (sections_chains _ (due_object _ _ _ _ _ _ _ _ _ D) SE) as (prov & edges & CH & ES & l & EL & IN). rewrite (due_edges canon hash cr messages_of schema_check age fuel st e g seen said D prov edges CH ES). 
  assert (edges_of canon hash cr messages_of schema_check age fuel st e (Some false) edges seen = Panic) as ->; [|reflexivity].
  apply (hostile_panics canon schema_check st e) in HO. subst edges. apply IN in ED as (es & label & J & K & N1 & N2).
  assert (forall es label nd, In es l -> In (label, nd) es -> label <> s! "d" -> label <> s! "o" -> nd = node \/ in_order canon schema_check st e nd) as OT'. { intros es' lb nd A B C E. apply OT. apply IN. eauto 8. }
  clear OT IN CH ES D SE. induction l as [|a l IH]; [destruct J|]. cbn [map edges_of to_map]. rewrite bind_Ok.
  destruct (nodes_mixed canon hash cr messages_of schema_check age fuel st e node seen HO a) as [-> |(-> & NO)]; [intros lb nd; apply (OT' a lb nd); now left|reflexivity|].
  rewrite bind_Ok. apply IH; [|intros es' lb nd A; apply (OT' es' lb nd); now right]. destruct J as [->|J]; auto. destruct (NO _ K); contradiction.
Qed.
(*# C164_edges_answer_partial
   Otherwise edges cannot do it. Take any credential with an issuer for which all is due, whose edges are a section or an array of sections, in a store whose credentials are readable and have attributes, and about
   which schemas answer. If no edge leads nowhere, has an operator that is no text, asks for delegation, or asks for a holder where there is none, verification answers or reports an error.
   Missing for the full statement: those edges; stored credentials without attributes; verification at depth.
##
Example C164_answers_case : due no_floats mix toy accepts_all young (view no_floats chained) cred_b [GPaths [csigs_b]] csaid_b /\ sectioned (d_ked cred_b) /\ field_of (d_ked cred_b) (s! "i") (VStr pre_m) /\
  answering no_floats accepts_all (view no_floats chained) /\ edge (d_ked cred_b) edge_b /\ (forall node, edge (d_ked cred_b) node -> ~ hostile no_floats accepts_all (view no_floats chained) node) /\
  verify_acdc no_floats mix toy knotted accepts_all young 9 (view no_floats chained) cred_b [GPaths [csigs_b]] (Some false) [] = Ok (true, []).
Proof.
  assert (verify_acdc no_floats mix toy knotted accepts_all young 9 (view no_floats chained) cred_b [GPaths [csigs_b]] (Some false) [] = Ok (true, [])) as V by (vm_compute; reflexivity).
  pose proof V as V0. apply exactly_accepted in V as (_ & said & D & SE & ED & _). assert (sad_said cred_b = Ok csaid_b) as S by (vm_compute; reflexivity).
  assert (said = csaid_b) as ->. { destruct D as (a1 & a2 & a3 & a4 & a5 & a6 & a7 & a8 & D1 & D2 & D). congruence. }
  split; auto. split; auto. split. { apply text_field. vm_compute. reflexivity. } split; [exact chained_answers|]. split.
  - assert (exists es, field_of (d_ked cred_b) (s! "e") (VObj es) /\ In (s! "auth", edge_b) es) as (es & F & I).
    { eexists. split; [apply index_field; vm_compute; reflexivity|]. right. left. vm_compute. reflexivity. }
    exists (s! "auth"), es. split; auto. split; [discriminate|]. split; [discriminate|]. now left.
  - split; auto. intros node E. apply (orderly_harmless _ _ _ cred_b). now apply ED.
Qed.
#*)
Lemma C164_partial_l (canon : bytes -> option bytes) (hash : bytes -> bytes -> bytes) (cr : crypto) (messages_of : bytes -> R (list message)) (schema_check : bytes -> bytes -> R bool) (age : bytes -> R Z)
    (fuel : nat) (st : store) (e : sadder) (g : list group) (seen : list bytes) (said issuer : bytes) :
  due canon hash cr schema_check age st e g said -> field_of (d_ked e) (s! "i") (VStr issuer) -> sectioned (d_ked e) -> answering canon schema_check st ->
  (forall node, edge (d_ked e) node -> ~ hostile canon schema_check st node) ->
  verify_acdc canon hash cr messages_of schema_check age (S fuel) st e g (Some false) seen <> Panic.
Proof.
  intros D IS SE AN NH. destruct (sections_chains _ (due_object _ _ _ _ _ _ _ _ _ D) SE) as (prov & edges & CH & ES & l & EL & IN). rewrite (due_edges canon hash cr messages_of schema_check age fuel st e g seen said D prov edges CH ES).
  assert (there_of canon st said <> Panic) as TP.
  { unfold there_of. destruct (AN said) as (A1 & A2). destruct (get_acdc st said) as [text| |]; [|discriminate|congruence]. destruct (A2 text eq_refl) as (e' & su & -> & S & _). rewrite bind_Ok, S, bind_Ok, beq_refl. discriminate. }
  assert (edges_of canon hash cr messages_of schema_check age fuel st e (Some false) edges seen <> Panic) as EP.
  { subst edges. assert (forall es label nd, In es l -> In (label, nd) es -> label <> s! "d" -> label <> s! "o" -> check_node canon schema_check st e nd <> Panic) as OT.
    { intros es lb nd A B C E. apply (unhostile canon schema_check st e nd issuer); auto. apply NH. apply IN. eauto 8. }
    clear - OT. revert seen. induction l as [|a l IH]; intros seen; cbn [map edges_of to_map]; [discriminate|]. rewrite bind_Ok.
    assert (nodes_of canon hash cr messages_of schema_check age fuel st e (Some false) a seen <> Panic) as NP.
    { assert (forall label nd, In (label, nd) a -> label <> s! "d" -> label <> s! "o" -> check_node canon schema_check st e nd <> Panic) as O1 by (intros lb nd; apply (OT a lb nd); now left). clear - O1.
      revert seen. induction a as [|(lb, nd) a IH]; intros seen; cbn [nodes_of]; [discriminate|]. destruct (has_code [s! "d"; s! "o"] lb) eqn:HC; [apply IH; intros x y I; apply (O1 x y); now right|].
      assert (check_node canon schema_check st e nd <> Panic) as CN. { apply (O1 lb nd); [now left| |]; intros ->; discriminate. } destruct (check_node canon schema_check st e nd) as [((ns & msg) & pa)| |]; [|discriminate|congruence].
      rewrite bind_Ok. cbn [or_else andb]. rewrite bind_Ok. apply IH. intros x y I. apply (O1 x y). now right. }
    destruct (nodes_of canon hash cr messages_of schema_check age fuel st e (Some false) a seen) as [s1| |]; [|discriminate|congruence]. rewrite bind_Ok. apply IH. intros es lb nd I. apply (OT es lb nd). now right. }
  destruct (edges_of canon hash cr messages_of schema_check age fuel st e (Some false) edges seen) as [s1| |]; [|discriminate|congruence]. rewrite bind_Ok. destruct (there_of canon st said); [discriminate|discriminate|congruence].
Qed.
