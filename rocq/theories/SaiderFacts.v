(** Lemmas about self-addressing identifiers. *)
From Coq Require Import String.
From Coq Require Import NArith ZArith Lia Bool List.
From Verif Require Import Base BaseFacts Tables Matter MatterFacts MatterMore MatterThms Prims PrimsFacts Json JsonFacts JsonThms Common CommonFacts Saider Spec SpecPrims SpecJson
  SpecCommon SpecSaider.
Import ListNotations.
Open Scope N_scope.

(** ** Association lists *)
Lemma insert_insert {A} k (x y : A) m : insert k y (insert k x m) = insert k y m.
Proof.
  induction m as [|[k' v] m IH]; cbn [insert].
  - now rewrite beq_refl.
  - destruct (beq k' k) eqn:E; cbn [insert]; rewrite E; [reflexivity|]. now rewrite IH.
Qed.
Lemma insert_same {A} k (x : A) m : assoc k m = Some x -> insert k x m = m.
Proof.
  induction m as [|[k' v] m IH]; cbn [assoc insert]; [discriminate|]. destruct (beq k' k) eqn:E; [intros [= ->]; reflexivity|]. intros H. now rewrite IH.
Qed.
Lemma contains_insert {A} k k' (x : A) m : contains_key k' (insert k x m) = beq k k' || contains_key k' m.
Proof. unfold contains_key. rewrite assoc_insert. destruct (beq k k'); reflexivity. Qed.
Lemma insert_swap {A} k k' (x y : A) m : k <> k' -> contains_key k' m = true -> insert k' y (insert k x m) = insert k x (insert k' y m).
Proof.
  intros N. unfold contains_key. induction m as [|[a v] m IH]; cbn [assoc insert]; [discriminate|].
  destruct (beq a k') eqn:E'.
  - intros _. apply beq_eq in E'. subst a. destruct (beq k' k) eqn:E; [apply beq_eq in E; congruence|]. cbn [insert]. rewrite beq_refl, E. reflexivity.
  - intros H. destruct (beq a k) eqn:E; cbn [insert]; rewrite E, E'; [reflexivity|]. now rewrite IH.
Qed.

(** ** Codes *)
Lemma said_hash_codes code : has_code said_codes code = true -> has_code hash_codes code = true.
Proof. rewrite !has_code_in. unfold said_codes, hash_codes. cbn. intuition. Qed.
Lemma said_code_size code : has_code said_codes code = true <-> exists n, In (code, n) digest_sizes.
Proof.
  rewrite has_code_in. split.
  - cbn. intros H. repeat (destruct H as [<-|H]; [eexists; cbn; tauto|]). destruct H.
  - intros (n & H). cbn in *. intuition congruence.
Qed.
Lemma said_code_fixed code n : In (code, n) digest_sizes -> In (code, n) fixed_codes.
Proof. cbn [digest_sizes In]. intros H. repeat (destruct H as [<-|H]; [cbn; tauto|]). destruct H. Qed.
Definition said_fs (code : bytes) : N := if len code =? 1 then 44 else 88.
Lemma said_sizage code : has_code said_codes code = true -> exists z, sizage_of code = Ok z /\ fs z = said_fs code.
Proof.
  rewrite has_code_in. cbn. intros H. repeat (destruct H as [<-|H]; [eexists; split; vm_compute; reflexivity|]). destruct H.
Qed.
Definition dummy (code : bytes) : value := VStr (repeat x23 (N.to_nat (said_fs code))).
Lemma utf8_dummy n : utf8 (repeat x23 n) = true.
Proof. apply utf8_ascii. unfold ascii. now apply forallb_repeat. Qed.

(** ** sizeify in general *)
Lemma json_len_v m t t' : assoc (s! "v") m = Some (VStr t) -> forallb plain t = true -> forallb plain t' = true -> len t = len t' ->
  len (to_json (VObj (insert (s! "v") (VStr t') m))) = len (to_json (VObj m)).
Proof.
  intros A P P' L. destruct (assoc_split _ _ _ A) as (m1 & m2 & -> & N). rewrite insert_at by auto. rewrite !to_json_str by auto. rewrite !len_app, L. reflexivity.
Qed.
Lemma sizeify_ked m kind z : sizeify (VObj m) kind = Ok z -> exists vs proto n, assoc (s! "v") m = Some (VStr vs) /\ version_string vs proto 1 0 n /\
  as_u32 (len (to_json (VObj m))) < 2 ^ 24 /\ z_ked z = VObj (insert (s! "v") (VStr (vtext proto (as_u32 (len (to_json (VObj m)))))) m) /\ z_kind z = s! "JSON".
Proof.
  intros H. destruct (sizeify_shape _ _ _ H) as (m1 & vs & m2 & proto & n & E & N & V). injection E as ->. pose proof (assoc_at (s! "v") (VStr vs) m1 m2 N) as A.
  exists vs, proto, n. split; auto. split; auto. remember (m1 ++ (s! "v", VStr vs) :: m2) as m eqn:Em. clear Em N m1 m2.
  unfold sizeify in H. cbn [to_map index_str bind] in H. unfold contains_key in H. rewrite A in H. cbn [bind negb to_string] in H.
  assert (deversify vs = Ok (Vi proto (s! "JSON") (Ver 1 0) n)) as D by (apply deversify_ok; split; auto). rewrite D, bind_Ok in H.
  cbn [vi_version vi_kind vi_ident] in H. assert (version_eqb (Ver 1 0) current_version = true) as X by reflexivity. rewrite X in H. cbn [negb] in H. cbv zeta in H. fold (knd kind) in H. destruct (knd kind) eqn:K; cbn [negb] in H; [|discriminate].
  rewrite (knd_json _ K) in H. unfold dumps in H. cbn [or_else] in H. rewrite beq_refl, bind_Ok in H.
  apply bind_ok in H as (text & _ & H). destruct (find_rever text) as [st|]; [|discriminate]. destruct (12 <? st); [discriminate|].
  apply bind_ok in H as (fo & F1 & H). apply bind_ok in H as (ba & F2 & H). apply slice_bytes_ok in F1 as (L1 & L1' & ->). apply from_bytes_ok in F2 as (L2 & ->).
  assert (In proto idents) as IP by (apply idents_or; apply V). rewrite versify_eq, bind_Ok in H by auto. fold (vtext proto (as_u32 (len (to_json (VObj m))))) in H.
  set (T := vtext proto (as_u32 (len (to_json (VObj m))))) in *. destruct (len _ =? len (to_json (VObj m))) eqn:LE; [|discriminate]. cbn [negb] in H.
  cbn [set_str] in H. rewrite bind_Ok in H. apply N.eqb_eq in LE. rewrite !len_app, len_take, !len_drop in LE. assert (len T = 17) as L17 by lia.
  pose proof (vtext_len proto (as_u32 (len (to_json (VObj m)))) IP (as_u32_le _)) as VL. fold T in VL. rewrite L17 in VL. change (17 =? 17) with true in VL.
  symmetry in VL. apply N.ltb_lt in VL. split; [exact VL|]. injection H as <-. auto.
Qed.
Lemma version_proto vs p p' n n' : version_string vs p 1 0 n -> version_string vs p' 1 0 n' -> p = p'.
Proof.
  intros V V'. assert (deversify vs = Ok (Vi p (s! "JSON") (Ver 1 0) n)) as D by (apply deversify_ok; split; auto).
  assert (deversify vs = Ok (Vi p' (s! "JSON") (Ver 1 0) n')) as D' by (apply deversify_ok; split; auto). congruence.
Qed.
Lemma sizeify_again m m' kind z z' : sizeify (VObj m) kind = Ok z -> z_ked z = VObj m' -> sizeify (VObj m') kind = Ok z' -> z_ked z' = VObj m'.
Proof.
  intros H E H'. destruct (sizeify_ked _ _ _ H) as (vs & proto & n & A & V & L & K & _). destruct (sizeify_ked _ _ _ H') as (vs' & proto' & n' & A' & V' & _ & K' & _).
  assert (In proto idents) as IP by (apply idents_or; apply V). pose proof (vtext_string proto _ IP L) as V2. remember (len (to_json (VObj m))) as l eqn:El.
  remember (vtext proto (as_u32 l)) as T eqn:ET.
  rewrite K in E. injection E as <-. rewrite assoc_insert, beq_refl in A'. injection A' as <-. pose proof (version_proto _ _ _ _ _ V2 V') as <-.
  rewrite K', insert_insert. destruct (version_string_plain _ _ _ _ _ V) as (P1 & _). destruct (version_string_plain _ _ _ _ _ V2) as (P2 & _).
  destruct (version_string_rever _ _ _ _ _ V) as (L1 & _). destruct (version_string_rever _ _ _ _ _ V2) as (L2 & _).
  rewrite (json_len_v m vs T A P1 P2) by congruence. rewrite <- El, <- ET. reflexivity.
Qed.

(** ** derive *)
Definition strip (ignore : list bytes) (m : list (bytes * value)) : list (bytes * value) :=
  fold_left (fun map key => if contains_key key map then swap_remove key map else map) ignore m.
Section Hash.
Variable hash : bytes -> bytes -> bytes.

(** The data that is digested, before the ignored fields are removed. *)
Definition prepared (m : list (bytes * value)) (code : bytes) (kind : option bytes) (label : bytes) (md : list (bytes * value)) (kind' : option bytes) : Prop :=
  let m1 := insert label (dummy code) m in
  (contains_key (s! "v") m1 = false /\ md = m1 /\ kind' = kind) \/
  (contains_key (s! "v") m1 = true /\ exists z, sizeify (VObj m1) kind = Ok z /\ z_ked z = VObj md /\ kind' = Some (z_kind z)).

Lemma derive_ok sad code kind label ignore raw dsad : said_derive hash sad (Some code) kind (Some label) ignore = Ok (raw, dsad) ->
  has_code said_codes code = true /\ exists m md kind' ser, sad = VObj m /\ dsad = VObj md /\ prepared m code kind label md kind' /\
    said_serialize (VObj (strip ignore md)) kind' = Ok ser /\ raw = hash code ser.
Proof.
  unfold said_derive. cbn [or_else]. intros H. apply bind_ok in H as (u & C & H). unfold validate in C. destruct (has_code said_codes code) eqn:HC; [|discriminate].
  split; auto. destruct (said_sizage code HC) as (z & Hz & Hfs). rewrite Hz, bind_Ok, Hfs in H. unfold from_utf8 in H. rewrite utf8_dummy, bind_Ok in H.
  apply bind_ok in H as (s1 & S1 & H). destruct sad as [| | | | | |m]; try discriminate. cbn [set_str] in S1. injection S1 as <-. cbn [to_map] in H. rewrite bind_Ok in H.
  fold (dummy code) in H. apply bind_ok in H as ((k', s2) & KS & H). apply bind_ok in H as (map & M & H). destruct s2 as [| | | | | |md]; try discriminate. injection M as <-.
  apply bind_ok in H as (ser & S & H). apply bind_ok in H as (dig & D & H). injection H as <- <-. unfold digest in D. rewrite (said_hash_codes _ HC) in D. injection D as <-.
  exists m, md, k', ser. split; auto. split; auto. split; [|split; [exact S|reflexivity]]. unfold prepared.
  destruct (contains_key (s! "v") (insert label (dummy code) m)) eqn:CV.
  - right. split; auto. apply bind_ok in KS as (zz & Z & KS). injection KS as <- E. exists zz. auto.
  - left. injection KS as <- <-. auto.
Qed.
Lemma derive_intro m code kind label ignore md kind' ser : has_code said_codes code = true -> prepared m code kind label md kind' ->
  said_serialize (VObj (strip ignore md)) kind' = Ok ser -> said_derive hash (VObj m) (Some code) kind (Some label) ignore = Ok (hash code ser, VObj md).
Proof.
  intros HC P S. unfold said_derive. cbn [or_else]. unfold validate. rewrite HC, bind_Ok. destruct (said_sizage code HC) as (z & Hz & Hfs). rewrite Hz, bind_Ok, Hfs.
  unfold from_utf8. rewrite utf8_dummy, bind_Ok. cbn [set_str]. rewrite bind_Ok. cbn [to_map]. rewrite bind_Ok. fold (dummy code).
  unfold prepared in P. destruct P as [(CV & -> & ->)|(CV & zz & Z & K & ->)]; rewrite CV.
  - rewrite bind_Ok. cbn [to_map]. rewrite bind_Ok. fold (strip ignore (insert label (dummy code) m)). rewrite S, bind_Ok. unfold digest. rewrite (said_hash_codes _ HC). reflexivity.
  - rewrite Z, bind_Ok, bind_Ok, K. cbn [to_map]. rewrite bind_Ok. fold (strip ignore md). rewrite S, bind_Ok. unfold digest. rewrite (said_hash_codes _ HC). reflexivity.
Qed.
(** Only the data outside the label matter. *)
Lemma derive_label m x code kind label ignore :
  said_derive hash (VObj (insert label x m)) (Some code) kind (Some label) ignore = said_derive hash (VObj m) (Some code) kind (Some label) ignore.
Proof. unfold said_derive. cbn [or_else set_str]. destruct (validate said_codes code) as [u|e|]; cbn [bind]; auto. destruct (sizage_of code) as [z|e|]; cbn [bind]; auto.
  destruct (from_utf8 _) as [d|e|]; cbn [bind]; auto. rewrite insert_insert. reflexivity. Qed.

(** The prepared data hold the dummy at the label and preparing them again changes nothing. *)
Lemma dummy_not_version code p a b n t : dummy code = VStr t -> version_string t p a b n -> False.
Proof using. clear hash.
  unfold dummy. intros [= <-] V. destruct (version_string_rever _ _ _ _ _ V) as (L & _). rewrite len_repeat in L. unfold said_fs in L. destruct (len code =? 1); lia.
Qed.
Lemma prepared_label m code kind label md kind' : prepared m code kind label md kind' -> assoc label md = Some (dummy code).
Proof using. clear hash.
  intros [(_ & -> & _)|(_ & z & Z & K & _)]; [rewrite assoc_insert, beq_refl; reflexivity|].
  destruct (sizeify_ked _ _ _ Z) as (vs & proto & n & A & V & L & K' & _). rewrite K' in K. injection K as <-. rewrite assoc_insert.
  destruct (beq (s! "v") label) eqn:E.
  - apply beq_eq in E. subst label. rewrite assoc_insert, beq_refl in A. injection A as A. exfalso. eapply dummy_not_version; eauto. unfold dummy. rewrite A. reflexivity.
  - rewrite assoc_insert, beq_refl. reflexivity.
Qed.
Lemma prepared_again m code kind label md kind' md2 kind2 : prepared m code kind label md kind' -> prepared md code kind label md2 kind2 -> md2 = md /\ kind2 = kind'.
Proof using. clear hash.
  intros P P2. pose proof (prepared_label _ _ _ _ _ _ P) as L. unfold prepared in P2. rewrite (insert_same _ _ _ L) in P2.
  destruct P as [(C & -> & ->)|(C & z & Z & K & ->)].
  - destruct P2 as [(C2 & -> & ->)|(C2 & _)]; [auto|]. congruence.
  - destruct P2 as [(C2 & _)|(C2 & z2 & Z2 & K2 & ->)].
    + destruct (sizeify_ked _ _ _ Z) as (vs & proto & n & A & V & _ & K' & _). rewrite K' in K. injection K as <-. rewrite contains_insert, beq_refl in C2. discriminate.
    + pose proof (sizeify_again _ _ _ _ _ Z K Z2) as E. rewrite K2 in E. injection E as ->. split; auto.
      destruct (sizeify_ked _ _ _ Z) as (_ & _ & _ & _ & _ & _ & _ & ->). destruct (sizeify_ked _ _ _ Z2) as (_ & _ & _ & _ & _ & _ & _ & ->). reflexivity.
Qed.

(** ** The digest primitive *)
Lemma digest_matter code raw m : has_code said_codes code = true -> matter_of_code_raw code raw = Ok m -> m_code m = code.
Proof using. clear hash.
  intros H E. apply said_code_size in H as (n & H). apply said_code_fixed in H. apply fixed_known in H as (z & Hz & Ev & En).
  rewrite (construct_fixed code z raw Hz Ev) in E. destruct (_ <? _); [discriminate|]. injection E as <-. reflexivity.
Qed.

(** What saidify returns. *)
Lemma saidify_ok sad code kind label ignore s out : saidify hash sad (Some code) kind (Some label) ignore = Ok (s, out) ->
  exists m md kind' ser q, sad = VObj m /\ contains_key label m = true /\ has_code said_codes code = true /\ prepared m code kind label md kind' /\
    said_serialize (VObj (strip ignore md)) kind' = Ok ser /\
    said_derive hash (VObj md) (Some code) kind (Some label) ignore = Ok (hash code ser, VObj md) /\
    matter_of_code_raw code (hash code ser) = Ok s /\ m_code s = code /\ infil s = Ok q /\ out = VObj (insert label (VStr q) md).
Proof.
  unfold saidify. cbn [or_else]. intros H. apply bind_ok in H as (m & M & H). destruct sad as [| | | | | |m0]; try discriminate. injection M as ->.
  destruct (contains_key label m) eqn:CL; [|discriminate]. cbn [negb] in H. apply bind_ok in H as ((raw & dsad) & D & H). cbn [snd] in H.
  apply bind_ok in H as (sd & N & H). apply bind_ok in H as (q & Q & H). apply bind_ok in H as (o & O & H). injection H as <- <-.
  destruct (derive_ok _ _ _ _ _ _ _ D) as (HC & m' & md & k' & ser & E & -> & P & S & ->). injection E as <-.
  unfold said_new in N. cbn [or_else] in N. apply bind_ok in N as ((c & r) & CR & N). cbn [fst snd matter_new] in N. cbn [to_map] in CR. rewrite bind_Ok in CR.
  destruct (negb (contains_key label md)); [discriminate|]. rewrite bind_Ok in CR. apply bind_ok in CR as (u & _ & CR). apply bind_ok in CR as ((raw2 & dsad2) & D2 & CR).
  cbn [fst] in CR. injection CR as <- <-.
  destruct (derive_ok _ _ _ _ _ _ _ D2) as (_ & m'' & md2 & k2 & ser2 & E & -> & P2 & S2 & ->). injection E as <-.
  destruct (prepared_again _ _ _ _ _ _ _ _ P P2) as (-> & ->). rewrite S in S2. injection S2 as <-.
  exists m, md, k', ser, q. cbn [set_str] in O. injection O as <-. repeat (split; [auto; fail|]).
  split; [eapply digest_matter; eauto|]. auto.
Qed.
Lemma saidify_intro m code kind label ignore md kind' ser s q : contains_key label m = true -> has_code said_codes code = true -> prepared m code kind label md kind' ->
  prepared md code kind label md kind' ->
  said_serialize (VObj (strip ignore md)) kind' = Ok ser -> matter_of_code_raw code (hash code ser) = Ok s -> infil s = Ok q ->
  saidify hash (VObj m) (Some code) kind (Some label) ignore = Ok (s, VObj (insert label (VStr q) md)).
Proof.
  intros CL HC P P2 S M Q. unfold saidify. cbn [or_else to_map]. rewrite bind_Ok, CL. cbn [negb]. rewrite (derive_intro _ _ _ _ _ _ _ _ HC P S), bind_Ok. cbn [snd].
  unfold said_new. cbn [or_else to_map]. rewrite bind_Ok. unfold contains_key. rewrite (prepared_label _ _ _ _ _ _ P). cbn [negb]. rewrite bind_Ok. unfold validate. rewrite HC, bind_Ok.
  rewrite (derive_intro _ _ _ _ _ _ _ _ HC P2 S), bind_Ok. cbn [fst]. rewrite bind_Ok. cbn [fst snd matter_new]. rewrite M, bind_Ok, Q, bind_Ok. reflexivity.
Qed.
Lemma prepared_fix m code kind label md kind' : prepared m code kind label md kind' -> 
  (exists md2 k2, prepared md code kind label md2 k2) -> prepared md code kind label md kind'.
Proof using. clear hash. intros P (md2 & k2 & P2). destruct (prepared_again _ _ _ _ _ _ _ _ P P2) as (-> & ->). exact P2. Qed.
End Hash.

(** ** Removing fields *)
From Coq Require Import Permutation.
Section Fields.
Context {A : Type}.
Implicit Types (m : list (bytes * A)) (k : bytes).
Definition without' (ks : list bytes) m : list (bytes * A) := filter (fun kv => negb (existsb (beq (fst kv)) ks)) m.
Lemma in_existsb k ks : existsb (beq k) ks = true <-> In k ks.
Proof. rewrite existsb_exists. split; [intros (x & H & E); apply beq_eq in E; now subst|intros H; exists k; split; [auto|apply beq_refl]]. Qed.
Lemma beq_sym a b : beq a b = beq b a.
Proof. destruct (beq a b) eqn:E; [apply beq_eq in E; subst; now rewrite beq_refl|]. destruct (beq b a) eqn:E'; [|reflexivity]. apply beq_eq in E'. subst. now rewrite beq_refl in E. Qed.
Lemma without_step ks k v m : without' ks ((k, v) :: m) = if existsb (beq k) ks then without' ks m else (k, v) :: without' ks m.
Proof. unfold without'. cbn [filter fst]. destruct (existsb (beq k) ks); reflexivity. Qed.
Lemma exists1 a k : existsb (beq a) [k] = beq a k.
Proof. cbn. apply orb_false_r. Qed.
Lemma without_cons k ks m : without' (k :: ks) m = without' ks (without' [k] m).
Proof.
  induction m as [|(a, v) m IH]; auto. rewrite !without_step, exists1. change (existsb (beq a) (k :: ks)) with (beq a k || existsb (beq a) ks).
  destruct (beq a k); cbn [orb]; auto. rewrite without_step, IH. reflexivity.
Qed.
Lemma without_notin k m : ~ In k (map fst m) -> without' [k] m = m.
Proof.
  induction m as [|(a, v) m IH]; auto. cbn [map fst In]. intros N. rewrite without_step, exists1. destruct (beq a k) eqn:E; [apply beq_eq in E; tauto|]. now rewrite IH by tauto.
Qed.
Lemma removelast_perm (l : list (bytes * A)) x : l <> [] -> Permutation l (last l x :: removelast l).
Proof. intros N. rewrite (app_removelast_last x N) at 1. symmetry. apply Permutation_cons_append. Qed.
Lemma swap_remove_perm k m : NoDup (map fst m) -> Permutation (swap_remove k m) (without' [k] m).
Proof.
  induction m as [|(a, v) m IH]; cbn [swap_remove map fst]; auto. intros ND. inversion ND as [|? ? NI ND']; subst. rewrite without_step, exists1.
  destruct (beq a k) eqn:E.
  - apply beq_eq in E. subst a. rewrite without_notin by auto. destruct m as [|x m]; auto. symmetry. apply removelast_perm. discriminate.
  - constructor. now apply IH.
Qed.
Definition strip' (ignore : list bytes) m := fold_left (fun map key => if contains_key key map then swap_remove key map else map) ignore m.
Lemma NoDup_without ks m : NoDup (map fst m) -> NoDup (map fst (without' ks m)).
Proof.
  unfold without'. induction m as [|(a, v) m IH]; cbn [filter map fst]; auto. intros ND. inversion ND as [|? ? NI ND']; subst. destruct (negb _); auto. cbn [map fst].
  constructor; auto. intros H. apply NI. apply in_map_iff in H as (x & E & H). apply filter_In in H as (H & _). apply in_map_iff. eauto.
Qed.
Lemma filter_perm {B} (f : B -> bool) l l' : Permutation l l' -> Permutation (filter f l) (filter f l').
Proof. induction 1; cbn; auto. - destruct (f x); auto. - destruct (f x), (f y); auto. apply perm_swap. - eapply perm_trans; eauto. Qed.
Lemma contains_in k m : contains_key k m = true <-> In k (map fst m).
Proof. unfold contains_key. destruct (assoc k m) eqn:E; split; auto; intros H; try discriminate. - apply assoc_In in E. apply in_map_iff. eexists; split; [|exact E]; reflexivity.
  - apply assoc_none_iff in E. contradiction. Qed.
Lemma strip_perm ks m : NoDup (map fst m) -> Permutation (strip' ks m) (without' ks m).
Proof.
  unfold strip'. revert m. induction ks as [|k ks IH]; cbn [fold_left]; intros m ND.
  - unfold without'. cbn [existsb]. induction m as [|x m IHm]; cbn [filter negb]; auto. inversion ND; subst. auto.
  - rewrite without_cons. destruct (contains_key k m) eqn:C.
    + pose proof (swap_remove_perm k m ND) as P. assert (NoDup (map fst (swap_remove k m))) as ND2.
      { eapply Permutation_NoDup; [symmetry; apply Permutation_map; exact P|]. now apply NoDup_without. }
      eapply perm_trans; [apply IH; exact ND2|]. unfold without' at 1 2. apply filter_perm. exact P.
    + rewrite without_notin; [now apply IH|]. intros H. apply contains_in in H. congruence.
Qed.
Lemma assoc_perm k m m' : NoDup (map fst m) -> Permutation m m' -> assoc k m = assoc k m'.
Proof.
  intros ND P. destruct (assoc k m) as [v|] eqn:E.
  - assert (NoDup (map fst m')) as ND' by (eapply Permutation_NoDup; [apply Permutation_map; exact P|exact ND]). apply assoc_In in E. apply (Permutation_in _ P) in E.
    symmetry. clear P ND m. induction m' as [|(a, w) m' IH]; [destruct E|]. inversion ND' as [|? ? NI ND2]; subst. cbn [assoc]. destruct E as [[= -> ->]|E]; [now rewrite beq_refl|].
    destruct (beq a k) eqn:B; [|auto]. apply beq_eq in B. subst a. exfalso. apply NI. apply in_map_iff. eexists; split; [|exact E]; reflexivity.
  - apply assoc_none_iff in E. symmetry. apply assoc_none_iff. intros H. apply E. eapply Permutation_in; [|exact H]. symmetry. now apply Permutation_map.
Qed.
Lemma assoc_without k ks m : assoc k (without' ks m) = if existsb (beq k) ks then None else assoc k m.
Proof.
  unfold without'. induction m as [|(a, v) m IH]; cbn [filter assoc fst].
  - destruct (existsb _ _); reflexivity.
  - destruct (beq a k) eqn:E.
    + apply beq_eq in E. subst a. destruct (existsb (beq k) ks) eqn:X; cbn [negb]; auto. cbn [assoc]. now rewrite beq_refl.
    + destruct (negb _); auto. cbn [assoc]. now rewrite E, IH.
Qed.
Lemma strip_NoDup ks m : NoDup (map fst m) -> NoDup (map fst (strip' ks m)).
Proof. intros H. eapply Permutation_NoDup; [symmetry; apply Permutation_map, strip_perm; exact H|]. now apply NoDup_without. Qed.
Lemma assoc_strip k ks m : NoDup (map fst m) -> assoc k (strip' ks m) = if existsb (beq k) ks then None else assoc k m.
Proof. intros H. rewrite (assoc_perm _ _ _ (strip_NoDup ks m H) (strip_perm ks m H)). apply assoc_without. Qed.
(** Ignored fields at the end are removed without disturbing the others. *)
Lemma swap_remove_app k (keep g : list (bytes * A)) : ~ In k (map fst keep) -> swap_remove k (keep ++ g) = keep ++ swap_remove k g.
Proof.
  induction keep as [|(a, v) r IH]; cbn [app swap_remove map fst In]; auto. intros N. destruct (beq a k) eqn:E; [apply beq_eq in E; tauto|]. now rewrite IH by tauto.
Qed.
Lemma contains_app k m m' : contains_key k (m ++ m') = contains_key k m || contains_key k m'.
Proof. unfold contains_key. rewrite assoc_app. destruct (assoc k m); reflexivity. Qed.
Lemma strip_app ks (keep g : list (bytes * A)) : (forall k, In k ks -> ~ In k (map fst keep)) -> strip' ks (keep ++ g) = keep ++ strip' ks g.
Proof.
  unfold strip'. revert g. induction ks as [|k ks IH]; cbn [fold_left]; intros g H; auto.
  assert (~ In k (map fst keep)) as N by (apply H; now left). rewrite contains_app. destruct (contains_key k keep) eqn:C; [apply contains_in in C; contradiction|].
  cbn [orb]. destruct (contains_key k g).
  - rewrite swap_remove_app by auto. apply IH. intros; apply H; now right.
  - apply IH. intros; apply H; now right.
Qed.
Lemma without_all ks m : (forall k, In k (map fst m) -> In k ks) -> without' ks m = [].
Proof.
  unfold without'. induction m as [|(a, v) m IH]; cbn [filter fst map In]; auto. intros H. assert (In a ks) as I by (apply H; now left). apply in_existsb in I. rewrite I. cbn [negb].
  apply IH. intros; apply H; now right.
Qed.
Lemma without_none ks m : (forall k, In k ks -> ~ In k (map fst m)) -> without' ks m = m.
Proof.
  unfold without'. induction m as [|(a, v) m IH]; cbn [filter fst map In]; auto. intros H. destruct (existsb (beq a) ks) eqn:E.
  - apply in_existsb in E. exfalso. apply (H a E). now left.
  - cbn [negb]. rewrite IH; auto. intros k K N. apply (H k K). now right.
Qed.
Lemma strip_trailing ks (keep g : list (bytes * A)) : NoDup (map fst (keep ++ g)) -> (forall k, In k ks -> ~ In k (map fst keep)) -> (forall k, In k (map fst g) -> In k ks) ->
  strip' ks (keep ++ g) = without' ks (keep ++ g).
Proof.
  intros ND H G. rewrite strip_app by auto. unfold without'. rewrite filter_app. fold (without' ks keep) (without' ks g). rewrite (without_none ks keep H), (without_all ks g G). f_equal.
  apply Permutation_nil. symmetry. eapply perm_trans; [apply strip_perm|rewrite (without_all ks g G); auto]. rewrite map_app in ND. clear -ND. induction (map fst keep) as [|a l IH]; auto. apply IH. now inversion ND.
Qed.
Lemma insert_replaced k (x : A) m : NoDup (map fst m) -> In k (map fst m) -> insert k x m = map (fun kv => if beq (fst kv) k then (fst kv, x) else kv) m.
Proof.
  induction m as [|(a, v) m IH]; cbn [insert map fst In]; [tauto|]. intros ND I. inversion ND as [|? ? NI ND2]; subst. destruct (beq a k) eqn:E.
  - apply beq_eq in E. subst a. f_equal. clear IH ND ND2 I. induction m as [|(b, w) m IHm]; auto. cbn [map fst]. destruct (beq b k) eqn:E; [apply beq_eq in E; subst; cbn in NI; tauto|].
    f_equal. apply IHm. cbn in NI. tauto.
  - f_equal. apply IH; auto. destruct I as [->|I]; auto. now rewrite beq_refl in E.
Qed.
Lemma without_insert k (x : A) m : without' [k] (insert k x m) = without' [k] m.
Proof.
  induction m as [|(a, v) m IH]; cbn [insert].
  - rewrite without_step, exists1. now rewrite beq_refl.
  - destruct (beq a k) eqn:E; rewrite !without_step, !exists1, E; auto. now rewrite IH.
Qed.
Lemma insert_found k (x : A) m : In (k, x) (insert k x m).
Proof. induction m as [|(a, v) m IH]; cbn [insert]; [now left|]. destruct (beq a k) eqn:E; [apply beq_eq in E; subst; now left|now right]. Qed.
End Fields.
Lemma get_assoc k (m : list (bytes * value)) : get k m = assoc k m.
Proof. unfold get. induction m as [|(a, v) m IH]; cbn [find assoc fst]; auto. destruct (beq a k); [reflexivity|auto]. Qed.

(** ** Serialisation *)
Lemma serialize_json v kind ser : said_serialize v kind = Ok ser -> ser = to_json v.
Proof.
  unfold said_serialize. intros H. apply bind_ok in H as (m & _ & H). apply bind_ok in H as (k & _ & H). cbv zeta in H. unfold dumps in H.
  destruct kind as [kk|]; cbn [or_else] in H; (destruct (beq _ _); [injection H as <-; reflexivity|discriminate]).
Qed.
Definition json_kind (kind : option bytes) : Prop := kind = None \/ kind = Some (s! "JSON").
Lemma serialize_intro m kind : json_kind kind -> (forall x, assoc (s! "v") m = Some x -> exists vs p a b n, x = VStr vs /\ version_string vs p a b n) ->
  said_serialize (VObj m) kind = Ok (to_json (VObj m)).
Proof.
  intros K V. unfold said_serialize. cbn [to_map]. rewrite bind_Ok. unfold contains_key. cbn [index_str].
  destruct (assoc (s! "v") m) as [x|] eqn:A.
  - destruct (V x eq_refl) as (vs & p & a & b & n & -> & VS). cbn [bind to_string].
    assert (deversify vs = Ok (Vi p (s! "JSON") (Ver a b) n)) as D by (apply deversify_ok; split; auto). rewrite D. cbn [bind vi_kind].
    destruct K as [-> | ->]; unfold dumps; cbn [or_else]; rewrite beq_refl; reflexivity.
  - cbn [bind]. destruct K as [-> | ->]; unfold dumps; cbn [or_else]; rewrite beq_refl; reflexivity.
Qed.
Lemma prepared_v m code kind label md kind' : prepared m code kind label md kind' -> label <> s! "v" /\
  (forall x, assoc (s! "v") md = Some x -> exists vs p n, x = VStr vs /\ version_string vs p 1 0 n) /\
  (contains_key (s! "v") md = contains_key (s! "v") (insert label (dummy code) m)).
Proof.
  intros [(C & -> & _)|(C & z & Z & K & _)].
  - split; [intros ->; rewrite contains_insert, beq_refl in C; discriminate|]. split; auto. unfold contains_key in C. intros x X. rewrite X in C. discriminate.
  - destruct (sizeify_ked _ _ _ Z) as (vs & proto & n & A & V & L & K' & _). rewrite K' in K. injection K as <-. split; [|split].
    + intros ->. rewrite assoc_insert, beq_refl in A. injection A as A. refine (dummy_not_version code proto 1 0 n vs _ V). unfold dummy. now rewrite A.
    + rewrite assoc_insert, beq_refl. intros x [= <-]. assert (In proto idents) as IP by (apply idents_or; apply V). pose proof (vtext_string proto _ IP L) as V2.
      eauto.
    + rewrite C, contains_insert, beq_refl. reflexivity.
Qed.
Lemma data_insert k x m : data (VObj m) -> utf8 k = true -> data x -> data (VObj (insert k x m)).
Proof.
  intros D U X. inversion D as [| | | | |? ND K V]; subst. apply data_obj.
  - now apply insert_NoDup.
  - rewrite insert_keys. destruct (contains_key k m); auto. apply Forall_app. auto.
  - clear ND K D. induction m as [|(a, v) m IH]; cbn [insert map snd]; [auto|]. cbn [map snd] in V. inversion V; subst. destruct (beq a k); cbn [map snd]; constructor; auto.
Qed.
Lemma data_perm m m' : Permutation m m' -> data (VObj m) -> data (VObj m').
Proof.
  intros P D. inversion D as [| | | | |? ND K V]; subst. apply data_obj.
  - eapply Permutation_NoDup; [apply Permutation_map; exact P|exact ND].
  - eapply Permutation_Forall; [apply Permutation_map; exact P|exact K].
  - eapply Permutation_Forall; [apply Permutation_map; exact P|exact V].
Qed.
Lemma data_without ks m : data (VObj m) -> data (VObj (without' ks m)).
Proof.
  intros D. inversion D as [| | | | |? ND K V]; subst. apply data_obj; [now apply NoDup_without| |]; clear ND D; (induction m as [|(a, v) m IH]; [constructor|]);
    cbn [map fst snd] in *; inversion K; inversion V; subst; rewrite without_step; destruct (existsb _ _); cbn [map fst snd]; auto.
Qed.
Lemma data_strip ks m : data (VObj m) -> data (VObj (strip ks m)).
Proof. intros D. inversion D; subst. eapply data_perm; [symmetry; apply (strip_perm ks m); auto|]. now apply data_without. Qed.
Lemma data_dummy code : data (dummy code).
Proof. apply data_str, utf8_dummy. Qed.
Lemma prepared_data m code kind label md kind' : prepared m code kind label md kind' -> data (VObj m) -> utf8 label = true -> data (VObj md).
Proof.
  intros P D U. pose proof (data_insert label (dummy code) m D U (data_dummy code)) as D1. destruct P as [(C & -> & _)|(C & z & Z & K & _)]; auto.
  destruct (sizeify_ked _ _ _ Z) as (vs & proto & n & A & V & L & K' & _). rewrite K' in K. injection K as <-. apply data_insert; [auto|reflexivity|].
  assert (In proto idents) as IP by (apply idents_or; apply V). pose proof (vtext_string proto _ IP L) as V2. apply data_str, utf8_ascii. eapply version_string_plain; eauto.
Qed.
Lemma prepared_keys m code kind label md kind' : prepared m code kind label md kind' -> NoDup (map fst m) -> NoDup (map fst md).
Proof.
  intros P D. pose proof (insert_NoDup label (dummy code) m D) as D1. destruct P as [(C & -> & _)|(C & z & Z & K & _)]; auto.
  destruct (sizeify_ked _ _ _ Z) as (vs & proto & n & A & V & L & K' & _). rewrite K' in K. injection K as <-. now apply insert_NoDup.
Qed.
