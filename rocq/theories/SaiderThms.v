(** Proofs of the properties of self-addressing identifiers. *)
From Coq Require Import String.
From Coq Require Import NArith ZArith Bool List Lia Permutation.
From Verif Require Import Base BaseFacts Tables Matter MatterFacts MatterMore MatterThms Prims PrimsFacts Json JsonFacts JsonThms Common CommonFacts CommonThms Saider SaiderFacts
  Spec SpecPrims SpecJson SpecCommon SpecSaider.
Import ListNotations.
Open Scope N_scope.

Lemma strip_eq ks m : strip ks m = strip' ks m. Proof. reflexivity. Qed.
Lemma without_eq ks m : without ks m = without' ks m. Proof. reflexivity. Qed.
Lemma said_built hash code ser : sized_hash hash -> has_code said_codes code = true ->
  matter_of_code_raw code (hash code ser) = Ok (Mt code 0 (hash code ser)) /\ wf_matter (Mt code 0 (hash code ser)).
Proof. intros SH HC. apply said_code_size in HC as (n & H). apply (fixed_built code n); [now apply said_code_fixed|now apply SH]. Qed.

(** What [verify] answering true means. *)
Lemma verify_true hash s sad pre ver kind label ignore : said_verify hash s sad pre ver kind label ignore = Ok true ->
  exists m md kind' ser s' q, sad = VObj m /\ has_code said_codes (m_code s) = true /\ prepared m (m_code s) kind (or_else label (s! "d")) md kind' /\
    said_serialize (VObj (strip ignore md)) kind' = Ok ser /\ matter_of_code_raw (m_code s) (hash (m_code s) ser) = Ok s' /\ infil s = Ok q /\ infil s' = Ok q /\
    (or_else ver true = true -> contains_key (s! "v") m = true -> assoc (s! "v") m = assoc (s! "v") md) /\
    (or_else pre false = true -> assoc (or_else label (s! "d")) m = Some (VStr q)).
Proof.
  unfold said_verify. intros H. destruct (said_derive _ _ _ _ _ _) as [(raw & dsad)|e|] eqn:D; [|discriminate|discriminate].
  destruct (derive_ok _ _ _ _ _ _ _ _ D) as (HC & m & md & k' & ser & -> & -> & P & S & ->).
  destruct (said_new _ _ _ _ _ _ _ _ _ _) as [s'|e|] eqn:N; [|discriminate|discriminate].
  unfold said_new in N. cbn [bind] in N. apply bind_ok in N as (cr & CR & N). apply bind_ok in CR as (u & _ & CR). injection CR as <-. cbn [fst snd matter_new] in N.
  apply bind_ok in H as (a & Ia & H). apply bind_ok in H as (b & Ib & H). destruct (beq a b) eqn:E; [|discriminate]. apply beq_eq in E. subst b. cbn [negb] in H.
  apply bind_ok in H as (df & DF & H). destruct df; [discriminate|]. apply bind_ok in H as (df2 & DF2 & H). destruct df2; [discriminate|]. clear H.
  exists m, md, k', ser, s', a. do 7 (split; [auto; fail|]). split.
  - intros V C. rewrite V in DF. cbn [to_map index_str bind] in DF. rewrite C in DF. unfold contains_key in C. destruct (assoc (s! "v") m) as [x|] eqn:X; [|discriminate].
    cbn [bind] in DF. apply bind_ok in DF as (x1 & X1 & DF). apply bind_ok in DF as (y & Y & DF). apply bind_ok in DF as (y1 & Y1 & DF).
    destruct (assoc (s! "v") md) as [yv|] eqn:Ev; [|discriminate]. injection Y as ->. destruct x; try discriminate. destruct y; try discriminate. injection X1 as ->. injection Y1 as ->.
    injection DF as DF. destruct (beq x1 y1) eqn:E; [|discriminate]. apply beq_eq in E. now subst.
  - intros V. rewrite V in DF2. cbn [index_str] in DF2. destruct (assoc (or_else label (s! "d")) m) as [x|]; [|discriminate]. cbn [bind] in DF2.
    clear DF. apply bind_ok in DF2 as (x1 & X1 & DF). rewrite Ia, bind_Ok in DF. destruct x; try discriminate. injection X1 as ->. injection DF as DF. destruct (beq x1 a) eqn:E; [|discriminate].
    apply beq_eq in E. now subst.
Qed.
Lemma verify_intro hash s m pre ver kind label ignore md kind' ser s' q : has_code said_codes (m_code s) = true -> prepared m (m_code s) kind (or_else label (s! "d")) md kind' ->
  said_serialize (VObj (strip ignore md)) kind' = Ok ser -> matter_of_code_raw (m_code s) (hash (m_code s) ser) = Ok s' -> infil s = Ok q -> infil s' = Ok q ->
  (or_else ver true = true -> contains_key (s! "v") m = true -> assoc (s! "v") m = assoc (s! "v") md) ->
  (or_else pre false = true -> assoc (or_else label (s! "d")) m = Some (VStr q)) ->
  said_verify hash s (VObj m) pre ver kind label ignore = Ok true.
Proof.
  intros HC P S M I I' V L. unfold said_verify. rewrite (derive_intro hash _ _ _ _ _ _ _ _ HC P S). unfold said_new. unfold validate. rewrite HC, bind_Ok, bind_Ok. cbn [fst snd matter_new].
  rewrite M, I, I', !bind_Ok, beq_refl. cbn [negb to_map index_str]. rewrite !bind_Ok. destruct (prepared_v _ _ _ _ _ _ P) as (LV & VS & CV).
  assert ((if or_else ver true then if contains_key (s! "v") m then
       let* x := match assoc (s! "v") m with Some v => Ok v | None => Panic end in let* x0 := to_string x in
       let* y := match assoc (s! "v") md with Some v => Ok v | None => Panic end in let* y0 := to_string y in Ok (negb (beq x0 y0)) else Ok false else Ok false) = Ok false) as ->.
  { destruct (or_else ver true); auto. destruct (contains_key (s! "v") m) eqn:C; auto. rewrite V by auto. pose proof C as C2. rewrite contains_insert in CV. rewrite C, orb_true_r in CV.
    unfold contains_key in CV. destruct (assoc (s! "v") md) as [x|]; [|discriminate]. destruct (VS x eq_refl) as (vs & p & n & -> & _). cbn [bind to_string]. now rewrite beq_refl. }
  rewrite bind_Ok. destruct (or_else pre false); [|reflexivity]. rewrite L by auto. cbn [bind to_string]. now rewrite beq_refl.
Qed.

(*# C58_said_round_trip
   The SAID and the data returned by saidify verify, with prefix and version checks switched on or off.
##
Example C58_case : is_ok (saidify pretend (VObj [(s! "v", VStr (s! "KERI10JSON000000_")); (s! "d", VStr []); (s! "a", VInt 3)]) None None None []) = true.
Proof. vm_compute. reflexivity. Qed.
#*)
Lemma C58a_l (hash : bytes -> bytes -> bytes) (sad out : value) (code kind label : option bytes) (ignore : list bytes) (saider : matter) (prefixed versioned : option bool) :
  saidify hash sad code kind label ignore = Ok (saider, out) ->
  said_verify hash saider out prefixed versioned kind label ignore = Ok true.
Proof.
  intros H. change (saidify hash sad code kind label ignore) with (saidify hash sad (Some (or_else code (s! "E"))) kind (Some (or_else label (s! "d"))) ignore) in H.
  set (l := or_else label (s! "d")) in *. destruct (saidify_ok _ _ _ _ _ _ _ _ H) as (m & md & k' & ser & q & -> & CL & HC & P & S & D & M & C & Q & ->).
  rewrite <- C in *. destruct (derive_ok _ _ _ _ _ _ _ _ D) as (_ & md0 & md1 & k2 & ser2 & E & E1 & P2 & S2 & _). injection E as <-. injection E1 as <-.
  destruct (prepared_again _ _ _ _ _ _ _ _ P P2) as (_ & ->).
  destruct (prepared_v _ _ _ _ _ _ P) as (LV & _ & _).
  eapply verify_intro with (md := md) (kind' := k') (ser := ser) (s' := saider) (q := q); fold l; auto.
  - unfold prepared in *. rewrite insert_insert. exact P2.
  - intros _ _. rewrite assoc_insert. destruct (beq l (s! "v")) eqn:B; [apply beq_eq in B; contradiction|reflexivity].
  - intros _. now rewrite assoc_insert, beq_refl.
Qed.

Lemma sizeify_json m : (exists vs p a b n, assoc (s! "v") m = Some (VStr vs) /\ version_string vs p a b n) -> sizeify (VObj m) (Some (s! "JSON")) = sizeify (VObj m) None.
Proof.
  intros (vs & p & a & b & n & A & V). assert (deversify vs = Ok (Vi p (s! "JSON") (Ver a b) n)) as D by (apply deversify_ok; split; auto).
  unfold sizeify. cbn [to_map index_str bind]. unfold contains_key. rewrite A. cbn [bind to_string negb]. rewrite D. cbn [bind vi_version vi_kind vi_ident or_else]. reflexivity.
Qed.
Lemma sizes vs m kind proto n : json_kind kind -> data (VObj ((s! "v", VStr vs) :: m)) -> len (to_json (VObj ((s! "v", VStr vs) :: m))) < 2 ^ 24 ->
  version_string vs proto 1 0 n -> exists z, sizeify (VObj ((s! "v", VStr vs) :: m)) kind = Ok z.
Proof.
  intros K D L V. assert (exists z, sizeify (VObj ((s! "v", VStr vs) :: m)) None = Ok z) as (z & Z).
  { apply C84_l; auto; [|split; eauto]. eapply N.lt_trans; [exact L|reflexivity]. }
  exists z. destruct K as [-> | ->]; auto. rewrite sizeify_json; auto. exists vs, proto, 1, 0, n. cbn [assoc]. rewrite beq_refl. auto.
Qed.
Lemma insert_below {A} k k' (x y : A) m : k <> k' -> insert k x ((k', y) :: m) = (k', y) :: insert k x m.
Proof. intros N. cbn [insert]. destruct (beq k' k) eqn:E; [apply beq_eq in E; congruence|reflexivity]. Qed.
Definition ready (code label : bytes) (m : list (bytes * value)) : Prop :=
  get (s! "v") m = None \/
  exists vs proto n m', m = (s! "v", VStr vs) :: m' /\ version_string vs proto 1 0 n /\ len (to_json (VObj (insert label (dummy code) m))) < 2 ^ 24.
Lemma prepare m code kind label : data (VObj m) -> utf8 label = true -> label <> s! "v" -> json_kind kind -> ready code label m ->
  exists md kind', prepared m code kind label md kind' /\ prepared md code kind label md kind' /\ json_kind kind'.
Proof.
  intros D U LV K [V|(vs & proto & n & m' & -> & V & L)].
  - rewrite get_assoc in V. assert (contains_key (s! "v") (insert label (dummy code) m) = false) as C.
    { rewrite contains_insert. unfold contains_key. rewrite V, orb_false_r. destruct (beq label (s! "v")) eqn:E; [apply beq_eq in E; contradiction|reflexivity]. }
    exists (insert label (dummy code) m), kind. split; [left; auto|]. split; [left; rewrite insert_insert; auto|exact K].
  - pose proof (data_insert label (dummy code) _ D U (data_dummy code)) as D1. rewrite insert_below in * by auto. set (m1 := insert label (dummy code) m') in *.
    destruct (sizes vs m1 kind proto n K D1 L V) as (z & Z).
    destruct (sizeify_ked _ _ _ Z) as (vs0 & proto0 & n0 & A & V0 & L24 & KED & KI). cbn [assoc] in A. rewrite beq_refl in A. injection A as <-.
    pose proof (version_proto _ _ _ _ _ V V0) as <-. assert (In proto idents) as IP by (apply idents_or; apply V). pose proof (vtext_string proto _ IP L24) as V2.
    remember (vtext proto (as_u32 (len (to_json (VObj ((s! "v", VStr vs) :: m1)))))) as T eqn:ET. cbn [insert] in KED. rewrite beq_refl in KED.
    assert (contains_key (s! "v") (insert label (dummy code) ((s! "v", VStr vs) :: m')) = true) as C1.
    { rewrite contains_insert. unfold contains_key. cbn [assoc]. rewrite beq_refl. apply orb_true_r. }
    assert (prepared ((s! "v", VStr vs) :: m') code kind label ((s! "v", VStr T) :: m1) (Some (z_kind z))) as P.
    { right. rewrite C1. split; auto. exists z. rewrite insert_below by auto. fold m1. auto. }
    exists ((s! "v", VStr T) :: m1), (Some (z_kind z)). split; [exact P|]. split; [|rewrite KI; now right].
    apply (prepared_fix _ _ _ _ _ _ P).
    assert (exists z2, sizeify (VObj ((s! "v", VStr T) :: m1)) kind = Ok z2) as (z2 & Z2).
    { apply (sizes T m1 kind proto _ K) with (3 := V2).
      - exact (prepared_data _ _ _ _ _ _ P D U).
      - assert (insert (s! "v") (VStr T) ((s! "v", VStr vs) :: m1) = (s! "v", VStr T) :: m1) as <- by (cbn [insert]; now rewrite beq_refl).
        destruct (version_string_plain _ _ _ _ _ V) as (P1 & _). destruct (version_string_plain _ _ _ _ _ V2) as (P2 & _).
        destruct (version_string_rever _ _ _ _ _ V) as (L1 & _). destruct (version_string_rever _ _ _ _ _ V2) as (L2 & _).
        assert (assoc (s! "v") ((s! "v", VStr vs) :: m1) = Some (VStr vs)) as AV by (cbn [assoc]; now rewrite beq_refl).
        rewrite (json_len_v _ vs T AV P1 P2) by congruence. exact L. }
    assert (exists md2, z_ked z2 = VObj md2) as (md2 & Z3) by (destruct (sizeify_ked _ _ _ Z2) as (? & ? & ? & _ & _ & _ & -> & _); eauto).
    exists md2, (Some (z_kind z2)). right. rewrite insert_below by auto. unfold m1 at 1 2. rewrite insert_insert. fold m1. split; [|eauto].
    unfold contains_key. cbn [assoc]. now rewrite beq_refl.
Qed.

(*# C58_saidify_accepts
   Any data map that contains the label is given a SAID, whatever fields are ignored, provided it has no v field or begins with a v field that holds a
   version string of version 1.0 and its JSON, with the SAID in place, has fewer than 2^24 bytes.
##
Example C58_accepts_case : In (s! "d") (map fst [(s! "v", VStr (s! "KERI10JSON000000_")); (s! "d", VNull)]) /\ s! "d" <> s! "v" /\
  len (to_json (VObj (replaced (s! "d") (dummies 44) [(s! "v", VStr (s! "KERI10JSON000000_")); (s! "d", VNull)]))) = 76.
Proof. split; [right; left; reflexivity|]. split; [discriminate|]. vm_compute. reflexivity. Qed.
#*)
Lemma C58b_l (hash : bytes -> bytes -> bytes) (m : list (bytes * value)) (code label : bytes) (n : N) (kind : option bytes) (ignore : list bytes) :
  sized_hash hash -> In (code, n) digest_sizes -> data (VObj m) -> In label (map fst m) -> label <> s! "v" -> kind = None \/ kind = Some (s! "JSON") ->
  (get (s! "v") m = None \/
   exists vs proto size m', m = (s! "v", VStr vs) :: m' /\ version_string vs proto 1 0 size /\
     len (to_json (VObj (replaced label (dummies (text_width code)) m))) < 2 ^ 24) ->
  exists saider out, saidify hash (VObj m) (Some code) kind (Some label) ignore = Ok (saider, out).
Proof.
  intros SH HC D IL LV K R. assert (has_code said_codes code = true) as HC' by (apply said_code_size; eauto).
  assert (utf8 label = true) as U. { inversion D as [| | | | |? ND KK VV]; subst. rewrite Forall_forall in KK. auto. }
  assert (NoDup (map fst m)) as ND by (inversion D; auto). assert (contains_key label m = true) as CL by now apply contains_in.
  destruct (prepare m code kind label D U LV K) as (md & k' & P & P2 & K').
  { destruct R as [R|(vs & proto & size & m' & -> & V & L)]; [now left|right]. exists vs, proto, size, m'. rewrite insert_replaced by auto. auto. }
  assert (said_serialize (VObj (strip ignore md)) k' = Ok (to_json (VObj (strip ignore md)))) as S.
  { apply serialize_intro; auto. intros x. rewrite strip_eq, assoc_strip by exact (prepared_keys _ _ _ _ _ _ P ND). destruct (existsb _ _); [discriminate|].
    intros X. destruct (prepared_v _ _ _ _ _ _ P) as (_ & VS & _). destruct (VS x X) as (vs & p & nn & -> & VV). eauto 8. }
  destruct (said_built hash code (to_json (VObj (strip ignore md))) SH HC') as (M & W). destruct (wf_round _ W) as (t & b & T & _).
  rewrite (saidify_intro hash m code kind label ignore md k' _ _ _ CL HC' P P2 S M T). eauto.
Qed.

(** ** C59 *)
Lemma same_digest hash s m1 m2 pre1 pre2 ver1 ver2 kind1 kind2 label ignore : sized_hash hash -> data (VObj m1) -> data (VObj m2) -> utf8 label = true ->
  said_verify hash s (VObj m1) pre1 ver1 kind1 (Some label) ignore = Ok true -> said_verify hash s (VObj m2) pre2 ver2 kind2 (Some label) ignore = Ok true ->
  collision hash (m_code s) \/ exists md1 md2 k1 k2, prepared m1 (m_code s) kind1 label md1 k1 /\ prepared m2 (m_code s) kind2 label md2 k2 /\ strip ignore md1 = strip ignore md2 /\
    (or_else ver1 true = true -> assoc (s! "v") m1 = assoc (s! "v") md1) /\ (or_else ver2 true = true -> assoc (s! "v") m2 = assoc (s! "v") md2).
Proof.
  intros SH D1 D2 U V1 V2. destruct (verify_true _ _ _ _ _ _ _ _ V1) as (m & md1 & k1 & ser1 & s1 & q & E & HC & P1 & S1 & M1 & Q & Q1 & VV1 & _). injection E as <-.
  destruct (verify_true _ _ _ _ _ _ _ _ V2) as (m & md2 & k2 & ser2 & s2 & q2 & E & _ & P2 & S2 & M2 & Q' & Q2 & VV2 & _). injection E as <-.
  rewrite Q in Q'. injection Q' as <-. cbn [or_else] in P1, P2.
  destruct (said_built hash (m_code s) ser1 SH HC) as (B1 & W1). destruct (said_built hash (m_code s) ser2 SH HC) as (B2 & W2).
  rewrite B1 in M1. injection M1 as <-. rewrite B2 in M2. injection M2 as <-.
  destruct (wf_round _ W1) as (t1 & b1 & T1 & _ & X1 & _). destruct (wf_round _ W2) as (t2 & b2 & T2 & _ & X2 & _).
  rewrite T1 in Q1. injection Q1 as ->. rewrite T2 in Q2. injection Q2 as ->. rewrite X1 in X2. injection X2 as EH.
  apply serialize_json in S1, S2. destruct (beq ser1 ser2) eqn:B.
  - right. apply beq_eq in B. exists md1, md2, k1, k2. split; [exact P1|]. split; [exact P2|]. split.
    + pose proof (prepared_data _ _ _ _ _ _ P1 D1 U) as DD1. pose proof (prepared_data _ _ _ _ _ _ P2 D2 U) as DD2.
      assert (VObj (strip ignore md1) = VObj (strip ignore md2)) as EV; [|injection EV; auto].
      apply (C48_l _ _ []); auto using data_strip. congruence.
    + destruct (prepared_v _ _ _ _ _ _ P1) as (LV & _ & C1). destruct (prepared_v _ _ _ _ _ _ P2) as (_ & _ & C2).
      assert (beq label (s! "v") = false) as LF by (destruct (beq label (s! "v")) eqn:E; auto; apply beq_eq in E; contradiction).
      rewrite contains_insert, LF in C1, C2. cbn [orb] in C1, C2. clear -VV1 VV2 C1 C2. unfold contains_key in *.
      split; intros H.
      * destruct (assoc (s! "v") m1) eqn:E; [apply VV1; auto|]. destruct (assoc (s! "v") md1); [discriminate C1|reflexivity].
      * destruct (assoc (s! "v") m2) eqn:E; [apply VV2; auto|]. destruct (assoc (s! "v") md2); [discriminate C2|reflexivity].
  - left. exists ser1, ser2. split; [|exact EH]. intros ->. now rewrite beq_refl in B.
Qed.
Lemma assoc_prepared k m code kind label md kind' : prepared m code kind label md kind' -> k <> label -> k <> s! "v" -> assoc k md = assoc k m.
Proof.
  intros P NL NV. assert (forall k0 (x : value) m0, k <> k0 -> assoc k (insert k0 x m0) = assoc k m0) as AI.
  { intros k0 x m0 N. rewrite assoc_insert. destruct (beq k0 k) eqn:E; [apply beq_eq in E; congruence|reflexivity]. }
  destruct P as [(_ & -> & _)|(_ & z & Z & K & _)]; [now apply AI|].
  destruct (sizeify_ked _ _ _ Z) as (vs & proto & n & A & V & L & K' & _). rewrite K' in K. injection K as <-. rewrite !AI; auto.
Qed.

(*# C59_tamper_evident
   If a SAID verifies against two data maps with the version check on, then the two maps have the same fields in the same order, the label aside, or the
   digest function has a collision.
##
Example C59_case : said_verify (fun _ _ => zeros 32) (Mt (s! "E") 0 (zeros 32)) (VObj [(s! "d", VNull); (s! "a", VInt 1)]) None None None (Some (s! "d")) [] = Ok true /\
  said_verify (fun _ _ => zeros 32) (Mt (s! "E") 0 (zeros 32)) (VObj [(s! "d", VNull); (s! "a", VInt 2)]) None None None (Some (s! "d")) [] = Ok true.
Proof. split; vm_compute; reflexivity. Qed.
#*)
Lemma C59a_l (hash : bytes -> bytes -> bytes) (s : matter) (m1 m2 : list (bytes * value)) (pre1 pre2 : option bool) (kind1 kind2 : option bytes) (label : bytes) :
  sized_hash hash -> data (VObj m1) -> data (VObj m2) -> utf8 label = true ->
  said_verify hash s (VObj m1) pre1 (Some true) kind1 (Some label) [] = Ok true ->
  said_verify hash s (VObj m2) pre2 (Some true) kind2 (Some label) [] = Ok true ->
  without [label] m1 = without [label] m2 \/ collision hash (m_code s).
Proof.
  intros SH D1 D2 U V1 V2. destruct (same_digest _ _ _ _ _ _ _ _ _ _ _ _ SH D1 D2 U V1 V2) as [C|(md1 & md2 & k1 & k2 & P1 & P2 & E & A1 & A2)]; auto. left.
  cbn [strip fold_left] in E. subst md2. cbn [or_else] in A1, A2. specialize (A1 eq_refl). specialize (A2 eq_refl). rewrite !without_eq.
  assert (forall m kind k, prepared m (m_code s) kind label md1 k -> assoc (s! "v") m = assoc (s! "v") md1 -> md1 = insert label (dummy (m_code s)) m) as G.
  { clear. intros m kind k P A. destruct (prepared_v _ _ _ _ _ _ P) as (LV & _ & _). destruct P as [(_ & -> & _)|(_ & z & Z & K & _)]; auto.
    destruct (sizeify_ked _ _ _ Z) as (vs & proto & n & AA & V & L & K' & _). rewrite K' in K. injection K as <-.
    rewrite assoc_insert in AA. destruct (beq label (s! "v")) eqn:E; [apply beq_eq in E; contradiction|]. rewrite assoc_insert, beq_refl, AA in A. injection A as A.
    apply insert_same. rewrite assoc_insert, E, AA. rewrite A at 1. reflexivity. }
  pose proof (without_insert label (dummy (m_code s)) m1) as W1. pose proof (without_insert label (dummy (m_code s)) m2) as W2.
  rewrite <- (G _ _ _ P1 A1) in W1. rewrite <- (G _ _ _ P2 A2) in W2. transitivity (without' [label] md1); auto.
Qed.

(*# C59_tamper_evident_ignoring
   The same with any ignore list and with the version check on or off: the maps agree on every field other than the label and the ignored ones, and other
   than v where the version check was off.
#*)
Lemma C59b_l (hash : bytes -> bytes -> bytes) (s : matter) (m1 m2 : list (bytes * value)) (pre1 pre2 ver1 ver2 : option bool) (kind1 kind2 : option bytes) (label : bytes)
    (ignore : list bytes) :
  sized_hash hash -> data (VObj m1) -> data (VObj m2) -> utf8 label = true ->
  said_verify hash s (VObj m1) pre1 ver1 kind1 (Some label) ignore = Ok true ->
  said_verify hash s (VObj m2) pre2 ver2 kind2 (Some label) ignore = Ok true ->
  (forall k, k <> label -> ~ In k ignore -> k <> s! "v" \/ ver1 <> Some false /\ ver2 <> Some false -> get k m1 = get k m2) \/
  collision hash (m_code s).
Proof.
  intros SH D1 D2 U V1 V2. destruct (same_digest _ _ _ _ _ _ _ _ _ _ _ _ SH D1 D2 U V1 V2) as [C|(md1 & md2 & k1 & k2 & P1 & P2 & E & A1 & A2)]; auto. left.
  intros k NL NI NV. rewrite !get_assoc. assert (assoc k md1 = assoc k md2) as EQ.
  { assert (forall m code kind k0 md, data (VObj m) -> prepared m code kind label md k0 -> assoc k (strip ignore md) = assoc k md) as G.
    { clear -NI U. intros m code kind k0 md D P. rewrite strip_eq, assoc_strip; [|apply (prepared_keys _ _ _ _ _ _ P); now inversion D].
      destruct (existsb (beq k) ignore) eqn:X; auto. apply in_existsb in X. contradiction. }
    rewrite <- (G _ _ _ _ _ D1 P1), <- (G _ _ _ _ _ D2 P2), E. reflexivity. }
  destruct (beq k (s! "v")) eqn:B.
  - apply beq_eq in B. subst k. destruct NV as [?|(N1 & N2)]; [contradiction|].
    rewrite A1, A2; auto; [destruct ver2 as [[|]|]; auto; contradiction|destruct ver1 as [[|]|]; auto; contradiction].
  - assert (k <> s! "v") as NV2 by (intros ->; now rewrite beq_refl in B). rewrite <- (assoc_prepared k _ _ _ _ _ _ P1 NL NV2), <- (assoc_prepared k _ _ _ _ _ _ P2 NL NV2). exact EQ.
Qed.

(*# C60_label_content_irrelevant
   saidify gives the same SAID and the same data whatever the label field held.
##
Example C60_case : replaced (s! "d") (VStr (s! "x")) [(s! "d", VNull); (s! "a", VInt 1)] = [(s! "d", VStr (s! "x")); (s! "a", VInt 1)].
Proof. reflexivity. Qed.
#*)
Lemma C60a_l (hash : bytes -> bytes -> bytes) (m : list (bytes * value)) (x : value) (code kind : option bytes) (label : bytes) (ignore : list bytes) :
  NoDup (map fst m) -> In label (map fst m) ->
  saidify hash (VObj (replaced label x m)) code kind (Some label) ignore = saidify hash (VObj m) code kind (Some label) ignore.
Proof.
  intros ND I. unfold replaced. rewrite <- insert_replaced by auto. unfold saidify. cbn [or_else to_map]. rewrite !bind_Ok. rewrite contains_insert, beq_refl.
  apply contains_in in I. rewrite I. cbn [orb negb]. rewrite derive_label. reflexivity.
Qed.
(*# C60_saidify_idempotent
   saidify applied to its own output returns the same SAID and the same data.
#*)
Lemma C60b_l (hash : bytes -> bytes -> bytes) (sad out : value) (code kind label : option bytes) (ignore : list bytes) (saider : matter) :
  saidify hash sad code kind label ignore = Ok (saider, out) -> saidify hash out code kind label ignore = Ok (saider, out).
Proof.
  intros H. change (saidify hash sad code kind label ignore) with (saidify hash sad (Some (or_else code (s! "E"))) kind (Some (or_else label (s! "d"))) ignore) in H.
  change (saidify hash out code kind label ignore) with (saidify hash out (Some (or_else code (s! "E"))) kind (Some (or_else label (s! "d"))) ignore).
  set (l := or_else label (s! "d")) in *. set (c := or_else code (s! "E")) in *. destruct (saidify_ok _ _ _ _ _ _ _ _ H) as (m & md & k' & ser & q & -> & CL & HC & P & S & D & M & C & Q & ->).
  destruct (derive_ok _ _ _ _ _ _ _ _ D) as (_ & md0 & md1 & k2 & ser2 & E & E1 & P2 & S2 & _). injection E as <-. injection E1 as <-.
  destruct (prepared_again _ _ _ _ _ _ _ _ P P2) as (_ & ->).
  assert (contains_key l md = true) as CL2 by (unfold contains_key; now rewrite (prepared_label _ _ _ _ _ _ P)).
  rewrite <- (saidify_intro hash md c kind l ignore md k' ser saider q CL2 HC P2 P2 S M Q). clear H.
  unfold saidify. cbn [or_else to_map]. rewrite !bind_Ok. rewrite contains_insert, beq_refl, CL2. cbn [orb negb]. rewrite derive_label. reflexivity.
Qed.

(*# C61_verify_panics_refuted
   False as stated: verifying against data that are not a map panics, and so does verifying with the prefix check on against a map without the label.
#*)
Lemma C61_no_l : (forall hash s, m_code s = s! "E" -> said_verify hash s VNull None None None None [] = Panic) /\
  exists hash s m, sized_hash hash /\ built s /\ data (VObj m) /\ said_verify hash s (VObj m) (Some true) None None None [] = Panic.
Proof.
  split.
  - intros hash s E. unfold said_verify. rewrite E. reflexivity.
  - exists (fun c _ => zeros (if len c =? 1 then 32 else 64)), (Mt (s! "E") 0 (zeros 32)), []. split; [|split; [|split]].
    + intros c n ser H. cbn [digest_sizes In] in H. repeat (destruct H as [H|H]; [injection H as <- <-; reflexivity|]). destruct H.
    + exists (s! "E"), (zeros 32). split; [cbn; tauto|]. vm_compute. reflexivity.
    + apply data_obj; constructor.
    + vm_compute. reflexivity.
Qed.

(*# C61_verify_total_partial
   Verifying a primitive against any map never panics if the map contains the label or the prefix check is off. The full statement fails: see
   C61_verify_panics_refuted.
##
Example C61_case : built (Mt (s! "E") 0 (zeros 32)).
Proof. exists (s! "E"), (zeros 32). split; [cbn; tauto|]. vm_compute. reflexivity. Qed.
#*)
Lemma C61_l (hash : bytes -> bytes -> bytes) (s : matter) (m : list (bytes * value)) (pre ver : option bool) (kind : option bytes) (label : bytes) (ignore : list bytes) :
  built s -> (pre = Some true -> In label (map fst m)) -> said_verify hash s (VObj m) pre ver kind (Some label) ignore <> Panic.
Proof.
  intros B L. apply built_wf in B. destruct (wf_round _ B) as (q & _ & Q & _). unfold said_verify. cbn [or_else].
  destruct (said_derive hash (VObj m) (Some (m_code s)) kind (Some label) ignore) as [(raw & dsad)|e|] eqn:D; [|discriminate|].
  - destruct (derive_ok _ _ _ _ _ _ _ _ D) as (HC & m' & md & k' & ser & E & -> & P & S & ->). injection E as <-.
    unfold said_new, validate. rewrite HC, !bind_Ok. cbn [fst snd matter_new].
    pose proof HC as HC2. apply said_code_size in HC2 as (n & HC2). apply said_code_fixed in HC2. apply fixed_known in HC2 as (z & Hz & Ev & _).
    destruct (matter_of_code_raw (m_code s) (hash (m_code s) ser)) as [s'|e|] eqn:M; [|discriminate|rewrite (construct_fixed _ z _ Hz Ev) in M; destruct (_ <? _); discriminate].
    pose proof (construct_wf' _ _ _ _ Hz M) as W'. destruct (wf_round _ W') as (q' & _ & Q' & _). rewrite Q, Q', !bind_Ok. destruct (beq q q'); [|discriminate]. cbn [negb].
    destruct (prepared_v _ _ _ _ _ _ P) as (LV & VS & CV). apply bind_np'.
    + destruct (or_else ver true); [|discriminate]. cbn [to_map bind]. destruct (contains_key (s! "v") m) eqn:C; [|discriminate].
      rewrite contains_insert, C, orb_true_r in CV. unfold contains_key in *. cbn [index_str].
      destruct (assoc (s! "v") m); [|discriminate]. destruct (assoc (s! "v") md); [|discriminate]. cbn [bind].
      apply bind_np'; [apply to_string_np|]. intros ? _. apply bind_np'; [apply to_string_np|]. discriminate.
    + intros df _. destruct df; [discriminate|]. apply bind_np'; [|discriminate]. destruct (or_else pre false) eqn:PR; [|discriminate].
      assert (pre = Some true) as PT by (destruct pre as [[|]|]; auto; discriminate). apply L in PT. apply contains_in in PT. unfold contains_key in PT. cbn [index_str].
      destruct (assoc label m); [|discriminate]. cbn [bind]. apply bind_np'; [apply to_string_np|]. discriminate.
  - exfalso. revert D. unfold said_derive. cbn [or_else]. apply bind_np'; [apply validate_np|]. intros _ _. apply bind_np'; [apply sizage_of_np|]. intros z _.
    apply bind_np'; [apply from_utf8_np|]. intros d _. cbn [set_str to_map bind]. apply bind_np'.
    + destruct (contains_key _ _); [|discriminate]. apply bind_np'; [apply sizeify_np|]. discriminate.
    + intros (k2 & s2) _. apply bind_np'; [destruct s2; discriminate|]. intros map _. apply bind_np'.
      * unfold said_serialize. cbn [to_map bind]. apply bind_np'; [|intros; apply dumps_np]. unfold contains_key. cbn [index_str].
        destruct (assoc (s! "v") _); [|discriminate]. cbn [bind]. apply bind_np'; [apply to_string_np|]. intros. apply bind_np'; [apply deversify_np|]. discriminate.
      * intros ser _. unfold digest. destruct (has_code hash_codes _); discriminate.
Qed.

(*# C61_verify_panics_exactly
   These are the only panics: data that are not a map, for a primitive with a digest code; or the prefix check on against a map without the label, which
   would verify if the check were off.
##
Example C61_exactly_case : exists s : matter, built s /\ In (m_code s) (map fst digest_sizes) /\
  said_verify (fun _ _ => zeros 32) s (VObj []) (Some false) None None (Some (s! "d")) [] = Ok true /\
  said_verify (fun _ _ => zeros 32) s (VObj []) (Some true) None None (Some (s! "d")) [] = Panic.
Proof.
  exists (Mt (s! "E") 0 (zeros 32)). split; [exists (s! "E"), (zeros 32); split; [cbn; tauto|]; vm_compute; reflexivity|]. split; [cbn; tauto|]. split; vm_compute; reflexivity.
Qed.
#*)
Lemma C61_exact_l (hash : bytes -> bytes -> bytes) (s : matter) (sad : value) (pre ver : option bool) (kind : option bytes) (label : bytes) (ignore : list bytes) :
  built s ->
  (said_verify hash s sad pre ver kind (Some label) ignore = Panic <->
   In (m_code s) (map fst digest_sizes) /\ (forall m, sad <> VObj m) \/
   exists m, sad = VObj m /\ pre = Some true /\ ~ In label (map fst m) /\ said_verify hash s sad (Some false) ver kind (Some label) ignore = Ok true).
Proof.
  intros B. assert ((exists m, sad = VObj m) \/ forall m, sad <> VObj m) as [(m & ->)|NM] by (destruct sad; eauto; right; discriminate).
  - split.
    + intros H. right. exists m. split; auto.
      assert (pre = Some true) as -> by (destruct pre as [[|]|]; auto; exfalso; eapply C61_l; try eassumption; discriminate).
      destruct (contains_key label m) eqn:C. { exfalso. eapply C61_l; try eassumption. intros _. now apply contains_in. }
      split; auto. split. { intros I. apply contains_in in I. congruence. }
      assert (said_verify hash s (VObj m) (Some false) ver kind (Some label) ignore <> Panic) as NP by (apply C61_l; auto; discriminate).
      unfold said_verify in *. cbn [or_else] in *. destruct (said_derive _ _ _ _ _ _) as [(raw & ds)|e|]; [|discriminate|contradiction].
      destruct (said_new _ _ _ _ _ _ _ _ _ _) as [s'|e|]; [|discriminate|contradiction].
      destruct (infil s) as [a|e|]; [|discriminate|contradiction]. cbn [bind] in *. destruct (infil s') as [b|e|]; [|discriminate|contradiction]. cbn [bind] in *.
      destruct (negb (beq a b)); [discriminate|]. match goal with |- bind ?e _ = _ => destruct e as [d|e'|] eqn:EE end; [|discriminate|contradiction].
      cbn [bind] in *. destruct d; [discriminate|]. reflexivity.
    + intros [(_ & N)|(m' & E & -> & N & V)]; [now destruct (N m)|]. injection E as <-.
      unfold said_verify in *. cbn [or_else] in *. destruct (said_derive _ _ _ _ _ _) as [(raw & ds)|e|]; try discriminate.
      destruct (said_new _ _ _ _ _ _ _ _ _ _) as [s'|e|]; try discriminate.
      destruct (infil s) as [a|e|]; try discriminate. cbn [bind] in *. destruct (infil s') as [b|e|]; try discriminate. cbn [bind] in *.
      destruct (negb (beq a b)); [discriminate|]. match goal with |- bind ?e _ = _ => destruct e as [d|e'|] eqn:EE end; try discriminate.
      cbn [bind] in *. destruct d; [discriminate|]. cbn [index_str]. destruct (assoc label m) eqn:A; [|reflexivity].
      exfalso. apply N, contains_in. unfold contains_key. now rewrite A.
  - split.
    + intros H. left. split; auto. unfold said_verify, said_derive in H. cbn [or_else] in H.
      destruct (validate said_codes (m_code s)) eqn:V; [|discriminate|now destruct (validate_np said_codes (m_code s))].
      unfold validate in V. destruct (has_code said_codes (m_code s)) eqn:HC; [|discriminate]. apply said_code_size in HC as (n & HC). apply in_map_iff. exists (m_code s, n). auto.
    + intros [(I & _)|(m & E & _)]; [|now destruct (NM m)]. unfold said_verify, said_derive. cbn [or_else].
      apply in_map_iff in I as ((c & n) & E & HC). cbn [fst] in E. subst c.
      assert (has_code said_codes (m_code s) = true) as HC' by (apply said_code_size; eauto).
      unfold validate. rewrite HC'. cbn [bind]. apply said_code_fixed in HC. apply fixed_known in HC as (z & Hz & _). rewrite (proj2 (sizage_of_ok _ z) Hz). cbn [bind].
      assert (exists d, from_utf8 (repeat x23 (N.to_nat (fs z))) = Ok d) as (d & ->).
      { eexists. unfold from_utf8. rewrite utf8_ascii; [reflexivity|]. unfold ascii. apply forallb_forall. intros x Hx. apply repeat_spec in Hx. now subst. }
      cbn [bind]. destruct sad; try reflexivity. now destruct (NM l).
Qed.

Definition pretend (code ser : bytes) : bytes := take (if len code =? 1 then 32 else 64) (ser ++ zeros 64).
Lemma pretend_sized : sized_hash pretend.
Proof.
  intros c n ser H. unfold pretend. rewrite len_take, len_app. change (len (zeros 64)) with 64.
  assert (n = if len c =? 1 then 32 else 64) as ->; [|destruct (_ =? 1); lia].
  cbn [digest_sizes In] in H. repeat (destruct H as [H|H]; [injection H as <- <-; reflexivity|]). destruct H.
Qed.
(*# C83_ignored_fields_refuted
   False as stated: a field that follows an ignored one may be moved. Ignoring the first of four fields, the digest is taken over the last field, then
   the second and the third.
#*)
Lemma C83_no_l : exists hash s o, sized_hash hash /\
  saidify hash (VObj [(s! "a", VNull); (s! "b", VNull); (s! "c", VNull); (s! "d", VNull)]) None None None [s! "a"] = Ok (s, VObj o) /\
  m_raw s = hash (s! "E") (to_json (VObj [(s! "d", dummies 44); (s! "b", VNull); (s! "c", VNull)])) /\
  m_raw s <> hash (s! "E") (to_json (VObj (without [s! "a"] (replaced (s! "d") (dummies 44) o)))).
Proof.
  destruct (saidify pretend (VObj [(s! "a", VNull); (s! "b", VNull); (s! "c", VNull); (s! "d", VNull)]) None None None [s! "a"]) as [(s & o)|e|] eqn:E.
  - vm_compute in E. injection E as <- <-. exists pretend. eexists. eexists. split; [exact pretend_sized|]. split; [vm_compute; reflexivity|]. split; [vm_compute; reflexivity|].
    vm_compute. discriminate.
  - vm_compute in E. discriminate.
  - vm_compute in E. discriminate.
Qed.

(*# C83_ignored_fields_partial
   When the ignored fields are the last ones of the data, the SAID is the digest of the JSON of the returned data, the SAID replaced by as many hash
   signs, without the ignored fields. The full statement, for ignored fields anywhere, fails: see C83_ignored_fields_refuted.
##
Example C83_case : exists s o, saidify (fun _ _ => zeros 32) (VObj [(s! "b", VNull); (s! "d", VNull); (s! "x", VInt 1)]) None None (Some (s! "d")) [s! "x"] = Ok (s, VObj ([(s! "b", VNull); (s! "d", o)] ++ [(s! "x", VInt 1)])).
Proof. eexists. eexists. vm_compute. reflexivity. Qed.
#*)
Lemma C83_l (hash : bytes -> bytes -> bytes) (m keep last : list (bytes * value)) (code label : bytes) (kind : option bytes) (ignore : list bytes) (s : matter) :
  sized_hash hash -> NoDup (map fst m) ->
  saidify hash (VObj m) (Some code) kind (Some label) ignore = Ok (s, VObj (keep ++ last)) ->
  (forall k, In k (map fst keep) -> ~ In k ignore) -> (forall k, In k (map fst last) -> In k ignore) ->
  m_raw s = hash code (to_json (VObj (without ignore (replaced label (dummies (text_width code)) (keep ++ last))))).
Proof.
  intros SH ND H KI LI. destruct (saidify_ok _ _ _ _ _ _ _ _ H) as (m0 & md & k' & ser & q & E & CL & HC & P & S & D & M & C & Q & O). injection E as <-. injection O as O.
  destruct (said_built hash code ser SH HC) as (B & _). rewrite B in M. injection M as <-. cbn [m_raw]. apply serialize_json in S. subst ser. f_equal. f_equal. f_equal.
  pose proof (prepared_keys _ _ _ _ _ _ P ND) as NDd. pose proof (prepared_label _ _ _ _ _ _ P) as PL.
  assert (replaced label (dummies (text_width code)) (keep ++ last) = md) as R.
  { rewrite O. unfold replaced. rewrite <- insert_replaced.
    - rewrite insert_insert. now apply insert_same.
    - now apply insert_NoDup.
    - apply contains_in. rewrite contains_insert, beq_refl. reflexivity. }
  rewrite R. rewrite strip_eq, without_eq. set (f := fun kv : bytes * value => if beq (fst kv) label then (fst kv, dummies (text_width code)) else kv) in *.
  assert (forall l, map fst (map f l) = map fst l) as MF.
  { intros l. rewrite map_map. apply map_ext. intros (a & x). unfold f. cbn [fst]. destruct (beq a label); reflexivity. }
  rewrite <- R. unfold replaced. fold f. rewrite map_app. apply strip_trailing.
  - rewrite <- map_app, MF. rewrite O. now apply insert_NoDup.
  - intros k I J. rewrite MF in J. exact (KI k J I).
  - intros k. rewrite MF. apply LI.
Qed.

Lemma swap_remove_split (k : bytes) (a : list (bytes * value)) v r : ~ In k (map fst a) ->
  swap_remove k (a ++ (k, v) :: r) = a ++ match r with [] => [] | x :: _ => last r x :: removelast r end.
Proof. intros N. rewrite swap_remove_app by auto. cbn [swap_remove]. now rewrite beq_refl. Qed.
Lemma taken_iff k m m' : taken k m m' <-> m' = if contains_key k m then swap_remove k m else m.
Proof.
  split.
  - intros H. destruct H as [m N|a v N|a v b x N].
    + destruct (contains_key k m) eqn:C; auto. apply contains_in in C. contradiction.
    + replace (contains_key k (a ++ [(k, v)])) with true. { rewrite swap_remove_split by auto. now rewrite app_nil_r. }
      symmetry. apply contains_in. rewrite map_app, in_app_iff. cbn. auto.
    + replace (contains_key k (a ++ (k, v) :: b ++ [x])) with true.
      * rewrite swap_remove_split by auto. f_equal. destruct (b ++ [x]) as [|y r] eqn:E; [now destruct b|]. rewrite <- E, last_last, removelast_last. reflexivity.
      * symmetry. apply contains_in. rewrite map_app, in_app_iff. cbn. auto.
  - intros ->. destruct (contains_key k m) eqn:C; [|apply taken_absent; intros I; apply contains_in in I; congruence]. apply contains_in in C.
    assert (exists a v r, m = a ++ (k, v) :: r /\ ~ In k (map fst a)) as (a & v & r & -> & N).
    { clear - C. induction m as [|(k' & w) m IH]; [destruct C|]. destruct (beq k' k) eqn:E.
      - apply beq_eq in E. subst k'. exists [], w, m. split; auto.
      - assert (k' <> k) as NE by (intros ->; rewrite beq_refl in E; discriminate). cbn [map fst In] in C. destruct C as [C|C]; [contradiction|].
        destruct (IH C) as (a & v & r & -> & N). exists ((k', w) :: a), v, r. split; auto. cbn. intros [I|I]; auto. }
    rewrite swap_remove_split by auto. destruct r as [|y r]; [rewrite app_nil_r; now apply taken_last|].
    destruct (exists_last (l := y :: r)) as (b & x & E); [discriminate|]. rewrite E, last_last, removelast_last. now apply taken_inner.
Qed.
Lemma all_taken_iff ks m m' : all_taken ks m m' <-> m' = strip ks m.
Proof.
  revert m. unfold strip. induction ks as [|k ks IH]; intros m; cbn [fold_left].
  - split; [now inversion 1|intros ->; constructor].
  - split.
    + intros H. inversion H as [|? ? ? m1 ? T A]; subst. apply taken_iff in T. subst m1. now apply IH.
    + intros ->. econstructor; [now apply taken_iff|]. now apply IH.
Qed.
(*# C83_ignored_fields_exactly
   What the digest is taken over, for any ignore list: the returned data with the SAID replaced by as many hash signs, and the ignored fields taken out one
   after the other in the order of the list, each time moving the last field left to the place that falls free.
##
Example C83_exactly_case : all_taken [s! "a"; s! "x"; s! "d"] [(s! "a", VNull); (s! "b", VNull); (s! "c", VNull); (s! "d", VNull)] [(s! "c", VNull); (s! "b", VNull)].
Proof.
  eapply taken_next; [apply (taken_inner (s! "a") [] VNull [(s! "b", VNull); (s! "c", VNull)] (s! "d", VNull)); cbn; tauto|]. cbn [app].
  eapply taken_next; [apply taken_absent; cbn; intuition discriminate|].
  eapply taken_next; [apply (taken_inner (s! "d") [] VNull [(s! "b", VNull)] (s! "c", VNull)); cbn; tauto|]. apply taken_none.
Qed.
#*)
Lemma C83_exact_l (hash : bytes -> bytes -> bytes) (m o : list (bytes * value)) (code label : bytes) (kind : option bytes) (ignore : list bytes) (s : matter) :
  sized_hash hash -> NoDup (map fst m) -> saidify hash (VObj m) (Some code) kind (Some label) ignore = Ok (s, VObj o) ->
  exists rest, all_taken ignore (replaced label (dummies (text_width code)) o) rest /\ m_raw s = hash code (to_json (VObj rest)).
Proof.
  intros SH ND H. destruct (saidify_ok _ _ _ _ _ _ _ _ H) as (m0 & md & k' & ser & q & E & CL & HC & P & S & D & M & C & Q & O). injection E as <-. injection O as O.
  destruct (said_built hash code ser SH HC) as (B & _). rewrite B in M. injection M as <-. cbn [m_raw]. apply serialize_json in S. subst ser.
  pose proof (prepared_keys _ _ _ _ _ _ P ND) as NDd. pose proof (prepared_label _ _ _ _ _ _ P) as PL.
  assert (replaced label (dummies (text_width code)) o = md) as R.
  { rewrite O. unfold replaced. rewrite <- insert_replaced.
    - rewrite insert_insert. now apply insert_same.
    - now apply insert_NoDup.
    - apply contains_in. rewrite contains_insert, beq_refl. reflexivity. }
  rewrite R. eexists. split; [apply all_taken_iff; reflexivity|]. reflexivity.
Qed.

(*# C85_verified_digest
   A SAID that verifies against data, without an ignore list and with the version check on, is the digest of the JSON of these data with the label field
   replaced by as many hash signs as the SAID has characters; if the prefix check is on too, the label field holds the SAID.
#*)
Lemma C85a_l (hash : bytes -> bytes -> bytes) (s : matter) (m : list (bytes * value)) (pre : option bool) (kind : option bytes) (label : bytes) :
  sized_hash hash -> built s -> NoDup (map fst m) -> In label (map fst m) ->
  said_verify hash s (VObj m) pre (Some true) kind (Some label) [] = Ok true ->
  m_raw s = hash (m_code s) (to_json (VObj (replaced label (dummies (text_width (m_code s))) m))) /\
  (pre = Some true -> exists t, infil s = Ok t /\ get label m = Some (VStr t)).
Proof.
  intros SH B ND I V. destruct (verify_true _ _ _ _ _ _ _ _ V) as (m0 & md & k & ser & s1 & q & E & HC & P & S & M & Q & Q1 & VV & LL). injection E as <-. cbn [or_else] in *.
  apply built_wf in B. destruct (wf_round _ B) as (t & bb & T & _ & X & _). destruct (said_built hash (m_code s) ser SH HC) as (B1 & W1). rewrite B1 in M. injection M as <-.
  destruct (wf_round _ W1) as (t1 & b1 & T1 & _ & X1 & _). rewrite T1 in Q1. injection Q1 as ->. rewrite T in Q. injection Q as ->. rewrite X in X1. injection X1 as ES.
  split; [|intros ->; exists q; rewrite get_assoc; auto]. rewrite ES at 1. cbn [m_raw]. apply serialize_json in S. subst ser. f_equal. f_equal. f_equal. cbn [strip fold_left].
  unfold replaced. rewrite <- insert_replaced by auto. change (dummies (text_width (m_code s))) with (dummy (m_code s)).
  destruct (prepared_v _ _ _ _ _ _ P) as (LV & _ & CV). destruct P as [(_ & -> & _)|(C & z & Z & K & _)]; auto.
  destruct (sizeify_ked _ _ _ Z) as (vs & proto & n & AA & VS & L & K' & _). rewrite K' in K. injection K as <-.
  rewrite assoc_insert in AA. destruct (beq label (s! "v")) eqn:E; [apply beq_eq in E; contradiction|].
  assert (contains_key (s! "v") m = true) as CM by (unfold contains_key; now rewrite AA). specialize (VV eq_refl CM). rewrite assoc_insert, beq_refl, AA in VV. injection VV as VV.
  apply insert_same. rewrite assoc_insert, E, AA. rewrite VV at 1. reflexivity.
Qed.
(*# C85_verified_digest_ignoring
   The same with an ignore list: the SAID is the digest of the JSON of the data with the label field replaced by hash signs and the ignored fields taken
   out, each time moving the last field left to the place that falls free.
##
Example C85_ignoring_case : said_verify (fun _ _ => zeros 32) (Mt (s! "E") 0 (zeros 32)) (VObj [(s! "d", VNull); (s! "x", VNull)]) None (Some true) None (Some (s! "d")) [s! "x"] = Ok true.
Proof. vm_compute. reflexivity. Qed.
#*)
Lemma C85_ignore_l (hash : bytes -> bytes -> bytes) (s : matter) (m : list (bytes * value)) (pre : option bool) (kind : option bytes) (label : bytes) (ignore : list bytes) :
  sized_hash hash -> built s -> NoDup (map fst m) -> In label (map fst m) ->
  said_verify hash s (VObj m) pre (Some true) kind (Some label) ignore = Ok true ->
  (exists rest, all_taken ignore (replaced label (dummies (text_width (m_code s))) m) rest /\ m_raw s = hash (m_code s) (to_json (VObj rest))) /\
  (pre = Some true -> exists t, infil s = Ok t /\ get label m = Some (VStr t)).
Proof.
  intros SH B ND I V. destruct (verify_true _ _ _ _ _ _ _ _ V) as (m0 & md & k & ser & s1 & q & E & HC & P & S & M & Q & Q1 & VV & LL). injection E as <-. cbn [or_else] in *.
  apply built_wf in B. destruct (wf_round _ B) as (t & bb & T & _ & X & _). destruct (said_built hash (m_code s) ser SH HC) as (B1 & W1). rewrite B1 in M. injection M as <-.
  destruct (wf_round _ W1) as (t1 & b1 & T1 & _ & X1 & _). rewrite T1 in Q1. injection Q1 as ->. rewrite T in Q. injection Q as ->. rewrite X in X1. injection X1 as ES.
  split; [|intros ->; exists q; rewrite get_assoc; auto]. eexists. split; [apply all_taken_iff; reflexivity|]. rewrite ES at 1. cbn [m_raw]. apply serialize_json in S. subst ser. f_equal. f_equal. f_equal. f_equal.
  unfold replaced. rewrite <- insert_replaced by auto. change (dummies (text_width (m_code s))) with (dummy (m_code s)).
  destruct (prepared_v _ _ _ _ _ _ P) as (LV & _ & CV). destruct P as [(_ & -> & _)|(C & z & Z & K & _)]; auto.
  destruct (sizeify_ked _ _ _ Z) as (vs & proto & n & AA & VS & L & K' & _). rewrite K' in K. injection K as <-.
  rewrite assoc_insert in AA. destruct (beq label (s! "v")) eqn:E; [apply beq_eq in E; contradiction|].
  assert (contains_key (s! "v") m = true) as CM by (unfold contains_key; now rewrite AA). specialize (VV eq_refl CM). rewrite assoc_insert, beq_refl, AA in VV. injection VV as VV.
  apply insert_same. rewrite assoc_insert, E, AA. rewrite VV at 1. reflexivity.
Qed.

(*# C85_verified_exactly
   For data without a v field the converse holds as well: with the prefix check on, verification answers true exactly when the label field holds the SAID
   and the SAID is that digest.
##
Example C85_case : built (Mt (s! "E") 0 (zeros 32)) /\ get (s! "v") [(s! "d", VNull)] = None /\ NoDup (map fst [(s! "d", VNull)]).
Proof. split; [exists (s! "E"), (zeros 32); split; [cbn; tauto|vm_compute; reflexivity]|]. split; [reflexivity|repeat constructor; cbn; tauto]. Qed.
#*)
Lemma C85b_l (hash : bytes -> bytes -> bytes) (s : matter) (m : list (bytes * value)) (label : bytes) :
  sized_hash hash -> built s -> In (m_code s) (map fst digest_sizes) -> NoDup (map fst m) -> In label (map fst m) -> label <> s! "v" -> get (s! "v") m = None ->
  (said_verify hash s (VObj m) (Some true) (Some true) None (Some label) [] = Ok true <->
   m_raw s = hash (m_code s) (to_json (VObj (replaced label (dummies (text_width (m_code s))) m))) /\ exists t, infil s = Ok t /\ get label m = Some (VStr t)).
Proof.
  intros SH B HC ND I LV GV. split; [intros V; destruct (C85a_l _ _ _ _ _ _ SH B ND I V); auto|]. intros (R & t & T & G). rewrite get_assoc in G, GV.
  assert (has_code said_codes (m_code s) = true) as HC'. { apply in_map_iff in HC as ((c & n) & E & HC). cbn [fst] in E. subst c. apply said_code_size. eauto. }
  assert (contains_key (s! "v") m = false) as CV by (unfold contains_key; now rewrite GV).
  assert (contains_key (s! "v") (insert label (dummy (m_code s)) m) = false) as CV'.
  { rewrite contains_insert, CV, orb_false_r. destruct (beq label (s! "v")) eqn:E; [apply beq_eq in E; contradiction|reflexivity]. }
  unfold replaced in R. rewrite <- insert_replaced in R by auto. change (dummies (text_width (m_code s))) with (dummy (m_code s)) in R.
  set (md := insert label (dummy (m_code s)) m) in *. destruct (said_built hash (m_code s) (to_json (VObj md)) SH HC') as (B1 & W1).
  eapply verify_intro with (md := md) (kind' := None) (ser := to_json (VObj md)) (s' := Mt (m_code s) 0 (hash (m_code s) (to_json (VObj md)))) (q := t); cbn [or_else]; auto.
  - left. auto.
  - cbn [strip fold_left]. apply serialize_intro; [now left|]. intros x X. unfold contains_key in CV'. rewrite X in CV'. discriminate.
  - rewrite <- T. f_equal. apply built_wf in B. pose proof HC' as HC2. apply said_code_size in HC2 as (n & HC2). apply said_code_fixed in HC2. apply fixed_known in HC2 as (z & Hz & Ev & _).
    destruct s as [c sz r]. cbn [m_code m_raw] in *. subst r. f_equal. destruct B as (z' & Hz' & W). cbn [m_code] in Hz'. rewrite Hz in Hz'. injection Hz' as <-.
    unfold raw_len_ok in W. rewrite Ev in W. cbn [m_size] in W. symmetry. apply W.
  - intros _ C. congruence.
Qed.

(*# C86_digest_codes_agree
   One list of digest codes: a primitive is reported digestive, can be built as a SAID and has a digest function exactly when its code is one of the nine
   digest codes.
##
Example C86_case : digestive (Mt (s! "0G") 0 []) = true /\ digestive (Mt (s! "B") 0 []) = false.
Proof. split; reflexivity. Qed.
#*)
Lemma C86_l (hash : bytes -> bytes -> bytes) (m : matter) : built m ->
  let code := m_code m in let listed := In code (map fst digest_sizes) in
  (digestive m = true <-> listed) /\
  ((exists s, said_new hash None None None [] (Some code) (Some (m_raw m)) None None None = Ok s) <-> listed) /\
  (forall ser, is_ok (digest hash code ser) = true <-> listed).
Proof.
  intros B code listed. assert (forall l, (forall c, In c l <-> In c (map fst digest_sizes)) -> has_code l code = true <-> listed) as G.
  { intros l H. rewrite has_code_in. apply H. }
  assert (has_code said_codes code = true <-> listed) as GS by (apply G; intros c; cbn; tauto).
  split; [|split].
  - apply (G digest_codes). intros c. cbn. tauto.
  - unfold said_new, validate. rewrite <- GS. destruct (has_code said_codes code) eqn:HC; cbn [bind]; [|split; [intros (x & X); discriminate|discriminate]].
    split; auto. intros _. cbn [fst snd matter_new]. pose proof HC as HC2. apply said_code_size in HC2 as (n & HC2). pose proof (said_code_fixed _ _ HC2) as HF.
    apply fixed_known in HF as (z & Hz & Ev & _). apply built_wf in B. rewrite (construct_fixed _ z _ Hz Ev). destruct B as (z' & Hz' & W). fold code in Hz'. rewrite Hz in Hz'. injection Hz' as <-. unfold raw_len_ok in W. rewrite Ev in W. destruct W as (_ & W).
    destruct (_ <? _) eqn:E; [apply N.ltb_lt in E; lia|eauto].
  - intros ser. unfold digest. rewrite <- (G hash_codes) by (intros c; cbn; tauto). destruct (has_code hash_codes code); cbn; split; auto; discriminate.
Qed.
