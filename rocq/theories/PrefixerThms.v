(** Proofs of the properties of identifier prefixes. *)
From Coq Require Import String.
From Coq Require Import NArith ZArith Lia Bool List.
From Verif Require Import Base BaseFacts B64 B64Facts Tables Matter MatterFacts MatterText MatterMore MatterThms Prims PrimsFacts PrimsThms Json JsonFacts JsonThms Common CommonFacts CommonThms
  Saider SaiderFacts SaiderThms Diger Tholder Sadder SadderFacts SadderThms Prefixer Spec SpecPrims SpecJson SpecCommon SpecSaider SpecSadder SpecPrefixer.
Import ListNotations.
Open Scope N_scope.

(** ** Parsed keys *)
Lemma key_fixed c : In c (fixed_keys ++ rotatable_keys) -> exists n, In (c, n) fixed_codes.
Proof. intros H. cbn in H. repeat (destruct H as [<-|H]; [eexists; unfold fixed_codes; cbn; tauto|]). destruct H. Qed.
Lemma reconstructed t v p n : exfil t = Ok v -> In (m_code v, n) fixed_codes -> matter_of_code_raw (m_code v) (m_raw v) = Ok p -> p = v /\ wf_matter v.
Proof.
  intros E F H. apply exfil_inv in E as (z & rest & Hz & S & Et & L). destruct (fixed_known _ _ F) as (z' & Hz' & Ev & N). assert (z' = z) as -> by congruence.
  rewrite (construct_fixed _ z _ Hz Ev) in H. rewrite N in H. destruct (len (m_raw v) <? n) eqn:Q; [discriminate|]. injection H as <-.
  unfold mfs in L. rewrite Ev in L. unfold mtext in L. pose proof (lookup_facts _ _ Hz) as Fz. destruct (tf_fix _ _ Fz Ev) as (E1 & E2 & E3 & E4 & E5 & E6).
  pose proof (len_mboth v z Hz) as LM. rewrite len_app, LM, E1, len_drop, len_encode, len_app, len_zeros in L. unfold size_ok in S. rewrite Ev in S.
  pose proof (tf_hs _ _ Fz) as HS. assert (len (m_raw v) = n) as LR. { unfold pad in *. rewrite E1, N.add_0_r in *. lia. }
  split; [rewrite take_all by lia; rewrite <- S; now destruct v|]. exists z. split; auto. unfold raw_len_ok. rewrite Ev. split; auto. lia.
Qed.

(** ** Fields *)
Lemma insert_end {A} k (x : A) m : ~ In k (map fst m) -> insert k x m = m ++ [(k, x)].
Proof.
  induction m as [|[a y] m IH]; intros N; cbn [insert app]; auto. cbn [map fst In] in N. destruct (beq a k) eqn:E; [apply beq_eq in E; tauto|]. rewrite IH by tauto. reflexivity.
Qed.
Lemma insert_assigned k x m : NoDup (map fst m) -> insert k x m = assigned k x m.
Proof.
  intros ND. unfold assigned. destruct (existsb (beq k) (map fst m)) eqn:E.
  - apply in_existsb in E. now apply insert_replaced.
  - apply insert_end. intros I. apply in_existsb in I. congruence.
Qed.
Lemma incepts_iff {A} ked (f : R A) a : (let* t := index_str ked (s! "t") in let* ilk := to_string t in if negb (has_code inceptions ilk) then Err EValue else f) = Ok a <->
  incepts ked /\ f = Ok a.
Proof.
  split.
  - intros H. apply bind_ok in H as (t & T & H). apply bind_ok in H as (ilk & I & H). destruct t; try discriminate. injection I as ->.
    destruct (has_code inceptions ilk) eqn:HC; [|discriminate]. split; auto. exists ilk. apply has_code_in in HC. split; auto. now apply index_field.
  - intros ((t & T & I) & H). apply index_field in T. rewrite T, bind_Ok. cbn [to_string]. rewrite bind_Ok. apply (has_code_in inceptions) in I. now rewrite I.
Qed.
Lemma only_key_ok ked v : only_key ked = Ok v <-> exists t, sole_key ked t /\ exfil t = Ok v /\ In (m_code v) verfer_codes.
Proof.
  assert (forall t, verfer_new None None None (Some t) None = Ok v <-> exfil t = Ok v /\ In (m_code v) verfer_codes) as V.
  { intros t. pose proof (verfer_text (VStr t) v) as T. unfold verfer_of in T. cbn [to_string] in T. rewrite bind_Ok in T. rewrite T. split.
    - intros (q & [= <-] & E & C). auto.
    - intros (E & C). eauto. }
  unfold only_key. split.
  - intros H. apply bind_ok in H as (m & M & H). destruct ked as [| | | | | |m']; try discriminate. injection M as ->. destruct (contains_key (s! "k") m); [|discriminate].
    apply bind_ok in H as (ks & K & H). apply bind_ok in H as (l & L & H). destruct ks; try discriminate. injection L as ->. destruct l as [|x [|]]; try discriminate.
    apply bind_ok in H as (t & T & H). destruct x; try discriminate. injection T as ->. exists t. apply V in H as (E & C). split; auto. now apply index_field.
  - intros (t & K & E). apply V in E. unfold sole_key in K. pose proof K as K'. apply field_obj in K as (m & -> & A). apply index_field in K'. cbn [to_map]. rewrite bind_Ok.
    unfold contains_key. rewrite A, K', bind_Ok. cbn [to_vec to_string]. rewrite !bind_Ok. exact E.
Qed.
Lemma unset_ok m k : unset (VObj m) k = Ok tt <-> vacant (VObj m) k.
Proof.
  unfold unset, vacant. cbn [to_map]. rewrite bind_Ok. unfold contains_key. destruct (assoc k m) as [x|] eqn:A.
  - cbn [index_str]. rewrite A, bind_Ok. apply field_assoc in A. split.
    + intros H. apply bind_ok in H as (t & T & H). destruct x; try discriminate. injection T as ->. destruct t; [|discriminate]. auto.
    + intros [L|F]; [destruct (L _ A)|]. rewrite (field_unique _ _ _ _ A F). reflexivity.
  - split; auto. intros _. left. intros x F. apply field_assoc in F. congruence.
Qed.
Lemma prefix_field_ok m q pf : prefix_field (VObj m) m q pf = Ok true <-> holds pf (VObj m) (s! "i") q.
Proof.
  unfold prefix_field, holds. destruct pf; [|split; [discriminate|reflexivity]]. unfold contains_key. cbn [index_str]. destruct (assoc (s! "i") m) as [x|] eqn:A.
  - cbn [negb]. rewrite bind_Ok. apply field_assoc in A. split.
    + intros H _. apply bind_ok in H as (t & T & H). destruct x; try discriminate. injection T as ->. injection H as H. apply beq_eq in H. now subst t.
    + intros F. rewrite (field_unique _ _ _ _ A (F eq_refl)). cbn [to_string]. rewrite bind_Ok, beq_refl. reflexivity.
  - cbn [negb]. split; [discriminate|]. intros F. specialize (F eq_refl). apply field_assoc in F. congruence.
Qed.
Lemma key_field_ok m q : key_field (VObj m) m q = Ok true <-> sole_key (VObj m) q.
Proof.
  unfold key_field, sole_key. unfold contains_key. cbn [index_str]. destruct (assoc (s! "k") m) as [x|] eqn:A.
  - cbn [negb]. rewrite bind_Ok. apply field_assoc in A. split.
    + intros H. apply bind_ok in H as (l & L & H). destruct x; try discriminate. injection L as ->. destruct l as [|x [|]]; try discriminate.
      apply bind_ok in H as (t & T & H). destruct x; try discriminate. injection T as ->. injection H as H. apply beq_eq in H. now subst t.
    + intros F. rewrite (field_unique _ _ _ _ A F). cbn [to_vec bind to_string]. rewrite beq_refl. reflexivity.
  - cbn [negb]. split; [discriminate|]. intros F. apply field_assoc in F. congruence.
Qed.
(** Next keys: a non-empty list or text. *)
Definition next_named (v : value) : Prop := exists x, field_of v (s! "n") x /\ match x with VArr (_ :: _) | VStr (_ :: _) => True | _ => False end.
Lemma nontransferable_ok m q pf : verify_nontransferable (VObj m) q pf = Ok true <-> sole_key (VObj m) q /\ holds pf (VObj m) (s! "i") q /\ ~ next_named (VObj m).
Proof.
  unfold verify_nontransferable. cbn [to_map]. rewrite bind_Ok. rewrite <- key_field_ok, <- prefix_field_ok.
  destruct (key_field (VObj m) m q) as [[|]| |]; cbn [bind]; try (split; [discriminate|intuition discriminate]). cbn [negb].
  destruct (prefix_field (VObj m) m q pf) as [[|]| |]; cbn [bind]; try (split; [discriminate|intuition discriminate]). cbn [negb].
  unfold next_named, contains_key. cbn [index_str]. destruct (assoc (s! "n") m) as [x|] eqn:A.
  - apply field_assoc in A. rewrite bind_Ok. split.
    + intros H. split; auto. split; auto. intros (y & F & Y). rewrite (field_unique _ _ _ _ A F) in H. destruct y as [| | | |[|]|[|]|]; (contradiction || discriminate).
    + intros (_ & _ & N). destruct x as [| | | |[|]|[|]|]; auto; destruct N; eexists; (split; [exact A|exact I]).
  - split; auto. intros _. split; auto. split; auto. intros (y & F & _). apply field_assoc in F. congruence.
Qed.
Lemma transferable_ok m q pf : verify_transferable (VObj m) q pf = Ok true <-> sole_key (VObj m) q /\ holds pf (VObj m) (s! "i") q.
Proof.
  unfold verify_transferable. cbn [to_map]. rewrite bind_Ok. rewrite <- key_field_ok, <- prefix_field_ok.
  destruct (key_field (VObj m) m q) as [[|]| |]; cbn [bind]; try (split; [discriminate|intuition discriminate]). cbn [negb]. tauto.
Qed.

(** ** Digest prefixes *)
Definition blanked (code : bytes) (m : list (bytes * value)) : list (bytes * value) := insert (s! "d") (dummy code) (insert (s! "i") (dummy code) m).
Lemma hash_said c : has_code hash_codes c = true <-> has_code said_codes c = true.
Proof. rewrite !has_code_in. unfold said_codes, hash_codes. cbn. tauto. Qed.
Lemma derive_digest_eq hash m code : has_code hash_codes code = true ->
  derive_digest hash (VObj m) code = let* z := sizeify (VObj (blanked code m)) None in Ok (hash code (z_raw z), code).
Proof.
  intros HC. unfold derive_digest. destruct (said_sizage code (proj1 (hash_said _) HC)) as (z & Hz & Hfs). rewrite Hz, bind_Ok, Hfs. unfold from_utf8. rewrite utf8_dummy, bind_Ok.
  cbn [set_str]. rewrite !bind_Ok. cbn [set_str]. rewrite bind_Ok. fold (dummy code). fold (blanked code m). destruct (sizeify (VObj (blanked code m)) None) as [x| |]; [|reflexivity|reflexivity].
  rewrite !bind_Ok. unfold digest. rewrite HC. reflexivity.
Qed.
Lemma blanked_again code m x y : blanked code (insert (s! "d") y (insert (s! "i") x m)) = blanked code m.
Proof.
  unfold blanked. rewrite (insert_swap (s! "d") (s! "i")); [|discriminate|rewrite contains_insert; reflexivity]. now rewrite !insert_insert.
Qed.
Definition digest_ok (hash : bytes -> bytes -> bytes) (m : list (bytes * value)) (p : matter) : Prop :=
  exists z p', sizeify (VObj (blanked (m_code p) m)) None = Ok z /\ matter_of_code_raw (m_code p) (hash (m_code p) (z_raw z)) = Ok p' /\ infil p' = infil p.
Lemma digest_prefix_ok hash m p q pf : has_code hash_codes (m_code p) = true -> infil p = Ok q ->
  (verify_digest hash (VObj m) q pf (m_code p) = Ok true <-> digest_ok hash m p /\ holds pf (VObj m) (s! "i") q).
Proof.
  intros HC Q. unfold verify_digest, digest_ok. rewrite derive_digest_eq by auto. rewrite <- prefix_field_ok. split.
  - intros H. apply bind_ok in H as (rc & R & H). apply bind_ok in R as (z & Z & R). injection R as <-. cbn [fst snd] in H. unfold diger_new in H. cbn [matter_new] in H.
    destruct (matter_of_code_raw _ _) as [p'| |] eqn:M; [|discriminate|discriminate]. apply bind_ok in H as (p'' & V & H). apply bind_ok in V as (u & _ & V). injection V as ->.
    apply bind_ok in H as (q' & Q' & H). destruct (beq q' q) eqn:B; [|discriminate]. apply beq_eq in B. subst q'. cbn [negb to_map] in H. rewrite bind_Ok in H. split; auto.
    exists z, p''. split; auto. split; auto. congruence.
  - intros ((z & p' & Z & M & I) & H). rewrite Z, !bind_Ok. cbn [fst snd]. unfold diger_new. cbn [matter_new]. rewrite M.
    assert (m_code p' = m_code p) as -> by (eapply digest_matter; [apply hash_said; exact HC|exact M]). unfold validate. change diger_codes with hash_codes. rewrite HC, !bind_Ok, I, Q, bind_Ok, beq_refl.
    cbn [negb to_map]. rewrite bind_Ok. exact H.
Qed.

(** ** What is derived and what verifies *)
Lemma verified hash p ked prefixed : prefixer_verify hash p ked prefixed = Ok true <-> incepts ked /\ exists q m, infil p = Ok q /\ ked = VObj m /\ holds (or_else prefixed false) ked (s! "i") q /\
  (In (m_code p) fixed_keys /\ sole_key ked q /\ ~ next_named ked \/ In (m_code p) rotatable_keys /\ sole_key ked q \/ In (m_code p) hash_codes /\ digest_ok hash m p).
Proof.
  unfold prefixer_verify. cbv zeta. rewrite incepts_iff. set (pf := or_else prefixed false). apply and_iff_compat_l.
  destruct (has_code basic_codes (m_code p)) eqn:B; [|destruct (has_code rotating_codes (m_code p)) eqn:C; [|destruct (has_code hash_codes (m_code p)) eqn:D]].
  - apply has_code_in in B. change basic_codes with fixed_keys in B. assert (~ In (m_code p) rotatable_keys /\ ~ In (m_code p) hash_codes) as (N1 & N2).
    { clear -B. cbn in B. cbn. intuition congruence. }
    split.
    + intros H. apply bind_ok in H as (q & Q & H). assert (exists m, ked = VObj m) as (m & ->) by (destruct ked; try discriminate; eauto). apply nontransferable_ok in H as (K & I & N).
      exists q, m. auto 8.
    + intros (q & m & Q & -> & I & [(_ & K & N)|[(? & _)|(? & _)]]); [|contradiction|contradiction]. rewrite Q, bind_Ok. apply nontransferable_ok. auto.
  - apply has_code_in in C. change rotating_codes with rotatable_keys in C. assert (~ In (m_code p) fixed_keys /\ ~ In (m_code p) hash_codes) as (N1 & N2).
    { clear -C. cbn in C. cbn. intuition congruence. }
    split.
    + intros H. apply bind_ok in H as (q & Q & H). assert (exists m, ked = VObj m) as (m & ->) by (destruct ked; try discriminate; eauto). apply transferable_ok in H as (K & I).
      exists q, m. auto 8.
    + intros (q & m & Q & -> & I & [(? & _)|[(_ & K)|(? & _)]]); [contradiction| |contradiction]. rewrite Q, bind_Ok. apply transferable_ok. auto.
  - assert (~ In (m_code p) fixed_keys) as N1 by (intros H; apply (has_code_in basic_codes) in H; congruence).
    assert (~ In (m_code p) rotatable_keys) as N2 by (intros H; apply (has_code_in rotating_codes) in H; congruence). split.
    + intros H. apply bind_ok in H as (q & Q & H). assert (exists m, ked = VObj m) as (m & ->).
      { unfold verify_digest in H. apply bind_ok in H as (rc & _ & H). apply bind_ok in H as (c & _ & H). apply bind_ok in H as (x & _ & H). destruct (beq x q); [|discriminate].
        cbn [negb] in H. apply bind_ok in H as (m & M & _). destruct ked; try discriminate. eauto. }
      apply (digest_prefix_ok hash m p q pf D Q) in H as (K & I). exists q, m. apply has_code_in in D. auto 8.
    + intros (q & m & Q & -> & I & [(? & _)|[(? & _)|(_ & K)]]); [contradiction|contradiction|]. rewrite Q, bind_Ok. apply digest_prefix_ok; auto.
  - split; [discriminate|]. intros (q & m & _ & _ & _ & [(H & _)|[(H & _)|(H & _)]]).
    + apply (has_code_in basic_codes) in H. congruence.
    + apply (has_code_in rotating_codes) in H. congruence.
    + apply has_code_in in H. congruence.
Qed.
Lemma derived hash ked allows code p : prefixer_new hash (Some ked) allows code None None None None = Ok p -> incepts ked /\
  (In (m_code p) fixed_keys /\ (exists t, sole_key ked t /\ exfil t = Ok p /\ wf_matter p) /\ vacant ked (s! "n") /\ vacant ked (s! "b") /\ vacant ked (s! "a") \/
   In (m_code p) rotatable_keys /\ (exists t, sole_key ked t /\ exfil t = Ok p /\ wf_matter p) \/
   In (m_code p) hash_codes /\ exists m z, ked = VObj m /\ sizeify (VObj (blanked (m_code p) m)) None = Ok z /\ matter_of_code_raw (m_code p) (hash (m_code p) (z_raw z)) = Ok p).
Proof.
  unfold prefixer_new. intros H. apply bind_ok in H as (c & _ & H). apply bind_ok in H as (u & _ & H). cbv zeta in H. destruct (negb _); [discriminate|].
  apply bind_ok in H as (rc & D & H). unfold derive in D. apply incepts_iff in D as (I & D). split; auto. cbn [matter_new] in H.
  assert (forall v t, exfil t = Ok v -> In (m_code v) (fixed_keys ++ rotatable_keys) -> matter_of_code_raw (m_code v) (m_raw v) = Ok p -> p = v /\ wf_matter v) as G.
  { intros v t E K M. destruct (key_fixed _ K) as (n & F). eapply reconstructed; eauto. }
  destruct (has_code basic_codes c) eqn:B; [left|destruct (has_code rotating_codes c) eqn:C; [right; left|destruct (has_code hash_codes c) eqn:E; [right; right|discriminate]]].
  - apply has_code_in in B. unfold derive_nontransferable in D. apply bind_ok in D as (v & V & D). destruct (beq (m_code v) c) eqn:BC; [|discriminate]. apply beq_eq in BC. cbn [negb] in D.
    apply bind_ok in D as ([] & U1 & D). apply bind_ok in D as ([] & U2 & D). apply bind_ok in D as ([] & U3 & D). injection D as <-. cbn [fst snd] in H.
    apply only_key_ok in V as (t & K & E & _). assert (exists m, ked = VObj m) as (m & ->) by (destruct (field_obj _ _ _ K) as (m & -> & _); eauto).
    destruct (G v t E) as (-> & W); auto; [rewrite BC; apply in_or_app; now left|]. split; [rewrite BC; exact B|]. split; [eauto|]. rewrite !unset_ok in *. auto.
  - apply has_code_in in C. unfold derive_transferable in D. apply bind_ok in D as (v & V & D). destruct (beq (m_code v) c) eqn:BC; [|discriminate]. apply beq_eq in BC. cbn [negb] in D.
    injection D as <-. cbn [fst snd] in H. apply only_key_ok in V as (t & K & E & _). destruct (G v t E) as (-> & W); auto; [rewrite BC; apply in_or_app; now right|].
    split; [rewrite BC; exact C|]. eauto.
  - assert (exists m, ked = VObj m) as (m & ->). { destruct I as (t & F & _). destruct (field_obj _ _ _ F) as (m & -> & _). eauto. }
    rewrite derive_digest_eq in D by auto. apply bind_ok in D as (z & Z & D). injection D as <-. cbn [fst snd] in H.
    assert (m_code p = c) as P by (eapply digest_matter; [apply hash_said; exact E|exact H]). rewrite P. split; [now apply has_code_in|]. exists m, z. auto.
Qed.

Lemma prefix_wf hash ked allows code p : prefixer_new hash (Some ked) allows code None None None None = Ok p -> wf_matter p.
Proof.
  intros H. destruct (derived _ _ _ _ _ H) as (_ & [(_ & (t & _ & _ & W) & _)|[(_ & t & _ & _ & W)|(C & m & z & -> & Z & M)]]); auto.
  apply has_code_in, hash_said in C. apply said_code_size in C as (n & C). apply said_code_fixed in C. destruct (fixed_known _ _ C) as (s & Hs & _). eapply construct_wf'; eauto.
Qed.

(*# C62_code_asked
   A derived prefix has the code asked for, or else the code of the text in field i; it is one of the allowed codes if any are named, and a key or digest code.
##
Example C62_asked_case : is_err (prefixer_new (fun _ _ => zeros 32)
    (Some (VObj [(s! "v", VStr (s! "KERI10JSON000000_")); (s! "t", VStr (s! "icp")); (s! "d", VStr []); (s! "i", VStr []); (s! "k", VArr [])])) (Some [s! "D"]) (Some (s! "E")) None None None None) = true.
Proof. vm_compute. reflexivity. Qed.
#*)
Lemma C62_asked_l (hash : bytes -> bytes -> bytes) (ked : value) (allows : option (list bytes)) (code : option bytes) (p : matter) :
  prefixer_new hash (Some ked) allows code None None None None = Ok p ->
  (forall c, code = Some c -> m_code p = c) /\ (code = None -> exists t m, field_of ked (s! "i") (VStr t) /\ exfil t = Ok m /\ m_code p = m_code m) /\
  (forall l, allows = Some l -> l = [] \/ In (m_code p) l) /\ In (m_code p) (fixed_keys ++ rotatable_keys ++ map fst digest_sizes).
Proof.
  unfold prefixer_new. intros H. apply bind_ok in H as (c & HC & H). apply bind_ok in H as (u & V & H). apply validate_ok in V as (V & _). cbv zeta in H.
  destruct (match or_else allows [] with [] => true | _ => has_code (or_else allows []) c end) eqn:AL; cbn [negb] in H; [|discriminate].
  assert (m_code p = c) as P.
  { apply bind_ok in H as (rc & D & H). unfold derive in D. apply incepts_iff in D as (I & D). cbn [matter_new] in H.
    assert (forall v t, exfil t = Ok v -> In (m_code v) (fixed_keys ++ rotatable_keys) -> matter_of_code_raw (m_code v) (m_raw v) = Ok p -> p = v /\ wf_matter v) as G.
    { intros v t E K M. destruct (key_fixed _ K) as (n & F). eapply reconstructed; eauto. }
    destruct (has_code basic_codes c) eqn:B; [|destruct (has_code rotating_codes c) eqn:C; [|destruct (has_code hash_codes c) eqn:E; [|discriminate]]].
    - apply has_code_in in B. unfold derive_nontransferable in D. apply bind_ok in D as (v & Ve & D). destruct (beq (m_code v) c) eqn:BC; [|discriminate]. apply beq_eq in BC. cbn [negb] in D.
      apply bind_ok in D as ([] & U1 & D). apply bind_ok in D as ([] & U2 & D). apply bind_ok in D as ([] & U3 & D). injection D as <-. cbn [fst snd] in H.
      apply only_key_ok in Ve as (t & K & E & _). destruct (G v t E) as (-> & W); auto. rewrite BC. apply in_or_app. now left.
    - apply has_code_in in C. unfold derive_transferable in D. apply bind_ok in D as (v & Ve & D). destruct (beq (m_code v) c) eqn:BC; [|discriminate]. apply beq_eq in BC. cbn [negb] in D.
      injection D as <-. cbn [fst snd] in H. apply only_key_ok in Ve as (t & K & E & _). destruct (G v t E) as (-> & W); auto. rewrite BC. apply in_or_app. now right.
    - assert (exists m, ked = VObj m) as (m & ->). { destruct I as (t & F & _). destruct (field_obj _ _ _ F) as (m & -> & _). eauto. }
      rewrite derive_digest_eq in D by auto. apply bind_ok in D as (z & Z & D). injection D as <-. cbn [fst snd] in H. eapply digest_matter; [apply hash_said; exact E|exact H]. }
  rewrite P. clear H. repeat apply conj.
  - intros c' ->. now injection HC as <-.
  - intros ->. apply bind_ok in HC as (map & M & HC). destruct (negb _); [discriminate|]. apply bind_ok in HC as (x & X & HC). apply index_field in X. apply bind_ok in HC as (t & T & HC). destruct x; try discriminate. injection T as ->.
    apply bind_ok in HC as (m & E & HC). injection HC as <-. exists t, m. auto.
  - intros l ->. cbn [or_else] in AL. destruct l as [|x l]; [now left|right]. now apply has_code_in.
  - clear - V. cbn in *. tauto.
Qed.
Lemma field_other k x k' m y : k <> k' -> (field_of (VObj (insert k' y m)) k x <-> field_of (VObj m) k x).
Proof. intros N. rewrite !field_assoc, assoc_insert. destruct (beq k' k) eqn:E; [apply beq_eq in E; congruence|tauto]. Qed.
Lemma lacks_other k k' m y : k <> k' -> (lacks (VObj (insert k' y m)) k <-> lacks (VObj m) k).
Proof. intros N. unfold lacks. split; intros H x F; apply (H x); [rewrite field_other|rewrite field_other in F]; auto. Qed.
Lemma incepts_written m x y : incepts (VObj m) -> incepts (VObj (insert (s! "d") y (insert (s! "i") x m))).
Proof. intros (t & F & I). exists t. split; auto. rewrite !field_other; auto; discriminate. Qed.
Lemma holds_written m q y pf : holds pf (VObj (insert (s! "d") y (insert (s! "i") (VStr q) m))) (s! "i") q.
Proof. intros _. rewrite field_other by discriminate. apply field_assoc. rewrite assoc_insert. now rewrite beq_refl. Qed.
Lemma NoDup_assigned k x m : NoDup (map fst m) -> NoDup (map fst (assigned k x m)).
Proof. intros ND. rewrite <- insert_assigned by auto. now apply insert_NoDup. Qed.
Lemma digest_hash c : In c (map fst digest_sizes) <-> In c hash_codes.
Proof. cbn. tauto. Qed.

(*# C62_digest_prefix_verifies
   A digest prefix derived from an inception event verifies against that event with the prefix written into field i and anything, such as a SAID, into field d,
   with the prefix check on or off.
##
Example C62_digest_case : exists p, prefixer_new (fun _ _ => zeros 32)
    (Some (VObj [(s! "v", VStr (s! "KERI10JSON000000_")); (s! "t", VStr (s! "icp")); (s! "d", VStr []); (s! "i", VStr []); (s! "k", VArr [])])) None (Some (s! "E")) None None None None = Ok p /\
  m_code p = s! "E".
Proof. eexists. split; [vm_compute; reflexivity|reflexivity]. Qed.
#*)
Lemma C62a_l (hash : bytes -> bytes -> bytes) (m : list (bytes * value)) (allows : option (list bytes)) (code : option bytes) (p : matter) (said : value) (prefixed : option bool) :
  NoDup (map fst m) -> prefixer_new hash (Some (VObj m)) allows code None None None None = Ok p -> In (m_code p) (map fst digest_sizes) ->
  exists pre, infil p = Ok pre /\ prefixer_verify hash p (VObj (assigned (s! "d") said (assigned (s! "i") (VStr pre) m))) prefixed = Ok true.
Proof.
  intros ND H C. apply digest_hash in C. destruct (wf_round _ (prefix_wf _ _ _ _ _ H)) as (q & _ & Q & _). exists q. split; auto.
  rewrite <- !insert_assigned by auto using NoDup_assigned. destruct (derived _ _ _ _ _ H) as (I & D). apply verified. split; [now apply incepts_written|].
  exists q. eexists. split; auto. split; [reflexivity|]. split; [apply holds_written|]. right. right. split; auto.
  destruct D as [(N & _)|[(N & _)|(_ & m0 & z & [= <-] & Z & M)]].
  - exfalso. clear -N C. cbn in N, C. intuition congruence.
  - exfalso. clear -N C. cbn in N, C. intuition congruence.
  - exists z, p. rewrite blanked_again. auto.
Qed.

(*# C62_resized_event
   The same holds when the size in the version string of the event was filled in, or changed, after the prefix was derived.
##
Example C62_resized_case : version_string (s! "KERI10JSON000000_") (s! "KERI") 1 0 0 /\ version_string (s! "KERI10JSON0000fd_") (s! "KERI") 1 0 253.
Proof. split; (split; [now left|]); [exists [x31], [x30], (s! "000000")|exists [x31], [x30], (s! "0000fd")]; repeat split; try reflexivity; cbn; intros; intuition (subst; cbn; tauto). Qed.
#*)
Lemma C62b_l (hash : bytes -> bytes -> bytes) (vs vs' proto : bytes) (n n' : N) (m : list (bytes * value)) (allows : option (list bytes)) (code : option bytes) (p : matter)
    (said : value) (prefixed : option bool) :
  NoDup (map fst ((s! "v", VStr vs) :: m)) -> version_string vs proto 1 0 n -> version_string vs' proto 1 0 n' ->
  prefixer_new hash (Some (VObj ((s! "v", VStr vs) :: m))) allows code None None None None = Ok p -> In (m_code p) (map fst digest_sizes) ->
  exists pre, infil p = Ok pre /\ prefixer_verify hash p (VObj ((s! "v", VStr vs') :: assigned (s! "d") said (assigned (s! "i") (VStr pre) m))) prefixed = Ok true.
Proof.
  intros ND V V' H C. destruct (C62a_l hash _ allows code p said prefixed ND H C) as (q & Q & G). exists q. split; auto.
  inversion ND as [|? ? NV ND']; subst. rewrite <- !insert_assigned in * by auto using NoDup_assigned. rewrite !insert_below in G by discriminate.
  set (m' := insert (s! "d") said (insert (s! "i") (VStr q) m)) in *.
  apply verified in G as (I & q' & mm & Q' & [= <-] & HI & D). rewrite Q in Q'. injection Q' as <-. apply verified.
  assert (forall k x, k <> s! "v" -> (field_of (VObj ((s! "v", VStr vs') :: m')) k x <-> field_of (VObj ((s! "v", VStr vs) :: m')) k x)) as F.
  { intros k x N. rewrite !field_assoc. cbn [assoc]. destruct (beq (s! "v") k) eqn:E; [apply beq_eq in E; congruence|tauto]. }
  split. { destruct I as (t & T & I). exists t. split; auto. apply F; auto. discriminate. }
  exists q. eexists. split; auto. split; [reflexivity|]. split. { intros P. apply F; [discriminate|]. now apply HI. }
  apply digest_hash in C. destruct D as [(N & _)|[(N & _)|(_ & z & p' & Z & M)]].
  - exfalso. clear -N C. cbn in N, C. intuition congruence.
  - exfalso. clear -N C. cbn in N, C. intuition congruence.
  - right. right. split; auto. exists z, p'. split; auto. rewrite <- Z. unfold blanked. rewrite !insert_below by discriminate.
    apply (C53a_l [] _ _ _ proto 1 0 n' n); auto. apply no_version_find. reflexivity.
Qed.

(*# C62_digest_prefix_accepted
   Any inception event that begins with a version string of version 1.0 is given a digest prefix of any digest code, provided the code is allowed and the JSON of the
   event, with prefix and SAID in place, has fewer than 2^24 bytes.
##
Example C62_accepted_case : incepts (VObj [(s! "v", VStr (s! "KERI10JSON000000_")); (s! "t", VStr (s! "dip"))]) /\ In (s! "0G", 64) digest_sizes /\
  len (to_json (VObj (assigned (s! "d") (dummies 88) (assigned (s! "i") (dummies 88) [(s! "v", VStr (s! "KERI10JSON000000_")); (s! "t", VStr (s! "dip"))])))) = 225.
Proof.
  split; [exists (s! "dip"); split; [exists [(s! "v", VStr (s! "KERI10JSON000000_"))], []; split; [reflexivity|cbn; intuition discriminate]|cbn; tauto]|].
  split; [cbn; tauto|vm_compute; reflexivity].
Qed.
#*)
Lemma C62c_l (hash : bytes -> bytes -> bytes) (vs proto code : bytes) (n w : N) (m : list (bytes * value)) (allows : option (list bytes)) :
  sized_hash hash -> In (code, w) digest_sizes -> data (VObj ((s! "v", VStr vs) :: m)) -> version_string vs proto 1 0 n -> incepts (VObj ((s! "v", VStr vs) :: m)) ->
  (forall l, allows = Some l -> l = [] \/ In code l) ->
  len (to_json (VObj (assigned (s! "d") (dummies (text_width code)) (assigned (s! "i") (dummies (text_width code)) ((s! "v", VStr vs) :: m))))) < 2 ^ 24 ->
  exists p, prefixer_new hash (Some (VObj ((s! "v", VStr vs) :: m))) allows (Some code) None None None None = Ok p /\ m_code p = code.
Proof.
  intros SH C D V I AL L. assert (has_code said_codes code = true) as HC by (apply said_code_size; eauto). pose proof (proj2 (hash_said code) HC) as HH.
  assert (NoDup (map fst ((s! "v", VStr vs) :: m))) as ND by (inversion D; auto). rewrite <- !insert_assigned in L by auto using NoDup_assigned.
  change (dummies (text_width code)) with (dummy code) in L. fold (blanked code ((s! "v", VStr vs) :: m)) in L. remember ((s! "v", VStr vs) :: m) as e eqn:Ee.
  assert (exists z, sizeify (VObj (blanked code e)) None = Ok z) as (z & Z).
  { assert (data (VObj (blanked code e))) as D'. { unfold blanked. apply data_insert; [apply data_insert; [exact D|reflexivity|apply data_dummy]|reflexivity|apply data_dummy]. }
    unfold blanked in *. rewrite Ee in *. rewrite !insert_below in * by discriminate. eapply sizes; eauto. now left. }
  assert (has_code prefix_codes code = true) as HP. { apply has_code_in. unfold prefix_codes. apply in_or_app. right. apply in_or_app. right. now apply has_code_in. }
  destruct (said_built hash code (z_raw z) SH HC) as (B & _).
  exists (Mt code 0 (hash code (z_raw z))). split; [|reflexivity]. unfold prefixer_new. rewrite bind_Ok. unfold validate. rewrite HP, bind_Ok. cbv zeta.
  assert (match or_else allows [] with [] => true | _ => has_code (or_else allows []) code end = true) as ->.
  { destruct allows as [l|]; [|reflexivity]. cbn [or_else]. destruct l as [|x l]; [reflexivity|]. apply has_code_in. destruct (AL _ eq_refl); [discriminate|auto]. }
  cbn [negb]. assert (derive hash (VObj e) code = Ok (hash code (z_raw z), code)) as ->; [|rewrite bind_Ok; exact B].
  unfold derive. apply incepts_iff. split; auto.
  assert (has_code basic_codes code = false /\ has_code rotating_codes code = false) as (-> & ->).
  { clear -C. cbn [digest_sizes In] in C. repeat (destruct C as [C|C]; [injection C as <- <-; split; reflexivity|]). destruct C. }
  rewrite HH, derive_digest_eq, Z, bind_Ok by auto. reflexivity.
Qed.

(*# C62_basic_prefix_refuted
   False as stated for prefixes that are keys: if the text of the key in the event is followed by further characters, a prefix is derived, but it does not verify
   against the event it was derived from.
#*)
Lemma C62_no_l : exists hash m p pre, NoDup (map fst m) /\ prefixer_new hash (Some (VObj m)) None (Some (s! "D")) None None None None = Ok p /\ infil p = Ok pre /\
  prefixer_verify hash p (VObj (assigned (s! "i") (VStr pre) m)) None = Ok false.
Proof.
  exists (fun _ _ => []), [(s! "t", VStr (s! "icp")); (s! "k", VArr [VStr (s! "DAAAAAAAAAAAAAAAAAAAAAAAAAAAAAAAAAAAAAAAAAAAA")])]. eexists. eexists.
  split; [repeat constructor; cbn; intuition discriminate|]. split; [vm_compute; reflexivity|]. split; [vm_compute; reflexivity|]. vm_compute. reflexivity.
Qed.

(*# C62_basic_prefix_partial
   A prefix that is a key, derived from an inception event, is the primitive the event's only key text parses to; its text is the beginning of that key text. If it is
   the whole key text then the prefix verifies against the event with the prefix written into field i and anything into field d. Full statement: without that
   condition; see C62_basic_prefix_refuted.
##
Example C62_basic_case : exists p, prefixer_new (fun _ _ => []) (Some (VObj [(s! "t", VStr (s! "icp")); (s! "k", VArr [VStr (s! "BAAAAAAAAAAAAAAAAAAAAAAAAAAAAAAAAAAAAAAAAAAA")])])) None
    (Some (s! "B")) None None None None = Ok p /\ infil p = Ok (s! "BAAAAAAAAAAAAAAAAAAAAAAAAAAAAAAAAAAAAAAAAAAA").
Proof. eexists. split; [vm_compute; reflexivity|]. vm_compute. reflexivity. Qed.
#*)
Lemma C62_l (hash : bytes -> bytes -> bytes) (m : list (bytes * value)) (allows : option (list bytes)) (code : option bytes) (p : matter) (said : value) (prefixed : option bool) :
  NoDup (map fst m) -> prefixer_new hash (Some (VObj m)) allows code None None None None = Ok p -> In (m_code p) (fixed_keys ++ rotatable_keys) ->
  exists pre key, infil p = Ok pre /\ sole_key (VObj m) key /\ exfil key = Ok p /\ prefix pre key /\
  (key = pre -> prefixer_verify hash p (VObj (assigned (s! "d") said (assigned (s! "i") (VStr pre) m))) prefixed = Ok true).
Proof.
  intros ND H C. destruct (wf_round _ (prefix_wf _ _ _ _ _ H)) as (q & _ & Q & _). exists q. rewrite <- !insert_assigned by auto using NoDup_assigned.
  assert (forall t, exfil t = Ok p -> prefix q t) as PR. { intros t E. now apply (exfil_infil t p q). }
  assert (forall t, sole_key (VObj m) t -> sole_key (VObj (insert (s! "d") said (insert (s! "i") (VStr q) m))) t) as K.
  { unfold sole_key. intros t S. rewrite !field_other by discriminate. exact S. }
  destruct (derived _ _ _ _ _ H) as (I & [(CC & (t & S & E & W) & VN & _)|[(CC & t & S & E & W)|(CC & _)]]).
  - exists t. repeat split; auto. intros ->. apply verified. split; [now apply incepts_written|]. exists q. eexists. split; auto. split; [reflexivity|]. split; [apply holds_written|].
    left. split; auto. split; auto. intros (x & F & X). rewrite !field_other in F by discriminate. destruct VN as [VN|VN]; [destruct (VN _ F)|]. rewrite (field_unique _ _ _ _ F VN) in X. exact X.
  - exists t. repeat split; auto. intros ->. apply verified. split; [now apply incepts_written|]. exists q. eexists. split; auto. split; [reflexivity|]. split; [apply holds_written|].
    right. left. auto.
  - exfalso. clear -C CC. cbn in C, CC. intuition congruence.
Qed.

(*# C63_basic_prefix_is_the_key
   If a prefix that is a key verifies against an event, the event is an inception, the text of the prefix is its only key and, with the prefix check on, also its
   field i. For a key that can be rotated this is exactly when the prefix verifies.
##
Example C63_basic_case : prefixer_verify (fun _ _ => []) (Mt (s! "D") 0 (zeros 32))
    (VObj [(s! "t", VStr (s! "icp")); (s! "i", VStr (s! "DAAAAAAAAAAAAAAAAAAAAAAAAAAAAAAAAAAAAAAAAAAA")); (s! "k", VArr [VStr (s! "DAAAAAAAAAAAAAAAAAAAAAAAAAAAAAAAAAAAAAAAAAAA")])]) (Some true) = Ok true.
Proof. vm_compute. reflexivity. Qed.
#*)
Lemma C63a_l (hash : bytes -> bytes -> bytes) (p : matter) (ked : value) (prefixed : option bool) :
  In (m_code p) (fixed_keys ++ rotatable_keys) ->
  (prefixer_verify hash p ked prefixed = Ok true -> incepts ked /\ exists pre, infil p = Ok pre /\ sole_key ked pre /\ (prefixed = Some true -> field_of ked (s! "i") (VStr pre))) /\
  (In (m_code p) rotatable_keys -> forall pre, incepts ked -> infil p = Ok pre -> sole_key ked pre -> (prefixed = Some true -> field_of ked (s! "i") (VStr pre)) ->
   prefixer_verify hash p ked prefixed = Ok true).
Proof.
  intros C. split.
  - intros V. apply verified in V as (I & q & m & Q & -> & H & D). split; auto. exists q. split; auto. split.
    + destruct D as [(_ & S & _)|[(_ & S)|(N & _)]]; auto. exfalso. clear -C N. cbn in C, N. intuition congruence.
    + intros ->. now apply H.
  - intros R q I Q S H. apply verified. split; auto. destruct (field_obj _ _ _ S) as (m & -> & _). exists q, m. split; auto. split; auto. split; [|auto].
    intros E. apply H. destruct prefixed as [[|]|]; auto; discriminate.
Qed.

(** Two events which are the same once a label that looks like a version string is overwritten. *)
Definition look_alike (c : bytes) : list (bytes * value) :=
  [(s! "KERI10JSON00000" ++ c ++ s! "_", VNull); (s! "v", VStr (s! "KERI10JSON000000_")); (s! "t", VStr (s! "icp")); (s! "i", VNull); (s! "d", VNull)].
Lemma look_alike_data c : In c [s! "0"; s! "1"] -> data (VObj (look_alike c)).
Proof.
  intros H. apply data_obj.
  - destruct H as [<-|[<-|[]]]; repeat constructor; cbn; intuition discriminate.
  - destruct H as [<-|[<-|[]]]; repeat constructor.
  - repeat constructor.
Qed.
(*# C63_digest_tamper_refuted
   False as stated: whatever the digest function, some prefix verifies against two events with different labels. The label looks like a version string, and sizing the
   event overwrites it before the digest is taken.
#*)
Lemma C63_no_l : forall hash, sized_hash hash -> exists p m1 m2, data (VObj m1) /\ data (VObj m2) /\ built p /\ m_code p = s! "E" /\
  prefixer_verify hash p (VObj m1) None = Ok true /\ prefixer_verify hash p (VObj m2) None = Ok true /\ without [s! "i"; s! "d"; s! "v"] m1 <> without [s! "i"; s! "d"; s! "v"] m2.
Proof.
  intros hash SH. assert (exists z1 z2, sizeify (VObj (blanked (s! "E") (look_alike (s! "0")))) None = Ok z1 /\ sizeify (VObj (blanked (s! "E") (look_alike (s! "1")))) None = Ok z2 /\
    z_raw z1 = z_raw z2) as (z1 & z2 & Z1 & Z2 & ZZ).
  { eexists. eexists. split; [vm_compute; reflexivity|]. split; [vm_compute; reflexivity|]. reflexivity. }
  destruct (said_built hash (s! "E") (z_raw z1) SH eq_refl) as (B & W). destruct (wf_round _ W) as (q & _ & Q & _).
  exists (Mt (s! "E") 0 (hash (s! "E") (z_raw z1))), (look_alike (s! "0")), (look_alike (s! "1")). split; [apply look_alike_data; cbn; tauto|]. split; [apply look_alike_data; cbn; tauto|].
  split; [exists (s! "E"), (hash (s! "E") (z_raw z1)); split; [cbn; tauto|exact B]|]. split; [reflexivity|].
  assert (forall c, incepts (VObj (look_alike c))) as I.
  { intros c. exists (s! "icp"). split; [|cbn; tauto]. exists (firstn 2 (look_alike c)), [(s! "i", VNull); (s! "d", VNull)]. split; [reflexivity|]. cbn. intuition discriminate. }
  split; [|split]; [| |vm_compute; discriminate].
  - apply verified. split; [apply I|]. exists q, (look_alike (s! "0")). split; auto. split; auto. split; [intros [=]|]. right. right. split; [cbn; tauto|]. eexists. eexists. split; [exact Z1|]. split; [exact B|reflexivity].
  - apply verified. split; [apply I|]. exists q, (look_alike (s! "1")). split; auto. split; auto. split; [intros [=]|]. right. right. split; [cbn; tauto|]. eexists. eexists. split; [exact Z2|]. rewrite <- ZZ. split; [exact B|reflexivity].
Qed.

Lemma sized_v vs m z : sizeify (VObj ((s! "v", VStr vs) :: m)) None = Ok z ->
  exists proto n v' n', version_string vs proto 1 0 n /\ version_string v' proto 1 0 n' /\ z_raw z = to_json (VObj ((s! "v", VStr v') :: m)).
Proof.
  intros Z. destruct (sizeify_shape _ _ _ Z) as (n1 & vs2 & n2 & proto & n & E & N' & V).
  assert (assoc (s! "v") ((s! "v", VStr vs) :: m) = Some (VStr vs2)) as A by (injection E as ->; now apply assoc_at). cbn [assoc] in A. rewrite beq_refl in A. injection A as <-.
  change ((s! "v", VStr vs) :: m) with ([] ++ (s! "v", VStr vs) :: m) in Z. rewrite (sizeify_spec [] vs m None proto 1 0 n) in Z; auto. change (negb ((1 =? 1) && (0 =? 0))) with false in Z. cbv iota in Z. 
  destruct (negb (knd None)); [discriminate|]. destruct (negb _); [discriminate|]. destruct (12 <? _); [discriminate|].
  destruct (as_u32 (len (fore [] (s! "v")) + 17 + len (back m)) <? 2 ^ 24) eqn:L; [|discriminate]. injection Z as <-. apply N.ltb_lt in L.
  assert (In proto idents) as IP by (apply idents_or; apply V). pose proof (vtext_string proto _ IP L) as V2.
  exists proto, n, (vtext proto (as_u32 (len (fore [] (s! "v")) + 17 + len (back m)))), (as_u32 (len (fore [] (s! "v")) + 17 + len (back m))). split; auto. split; auto.
  destruct (version_string_plain _ _ _ _ _ V2) as (P & _). symmetry. exact (to_json_str [] (s! "v") _ m P).
Qed.
Lemma without_perm2 {A} a b (m : list (bytes * A)) : without' [a; b] m = without' [b; a] m.
Proof.
  induction m as [|[k x] m IH]; [reflexivity|]. rewrite !without_step, IH. cbn [existsb]. rewrite !orb_false_r, (orb_comm (beq k a)). reflexivity.
Qed.

(*# C63_digest_tamper_partial
   If a digest prefix verifies against two inception events that begin with their version strings, then the version strings differ in the size at most, and the
   events have the same other fields in the same order, prefix and SAID aside; or the digest function has a collision. The full statement, for events that do not
   begin with the version string, fails: see C63_digest_tamper_refuted.
##
Example C63_case : prefixer_verify (fun _ _ => zeros 32) (Mt (s! "E") 0 (zeros 32)) (VObj [(s! "v", VStr (s! "KERI10JSON000000_")); (s! "t", VStr (s! "icp")); (s! "i", VNull); (s! "d", VNull)]) None = Ok true.
Proof. vm_compute. reflexivity. Qed.
#*)
Lemma C63_l (hash : bytes -> bytes -> bytes) (p : matter) (vs1 vs2 : bytes) (m1 m2 : list (bytes * value)) (prefixed1 prefixed2 : option bool) :
  sized_hash hash -> In (m_code p) (map fst digest_sizes) -> data (VObj ((s! "v", VStr vs1) :: m1)) -> data (VObj ((s! "v", VStr vs2) :: m2)) ->
  prefixer_verify hash p (VObj ((s! "v", VStr vs1) :: m1)) prefixed1 = Ok true -> prefixer_verify hash p (VObj ((s! "v", VStr vs2) :: m2)) prefixed2 = Ok true ->
  collision hash (m_code p) \/
  (exists proto n1 n2, version_string vs1 proto 1 0 n1 /\ version_string vs2 proto 1 0 n2) /\ without [s! "i"; s! "d"] m1 = without [s! "i"; s! "d"] m2.
Proof.
  intros SH C D1 D2 V1 V2. apply digest_hash in C. assert (~ In (m_code p) fixed_keys /\ ~ In (m_code p) rotatable_keys) as (N1 & N2).
  { clear -C. cbn in C. cbn. split; intuition congruence. }
  apply verified in V1 as (_ & q & e1 & Q & [= <-] & _ & V1). apply verified in V2 as (_ & q2 & e2 & Q2 & [= <-] & _ & V2). rewrite Q in Q2. injection Q2 as <-.
  destruct V1 as [(? & _)|[(? & _)|(_ & z1 & p1 & Z1 & M1 & I1)]]; [contradiction|contradiction|].
  destruct V2 as [(? & _)|[(? & _)|(_ & z2 & p2 & Z2 & M2 & I2)]]; [contradiction|contradiction|].
  apply has_code_in, hash_said in C. destruct (said_built hash (m_code p) (z_raw z1) SH C) as (B1 & W1). destruct (said_built hash (m_code p) (z_raw z2) SH C) as (B2 & W2).
  rewrite B1 in M1. injection M1 as <-. rewrite B2 in M2. injection M2 as <-. destruct (wf_round _ W1) as (t1 & b1 & T1 & _ & X1 & _). destruct (wf_round _ W2) as (t2 & b2 & T2 & _ & X2 & _).
  rewrite T1 in I1. rewrite T2 in I2. rewrite <- I2 in I1. injection I1 as <-. rewrite X1 in X2. injection X2 as EH. destruct (beq (z_raw z1) (z_raw z2)) eqn:B.
  - apply beq_eq in B. right. unfold blanked in *. rewrite !insert_below in * by discriminate.
    set (e1 := insert (s! "d") (dummy (m_code p)) (insert (s! "i") (dummy (m_code p)) m1)) in *. set (e2 := insert (s! "d") (dummy (m_code p)) (insert (s! "i") (dummy (m_code p)) m2)) in *.
    assert (data (VObj ((s! "v", VStr vs1) :: e1)) /\ data (VObj ((s! "v", VStr vs2) :: e2))) as (DD1 & DD2).
    { split; [unfold e1|unfold e2]; rewrite <- !insert_below by discriminate; (apply data_insert; [apply data_insert; [assumption|reflexivity|apply data_dummy]|reflexivity|apply data_dummy]). }
    destruct (sized_v _ _ _ Z1) as (proto1 & n1 & v1 & n1' & S1 & S1' & R1). destruct (sized_v _ _ _ Z2) as (proto2 & n2 & v2 & n2' & S2 & S2' & R2).
    assert (forall vs v e proto n, data (VObj ((s! "v", VStr vs) :: e)) -> version_string v proto 1 0 n -> data (VObj ((s! "v", VStr v) :: e))) as DV.
    { clear. intros vs v e proto n D V. inversion D as [| | | | |? ND KK VV]; subst. apply data_obj; auto. cbn [map snd] in *. inversion VV; subst. constructor; auto.
      destruct (version_string_plain _ _ _ _ _ V) as (_ & A). apply data_str. now apply utf8_ascii. }
    assert (VObj ((s! "v", VStr v1) :: e1) = VObj ((s! "v", VStr v2) :: e2)) as EQ.
    { apply (C48_l _ _ []); eauto. congruence. }
    injection EQ as EV EE. subst v2. rewrite <- (version_proto _ _ _ _ _ S1' S2') in *. split; [eauto|].
    assert (forall m, without' [s! "d"] (without' [s! "i"] m) = without' [s! "d"] (without' [s! "i"] (insert (s! "d") (dummy (m_code p)) (insert (s! "i") (dummy (m_code p)) m)))) as G.
    { clear. intros m. set (D := dummy (m_code p)). rewrite <- (without_cons _ _ (insert _ _ _)), (without_perm2 (s! "i") (s! "d") (insert _ _ _)), (without_cons (s! "d") _ (insert _ _ _)), without_insert.
      rewrite <- (without_cons _ _ (insert _ _ _)), (without_perm2 (s! "d") (s! "i")), (without_cons (s! "i") _ (insert _ _ _)), without_insert. reflexivity. }
    change (without' [s! "i"; s! "d"] m1 = without' [s! "i"; s! "d"] m2). rewrite (without_cons (s! "i") [s! "d"] m1), (without_cons (s! "i") [s! "d"] m2).
    pose proof (G m1) as G1. pose proof (G m2) as G2. fold e1 in G1. fold e2 in G2. rewrite EE in G1. congruence.
  - left. exists (z_raw z1), (z_raw z2). split; [|exact EH]. intros E. rewrite E, beq_refl in B. discriminate.
Qed.

(*# C64_derivation_commits_to_nothing
   A prefix for a key that cannot be rotated is derived only from an event whose fields n, b and a are each missing or the empty text. So it names no next keys, no
   witnesses and no anchors.
##
Example C64_case : exists p, prefixer_new (fun _ _ => []) (Some (VObj [(s! "t", VStr (s! "icp")); (s! "k", VArr [VStr (s! "BAAAAAAAAAAAAAAAAAAAAAAAAAAAAAAAAAAAAAAAAAAA")]); (s! "n", VStr [])])) None
    (Some (s! "B")) None None None None = Ok p /\ m_code p = s! "B".
Proof. eexists. split; [vm_compute; reflexivity|]. reflexivity. Qed.
#*)
Lemma C64a_l (hash : bytes -> bytes -> bytes) (ked : value) (allows : option (list bytes)) (code : option bytes) (p : matter) :
  prefixer_new hash (Some ked) allows code None None None None = Ok p -> In (m_code p) fixed_keys -> forall k, In k [s! "n"; s! "b"; s! "a"] -> vacant ked k.
Proof.
  intros H C. destruct (derived _ _ _ _ _ H) as (_ & [(_ & _ & N & B & A)|[(CC & _)|(CC & _)]]).
  - intros k [<-|[<-|[<-|[]]]]; auto.
  - exfalso. clear -C CC. cbn in C, CC. intuition congruence.
  - exfalso. clear -C CC. cbn in C, CC. intuition congruence.
Qed.

(*# C64_verification_refuted
   False as stated for verification: a prefix for a key that cannot be rotated verifies against an event naming a witness and an anchor, even one it cannot be derived from.
#*)
Lemma C64_no_l : exists hash p m, built p /\ m_code p = s! "B" /\ field_of (VObj m) (s! "b") (VArr [VStr (s! "BAAAAAAAAAAAAAAAAAAAAAAAAAAAAAAAAAAAAAAAAAAA")]) /\
  field_of (VObj m) (s! "a") (VArr [VInt 1]) /\ prefixer_verify hash p (VObj m) (Some true) = Ok true /\
  is_err (prefixer_new hash (Some (VObj m)) None (Some (s! "B")) None None None None) = true.
Proof.
  exists (fun _ _ => []), (Mt (s! "B") 0 (zeros 32)), [(s! "t", VStr (s! "icp")); (s! "i", VStr (s! "BAAAAAAAAAAAAAAAAAAAAAAAAAAAAAAAAAAAAAAAAAAA"));
    (s! "k", VArr [VStr (s! "BAAAAAAAAAAAAAAAAAAAAAAAAAAAAAAAAAAAAAAAAAAA")]); (s! "b", VArr [VStr (s! "BAAAAAAAAAAAAAAAAAAAAAAAAAAAAAAAAAAAAAAAAAAA")]); (s! "a", VArr [VInt 1])].
  split; [exists (s! "B"), (zeros 32); split; [cbn; tauto|vm_compute; reflexivity]|]. split; [reflexivity|]. split; [apply field_assoc; reflexivity|]. split; [apply field_assoc; reflexivity|].
  split; [vm_compute; reflexivity|]. vm_compute. reflexivity.
Qed.

(*# C64_verification_partial
   A prefix for a key that cannot be rotated verifies against an event exactly when the event is an inception, the prefix is its only key (and its field i, if checked)
   and field n is not a non-empty list or text. Full statement: also no witnesses or anchors; see C64_verification_refuted.
##
Example C64_verified_case : prefixer_verify (fun _ _ => []) (Mt (s! "B") 0 (zeros 32))
    (VObj [(s! "t", VStr (s! "icp")); (s! "k", VArr [VStr (s! "BAAAAAAAAAAAAAAAAAAAAAAAAAAAAAAAAAAAAAAAAAAA")]); (s! "n", VArr [])]) None = Ok true /\
  prefixer_verify (fun _ _ => []) (Mt (s! "B") 0 (zeros 32))
    (VObj [(s! "t", VStr (s! "icp")); (s! "k", VArr [VStr (s! "BAAAAAAAAAAAAAAAAAAAAAAAAAAAAAAAAAAAAAAAAAAA")]); (s! "n", VArr [VStr (s! "x")])]) None = Ok false.
Proof. split; [vm_compute; reflexivity|]. vm_compute. reflexivity. Qed.
#*)
Lemma C64_l (hash : bytes -> bytes -> bytes) (p : matter) (ked : value) (prefixed : option bool) :
  In (m_code p) fixed_keys ->
  (prefixer_verify hash p ked prefixed = Ok true <->
   incepts ked /\ exists pre, infil p = Ok pre /\ sole_key ked pre /\ (prefixed = Some true -> field_of ked (s! "i") (VStr pre)) /\
   forall x, field_of ked (s! "n") x -> (forall y l, x <> VArr (y :: l)) /\ (forall c t, x <> VStr (c :: t))).
Proof.
  intros C. rewrite verified. apply and_iff_compat_l. split.
  - intros (q & m & Q & -> & H & [(_ & S & N)|[(CC & _)|(CC & _)]]).
    + exists q. split; auto. split; auto. split; [intros ->; now apply H|]. intros x F. split; intros y l ->; apply N; eexists; (split; [exact F|exact I]).
    + exfalso. clear -C CC. cbn in C, CC. intuition congruence.
    + exfalso. clear -C CC. cbn in C, CC. intuition congruence.
  - intros (q & Q & S & H & N). destruct (field_obj _ _ _ S) as (m & -> & _). exists q, m. split; auto. split; auto. split.
    + intros E. apply H. destruct prefixed as [[|]|]; auto; discriminate.
    + left. split; auto. split; auto. intros (x & F & X). apply N in F as (N1 & N2). destruct x as [| | | |[|]|[|]|]; try contradiction; [now eapply N2|now eapply N1].
Qed.

(*# C89_prefix_panics_refuted
   False as stated: deriving a prefix from, or verifying one against, data without a field t panics.
#*)
Lemma C89_no_l : (forall hash, prefixer_new hash (Some (VObj [])) None (Some (s! "E")) None None None None = Panic) /\
  exists p, built p /\ forall hash, prefixer_verify hash p (VObj []) None = Panic.
Proof.
  split; [reflexivity|]. exists (Mt (s! "E") 0 (zeros 32)). split; [exists (s! "E"), (zeros 32); split; [cbn; tauto|vm_compute; reflexivity]|]. reflexivity.
Qed.
Lemma infil_built p : built p -> exists q, infil p = Ok q.
Proof. intros B. apply built_wf in B. destruct (wf_round _ B) as (q & _ & Q & _). eauto. Qed.
Lemma prefix_field_np m q pf : prefix_field (VObj m) m q pf <> Panic.
Proof.
  unfold prefix_field. destruct pf; [|discriminate]. unfold contains_key. cbn [index_str]. destruct (assoc (s! "i") m); [|discriminate]. cbn [negb]. rewrite bind_Ok.
  apply bind_np'; [apply to_string_np|discriminate].
Qed.
Lemma key_field_np m q : key_field (VObj m) m q <> Panic.
Proof.
  unfold key_field. unfold contains_key. cbn [index_str]. destruct (assoc (s! "k") m); [|discriminate]. cbn [negb]. rewrite bind_Ok.
  apply bind_np'; [destruct v; discriminate|]. intros l _. destruct l as [|x [|]]; try discriminate. apply bind_np'; [apply to_string_np|discriminate].
Qed.
Lemma sized_np m code : In code hash_codes -> forall hash, derive_digest hash (VObj m) code <> Panic.
Proof. intros C hash. apply has_code_in in C. rewrite derive_digest_eq by auto. apply bind_np'; [apply sizeify_np|discriminate]. Qed.
Lemma raw_fixed_np code raw n : In (code, n) fixed_codes -> matter_of_code_raw code raw <> Panic.
Proof. intros F. destruct (fixed_known _ _ F) as (z & Hz & Ev & _). rewrite (construct_fixed _ z _ Hz Ev). destruct (_ <? _); discriminate. Qed.

(*# C89_verify_panics_exactly
   Verifying a prefix panics exactly when the data verified against have no field t.
##
Example C89_verify_case : prefixer_verify (fun _ _ => []) (Mt (s! "E") 0 (zeros 32)) (VObj [(s! "t", VStr (s! "rot"))]) None = Err EValue.
Proof. vm_compute. reflexivity. Qed.
#*)
Lemma C89a_l (hash : bytes -> bytes -> bytes) (p : matter) (ked : value) (prefixed : option bool) :
  built p -> (prefixer_verify hash p ked prefixed = Panic <-> lacks ked (s! "t")).
Proof.
  intros B. destruct (infil_built p B) as (q & Q). unfold prefixer_verify. cbv zeta. destruct (index_str ked (s! "t")) as [t| |] eqn:T.
  - split; [|intros L; apply index_lacks in L; congruence]. intros H. exfalso. rewrite bind_Ok in H. apply index_field in T as T'. apply field_obj in T' as (m & -> & _). revert H.
    apply bind_np'; [apply to_string_np|]. intros ilk _. destruct (negb _); [discriminate|]. rewrite Q, !bind_Ok. set (pf := or_else prefixed false).
    destruct (has_code basic_codes (m_code p)); [|destruct (has_code rotating_codes (m_code p)); [|destruct (has_code hash_codes (m_code p)) eqn:HC]].
    + unfold verify_nontransferable. cbn [to_map]. rewrite bind_Ok. apply bind_np'; [apply key_field_np|]. intros [|] _; [|discriminate]. cbn [negb]. apply bind_np'; [apply prefix_field_np|].
      intros [|] _; [|discriminate]. cbn [negb]. unfold contains_key. cbn [index_str]. destruct (assoc (s! "n") m) as [x|]; [|discriminate]. rewrite bind_Ok. destruct x as [| | | |[|]|[|]|]; discriminate.
    + unfold verify_transferable. cbn [to_map]. rewrite bind_Ok. apply bind_np'; [apply key_field_np|]. intros [|] _; [|discriminate]. apply prefix_field_np.
    + unfold verify_digest. apply has_code_in in HC. apply bind_np'; [now apply sized_np|]. intros rc R. apply has_code_in in HC. rewrite derive_digest_eq in R by auto. apply bind_ok in R as (z & _ & R). injection R as <-.
      cbn [fst snd]. pose proof HC as HC'. apply hash_said, said_code_size in HC' as (n & HC'). apply said_code_fixed in HC'.
      destruct (fixed_known _ _ HC') as (s & Hs & Ev & _). unfold diger_new. cbn [matter_new]. destruct (matter_of_code_raw _ _) as [p'|e|] eqn:M.
      * pose proof (construct_wf' _ _ _ _ Hs M) as W. destruct (wf_round _ W) as (q' & _ & Q' & _). apply bind_np'; [apply bind_np'; [apply validate_np|discriminate]|].
        intros p2 V. apply bind_ok in V as (u & _ & V). injection V as <-. rewrite Q', bind_Ok. destruct (negb _); [discriminate|]. cbn [to_map]. rewrite bind_Ok. apply prefix_field_np.
      * discriminate.
      * now apply (raw_fixed_np _ _ _ HC') in M.
    + discriminate.
  - exfalso. destruct ked; try discriminate. cbn [index_str] in T. destruct (assoc _ _); discriminate.
  - split; [|reflexivity]. intros _. now apply index_lacks.
Qed.
(*# C89_derivation_panics_partial
   Deriving a prefix panics only if the data have no field t, or if parsing the text of field i or of the only key panics. Full statement: never; see
   C89_prefix_panics_refuted.
##
Example C89_derive_case : prefixer_new (fun _ _ => []) (Some VNull) None None None None None None = Err EConversion /\
  prefixer_new (fun _ _ => []) (Some (VObj [(s! "t", VNull)])) None (Some (s! "E")) None None None None = Err EConversion.
Proof. split; reflexivity. Qed.
#*)
Lemma C89_l (hash : bytes -> bytes -> bytes) (ked : option value) (allows : option (list bytes)) (code : option bytes) :
  prefixer_new hash ked allows code None None None None = Panic ->
  exists v, ked = Some v /\ (lacks v (s! "t") \/ exists t, (field_of v (s! "i") (VStr t) \/ sole_key v t) /\ exfil t = Panic).
Proof.
  intros H. unfold prefixer_new in H. destruct ked as [v|]; [|discriminate]. exists v. split; auto.
  apply bind_panic in H as [H|(c & _ & H)].
  { destruct code; [discriminate|]. right. apply bind_panic in H as [H|(m & M & H)]; [destruct v; discriminate|]. destruct v as [| | | | | |m']; try discriminate. injection M as ->.
    unfold contains_key in H. cbn [index_str] in H. destruct (assoc (s! "i") m) as [x|] eqn:A; [|discriminate]. cbn [negb] in H. rewrite bind_Ok in H.
    apply bind_panic in H as [H|(t & T & H)]; [now apply to_string_np in H|]. destruct x; try discriminate. injection T as ->. exists t. split; [left; now apply field_assoc|].
    cbn [matter_new] in H. destruct (exfil t); (discriminate || reflexivity). }
  apply bind_panic in H as [H|(u & _ & H)]; [now apply validate_np in H|]. cbv zeta in H. destruct (negb _); [discriminate|].
  destruct (index_str v (s! "t")) as [x| |] eqn:T; [| |left; now apply index_lacks].
  2: { destruct v; try discriminate. cbn [index_str] in T. destruct (assoc _ _); discriminate. }
  right. apply index_field in T as T'. apply field_obj in T' as (m & -> & _).
  assert (only_key (VObj m) = Panic -> exists t, (field_of (VObj m) (s! "i") (VStr t) \/ sole_key (VObj m) t) /\ exfil t = Panic) as OK.
  { clear. unfold only_key. cbn [to_map]. rewrite bind_Ok. unfold contains_key. cbn [index_str]. destruct (assoc (s! "k") m) as [x|] eqn:A; [|discriminate]. rewrite bind_Ok.
    intros H. apply bind_panic in H as [H|(l & L & H)]; [destruct x; discriminate|]. destruct x; try discriminate. injection L as ->. destruct l as [|y [|]]; try discriminate.
    apply bind_panic in H as [H|(t & L & H)]; [now apply to_string_np in H|]. destruct y; try discriminate. injection L as ->. exists t. split; [right; now apply field_assoc|].
    unfold verfer_new in H. change (matter_new (Some (or_else None (s! "B"))) None None (Some t) None) with (exfil t) in H. apply bind_panic in H as [H|(v & _ & H)]; auto.
    apply bind_panic in H as [H|(u & _ & H)]; [now apply validate_np in H|discriminate]. }
  assert (forall k, unset (VObj m) k <> Panic) as UN.
  { clear. intros k. unfold unset. cbn [to_map]. rewrite bind_Ok. unfold contains_key. cbn [index_str]. destruct (assoc k m) as [x|]; [|discriminate]. rewrite bind_Ok.
    apply bind_np'; [apply to_string_np|]. intros [|] _; discriminate. }
  apply bind_panic in H as [H|(rc & D & H)].
  - unfold derive in H. rewrite T, bind_Ok in H. apply bind_panic in H as [H|(ilk & _ & H)]; [now apply to_string_np in H|]. destruct (negb _); [discriminate|].
    destruct (has_code basic_codes c); [|destruct (has_code rotating_codes c); [|destruct (has_code hash_codes c) eqn:HC; [|discriminate]]].
    + unfold derive_nontransferable in H. apply bind_panic in H as [H|(w & _ & H)]; auto. destruct (negb _); [discriminate|].
      apply bind_panic in H as [H|(? & _ & H)]; [now apply UN in H|]. apply bind_panic in H as [H|(? & _ & H)]; [now apply UN in H|]. apply bind_panic in H as [H|(? & _ & H)]; [now apply UN in H|discriminate].
    + unfold derive_transferable in H. apply bind_panic in H as [H|(w & _ & H)]; auto. destruct (negb _); discriminate.
    + apply has_code_in in HC. now apply (sized_np m c HC hash) in H.
  - exfalso. revert H. cbn [matter_new]. unfold derive in D. apply incepts_iff in D as (_ & D).
    destruct (has_code basic_codes c) eqn:B; [|destruct (has_code rotating_codes c) eqn:C; [|destruct (has_code hash_codes c) eqn:E; [|discriminate]]].
    + unfold derive_nontransferable in D. apply bind_ok in D as (w & _ & D). destruct (beq (m_code w) c) eqn:BC; [|discriminate]. apply beq_eq in BC. cbn [negb] in D.
      apply bind_ok in D as (? & _ & D). apply bind_ok in D as (? & _ & D). apply bind_ok in D as (? & _ & D). injection D as <-. cbn [fst snd]. rewrite BC.
      apply has_code_in in B. destruct (key_fixed c) as (n & F); [apply in_or_app; now left|]. now apply (raw_fixed_np _ _ n).
    + unfold derive_transferable in D. apply bind_ok in D as (w & _ & D). destruct (beq (m_code w) c) eqn:BC; [|discriminate]. apply beq_eq in BC. cbn [negb] in D.
      injection D as <-. cbn [fst snd]. rewrite BC. apply has_code_in in C. destruct (key_fixed c) as (n & F); [apply in_or_app; now right|]. now apply (raw_fixed_np _ _ n).
    + rewrite derive_digest_eq in D by auto. apply bind_ok in D as (z & _ & D). injection D as <-. cbn [fst snd]. apply hash_said, said_code_size in E as (n & E). apply said_code_fixed in E.
      now apply (raw_fixed_np _ _ n).
Qed.

Lemma prefix_code_in c : validate prefix_codes c = Ok tt <-> In c (fixed_keys ++ rotatable_keys ++ map fst digest_sizes).
Proof.
  assert (In c prefix_codes <-> In c (fixed_keys ++ rotatable_keys ++ map fst digest_sizes)) as Q.
  { unfold prefix_codes, basic_codes, rotating_codes, hash_codes, fixed_keys, rotatable_keys, digest_sizes. cbn [app map fst In]. tauto. }
  rewrite <- Q, <- has_code_in. unfold validate. destruct (has_code prefix_codes c); split; auto; discriminate.
Qed.
Lemma only_key_panics m : only_key (VObj m) = Panic <-> exists k, sole_key (VObj m) k /\ exfil k = Panic.
Proof.
  split.
  - unfold only_key. cbn [to_map]. rewrite bind_Ok. unfold contains_key. cbn [index_str]. destruct (assoc (s! "k") m) as [x|] eqn:A; [|discriminate]. rewrite bind_Ok.
    intros H. apply bind_panic in H as [H|(l & L & H)]; [destruct x; discriminate|]. destruct x; try discriminate. injection L as ->. destruct l as [|y [|]]; try discriminate.
    apply bind_panic in H as [H|(t & L & H)]; [now apply to_string_np in H|]. destruct y; try discriminate. injection L as ->. exists t. split; [now apply field_assoc|].
    unfold verfer_new in H. change (matter_new (Some (or_else None (s! "B"))) None None (Some t) None) with (exfil t) in H. apply bind_panic in H as [H|(v & _ & H)]; auto.
    apply bind_panic in H as [H|(u & _ & H)]; [now apply validate_np in H|discriminate].
  - intros (k & F & E). apply field_assoc in F. unfold only_key. cbn [to_map]. rewrite bind_Ok. unfold contains_key. cbn [index_str]. rewrite F, bind_Ok. cbn [to_vec bind to_string].
    unfold verfer_new. change (matter_new (Some (or_else None (s! "B"))) None None (Some k) None) with (exfil k). now rewrite E.
Qed.
(*# C89_derivation_panics_exactly
   Exactly when deriving a prefix panics. Without a code given, if parsing the text of field i panics. Otherwise, with the code given or the one that text
   has: it must be a prefix code and an allowed one; then a missing field t panics, and so does, for a key code and an inception event, a sole key whose
   text panics when it is parsed. Nothing else does.
##
Example C89_exactly_case : prefixer_new (fun _ _ => []) (Some VNull) None (Some (s! "E")) None None None None = Panic /\
  prefixer_new (fun _ _ => []) (Some VNull) (Some [s! "D"]) (Some (s! "E")) None None None None = Err EUnexpectedCode.
Proof. split; reflexivity. Qed.
#*)
Lemma C89_exact_l (hash : bytes -> bytes -> bytes) (ked : option value) (allows : option (list bytes)) (code : option bytes) :
  prefixer_new hash ked allows code None None None None = Panic <->
  exists v, ked = Some v /\
    ((code = None /\ exists t, field_of v (s! "i") (VStr t) /\ exfil t = Panic) \/
     exists c, (code = Some c \/ code = None /\ exists t m, field_of v (s! "i") (VStr t) /\ exfil t = Ok m /\ m_code m = c) /\
       In c (fixed_keys ++ rotatable_keys ++ map fst digest_sizes) /\ (forall l, allows = Some l -> l = [] \/ In c l) /\
       (lacks v (s! "t") \/ In c (fixed_keys ++ rotatable_keys) /\ incepts v /\ exists k, sole_key v k /\ exfil k = Panic)).
Proof.
  split.
  - intros H. unfold prefixer_new in H. destruct ked as [v|]; [|discriminate]. exists v. split; auto.
    apply bind_panic in H as [H|(c & CC & H)].
    { destruct code; [discriminate|]. left. split; auto. apply bind_panic in H as [H|(m & M & H)]; [destruct v; discriminate|]. destruct v as [| | | | | |m']; try discriminate. injection M as ->.
      unfold contains_key in H. cbn [index_str] in H. destruct (assoc (s! "i") m) as [x|] eqn:A; [|discriminate]. cbn [negb] in H. rewrite bind_Ok in H.
      apply bind_panic in H as [H|(t & T & H)]; [now apply to_string_np in H|]. destruct x; try discriminate. injection T as ->. exists t. split; [now apply field_assoc|].
      cbn [matter_new] in H. destruct (exfil t); (discriminate || reflexivity). }
    right. exists c. split.
    { destruct code as [c'|]; [left; congruence|]. right. split; auto. apply bind_ok in CC as (m & M & CC). destruct v as [| | | | | |m']; try discriminate. injection M as ->.
      unfold contains_key in CC. cbn [index_str] in CC. destruct (assoc (s! "i") m) as [x|] eqn:A; [|discriminate]. cbn [negb] in CC. rewrite bind_Ok in CC.
      apply bind_ok in CC as (t & T & CC). destruct x; try discriminate. injection T as ->. apply bind_ok in CC as (mm & MM & CC). injection CC as CC. exists t, mm. split; [now apply field_assoc|]. auto. }
    apply bind_panic in H as [H|(u & V & H)]; [now apply validate_np in H|]. destruct u. apply prefix_code_in in V. split; auto. cbv zeta in H.
    destruct (match or_else allows [] with [] => true | _ => has_code (or_else allows []) c end) eqn:AL; [|discriminate]. cbn [negb] in H. split.
    { intros l ->. cbn [or_else] in AL. destruct l; auto. right. now apply has_code_in in AL. }
    destruct (index_str v (s! "t")) as [x| |] eqn:T; [| |left; now apply index_lacks].
    2: { destruct v; try discriminate. cbn [index_str] in T. destruct (assoc _ _); discriminate. }
    right. apply index_field in T as T'. apply field_obj in T' as (m & -> & _).
    assert (forall k, unset (VObj m) k <> Panic) as UN.
    { clear. intros k. unfold unset. cbn [to_map]. rewrite bind_Ok. unfold contains_key. cbn [index_str]. destruct (assoc k m) as [x|]; [|discriminate]. rewrite bind_Ok.
      apply bind_np'; [apply to_string_np|]. intros [|] _; discriminate. }
    apply bind_panic in H as [H|(rc & D & H)].
    + unfold derive in H. rewrite T, bind_Ok in H. apply bind_panic in H as [H|(ilk & I & H)]; [now apply to_string_np in H|]. destruct (has_code inceptions ilk) eqn:IC; [|discriminate]. cbn [negb] in H.
      assert (incepts (VObj m)) as INC. { exists ilk. split; [|now apply has_code_in in IC]. apply index_field. destruct x; try discriminate. now injection I as ->. }
      destruct (has_code basic_codes c) eqn:BC; [|destruct (has_code rotating_codes c) eqn:RC; [|destruct (has_code hash_codes c) eqn:HC; [|discriminate]]].
      * apply has_code_in in BC. split; [apply in_or_app; now left|]. split; auto. apply only_key_panics.
        unfold derive_nontransferable in H. apply bind_panic in H as [H|(w & _ & H)]; auto. destruct (negb _); [discriminate|].
        apply bind_panic in H as [H|(? & _ & H)]; [now apply UN in H|]. apply bind_panic in H as [H|(? & _ & H)]; [now apply UN in H|]. apply bind_panic in H as [H|(? & _ & H)]; [now apply UN in H|discriminate].
      * apply has_code_in in RC. split; [apply in_or_app; now right|]. split; auto. apply only_key_panics.
        unfold derive_transferable in H. apply bind_panic in H as [H|(w & _ & H)]; auto. destruct (negb _); discriminate.
      * apply has_code_in in HC. now apply (sized_np m c HC hash) in H.
    + exfalso. revert H. cbn [matter_new]. unfold derive in D. apply incepts_iff in D as (_ & D).
      destruct (has_code basic_codes c) eqn:B; [|destruct (has_code rotating_codes c) eqn:C; [|destruct (has_code hash_codes c) eqn:E; [|discriminate]]].
      * unfold derive_nontransferable in D. apply bind_ok in D as (w & _ & D). destruct (beq (m_code w) c) eqn:BC; [|discriminate]. apply beq_eq in BC. cbn [negb] in D.
        apply bind_ok in D as (? & _ & D). apply bind_ok in D as (? & _ & D). apply bind_ok in D as (? & _ & D). injection D as <-. cbn [fst snd]. rewrite BC.
        apply has_code_in in B. destruct (key_fixed c) as (n & F); [apply in_or_app; now left|]. now apply (raw_fixed_np _ _ n).
      * unfold derive_transferable in D. apply bind_ok in D as (w & _ & D). destruct (beq (m_code w) c) eqn:BC; [|discriminate]. apply beq_eq in BC. cbn [negb] in D.
        injection D as <-. cbn [fst snd]. rewrite BC. apply has_code_in in C. destruct (key_fixed c) as (n & F); [apply in_or_app; now right|]. now apply (raw_fixed_np _ _ n).
      * rewrite derive_digest_eq in D by auto. apply bind_ok in D as (z & _ & D). injection D as <-. cbn [fst snd]. apply hash_said, said_code_size in E as (n & E). apply said_code_fixed in E.
        now apply (raw_fixed_np _ _ n).
  - intros (v & -> & [(-> & t & F & E)|(c & CC & IC & AL & P)]).
    { unfold prefixer_new. apply field_obj in F as (m & -> & A). cbn [to_map]. rewrite bind_Ok. unfold contains_key. cbn [index_str]. rewrite A. cbn [negb bind to_string matter_new]. now rewrite E. }
    apply prefix_code_in in IC. unfold prefixer_new.
    match goal with |- bind ?e _ = _ => replace e with (@Ok bytes c) end.
    2: { destruct CC as [->|(-> & t & m & F & E & <-)]; [reflexivity|]. apply field_obj in F as (mm & -> & A). cbn [to_map]. rewrite bind_Ok. unfold contains_key. cbn [index_str]. rewrite A.
         cbn [negb bind to_string matter_new]. now rewrite E. }
    rewrite bind_Ok, IC, bind_Ok. cbv zeta.
    replace (match or_else allows [] with [] => true | _ => has_code (or_else allows []) c end) with true.
    2: { destruct allows as [l|]; [|reflexivity]. cbn [or_else]. destruct (AL l eq_refl) as [->|I]; [reflexivity|]. destruct l; [reflexivity|]. symmetry. now apply has_code_in. }
    cbn [negb]. destruct P as [L|(KC & (t & T & IN) & K)].
    + apply index_lacks in L. unfold derive. now rewrite L.
    + apply index_field in T as T'. unfold derive. rewrite T'. cbn [bind to_string]. apply has_code_in in IN. change [s! "icp"; s! "dip"; s! "vcp"] with inceptions in IN. rewrite IN. cbn [negb].
      apply field_obj in T as (m & -> & _). apply only_key_panics in K. unfold derive_nontransferable, derive_transferable. rewrite K. cbn [bind].
      apply in_app_or in KC as [KC|KC].
      * change fixed_keys with basic_codes in KC. apply has_code_in in KC. now rewrite KC.
      * change rotatable_keys with rotating_codes in KC. apply has_code_in in KC. rewrite KC. now destruct (has_code basic_codes c).
Qed.
