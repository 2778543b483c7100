(** Proofs about Matter parsing and printing. *)
From Coq Require Import NArith ZArith Bool List Lia ZifyBool ZifyNat ZifyN.
From Verif Require Import Base BaseFacts B64 B64Facts Util UtilFacts Tables Matter.
Import ListNotations.
Open Scope N_scope.
Ltac Zify.zify_post_hook ::= Z.div_mod_to_equations.

(** ** The table *)
Definition var (z : sizage) : bool := fs z =? u32_max.

Definition entry_ok (e : bytes * sizage) : bool :=
  let '(c, z) := e in
  (len c =? hs z) && is_b64s c &&
  match c with
  | [] => false
  | f :: _ =>
    match hardage f with Ok h => h =? hs z | _ => false end &&
    match b64_index f with
    | Some i => match bardage i with Ok h => h =? hs z | _ => false end
    | None => false
    end
  end &&
  if var z then
    (((hs z =? 2) && (ss z =? 2)) || ((hs z =? 4) && (ss z =? 4))) && (ls z <=? 2)
  else
    (ss z =? 0) && (fs z mod 4 =? 0) && (fs z <? 1000) && (hs z <? fs z)
    && ((hs z =? 1) || (hs z =? 2) || (hs z =? 4)) && (ls z <=? 2) && ((ls z =? 0) || (hs z =? 4))
    && (ls z <=? (fs z - hs z) * 3 / 4).

Lemma lookup_In {A} (t : list (bytes * A)) k v : lookup t k = Some v -> In (k, v) t.
Proof.
  induction t as [|(c, w) t IH]; simpl; try discriminate.
  destruct (beq c k) eqn:E; auto. intros H. inversion H; subst. apply beq_eq in E. subst. now left.
Qed.

Lemma matter_table_ok : forallb entry_ok matter_table = true.
Proof. vm_compute. reflexivity. Qed.

Lemma lookup_entry_ok c z : lookup matter_table c = Some z -> entry_ok (c, z) = true.
Proof. intros H. apply lookup_In in H. exact (proj1 (forallb_forall _ _) matter_table_ok _ H). Qed.

Record table_facts (c : bytes) (z : sizage) : Prop := {
  tf_len : len c = hs z;
  tf_b64 : is_b64s c = true;
  tf_first : exists f r i, c = f :: r /\ hardage f = Ok (hs z) /\ b64_index f = Some i /\ bardage i = Ok (hs z);
  tf_hs : hs z = 1 \/ hs z = 2 \/ hs z = 4;
  tf_ls : ls z <= 2;
  tf_var : var z = true -> (hs z = 2 /\ ss z = 2) \/ (hs z = 4 /\ ss z = 4);
  tf_fix : var z = false -> ss z = 0 /\ fs z mod 4 = 0 /\ fs z < 1000 /\ hs z < fs z /\ (ls z = 0 \/ hs z = 4)
                            /\ ls z <= (fs z - hs z) * 3 / 4;
}.

Lemma lookup_facts c z : lookup matter_table c = Some z -> table_facts c z.
Proof.
  intros H. apply lookup_entry_ok in H. unfold entry_ok in H.
  apply andb_true_iff in H as [H H3]. apply andb_true_iff in H as [H H2]. apply andb_true_iff in H as [H0 H1].
  destruct c as [|f r]; try discriminate.
  apply andb_true_iff in H2 as [H2 H4].
  destruct (hardage f) as [h| |] eqn:Eh; try discriminate.
  destruct (b64_index f) as [i|] eqn:Ei; try discriminate.
  destruct (bardage i) as [h'| |] eqn:Eh'; try discriminate.
  destruct (var z) eqn:Ev.
  - constructor; auto; try (intros; congruence); try (intros; lia).
    exists f, r, i. repeat split; auto; rewrite ?Eh, ?Eh'; f_equal; lia.
  - constructor; auto; try (intros; congruence); try (intros; lia).
    exists f, r, i. repeat split; auto; rewrite ?Eh, ?Eh'; f_equal; lia.
Qed.

Lemma sizage_of_ok c z : sizage_of c = Ok z <-> lookup matter_table c = Some z.
Proof. unfold sizage_of. destruct (lookup matter_table c); split; intros H; inversion H; auto. Qed.
Lemma sizage_of_np c : sizage_of c <> Panic.
Proof. unfold sizage_of. destruct (lookup matter_table c); discriminate. Qed.

(** ** Well-formed primitives and their text and binary *)
Definition raw_len_ok (m : matter) (z : sizage) : Prop :=
  if var z then m_size m < 64 ^ ss z /\ ls z + len (m_raw m) = 3 * m_size m
  else m_size m = 0 /\ len (m_raw m) = (fs z - hs z) * 3 / 4 - ls z.

(** A primitive whose code is in the table and whose raw has the size the code (and size) prescribe. *)
Definition wf_matter (m : matter) : Prop :=
  exists z, lookup matter_table (m_code m) = Some z /\ raw_len_ok m z.

Definition mfs (m : matter) (z : sizage) : N := if var z then hs z + ss z + 4 * m_size m else fs z.
Definition pad (z : sizage) : N := (hs z + ss z) mod 4.
Definition mboth (m : matter) (z : sizage) : bytes :=
  m_code m ++ (if var z then b64_digits (N.to_nat (ss z)) (m_size m) else []).
Definition mtext (m : matter) (z : sizage) : bytes :=
  mboth m z ++ drop (pad z) (encode (zeros (pad z + ls z) ++ m_raw m)).

Lemma len_mboth m z : lookup matter_table (m_code m) = Some z -> len (mboth m z) = hs z + ss z.
Proof.
  intros H. pose proof (lookup_facts _ _ H) as F. unfold mboth. rewrite len_app, (tf_len _ _ F).
  destruct (var z) eqn:Ev.
  - rewrite len_b64_digits. lia.
  - change (len (@nil byte)) with 0. destruct (tf_fix _ _ F Ev). lia.
Qed.

Lemma mboth_b64 m z : lookup matter_table (m_code m) = Some z -> is_b64s (mboth m z) = true.
Proof.
  intros H. pose proof (lookup_facts _ _ H) as F. unfold mboth. rewrite is_b64s_app, (tf_b64 _ _ F).
  destruct (var z); auto. now rewrite is_b64s_digits.
Qed.

Lemma pad_le z c : table_facts c z -> pad z <= 2 /\ (var z = true -> pad z = 0) /\ (0 < ls z -> pad z = 0).
Proof.
  intros F. unfold pad. destruct (var z) eqn:Ev.
  - destruct (tf_var _ _ F Ev) as [[-> ->]|[-> ->]]; repeat split; vm_compute; try discriminate; auto.
  - destruct (tf_fix _ _ F Ev) as (-> & H). pose proof (tf_hs _ _ F). repeat split; try discriminate; lia.
Qed.

Lemma raw_total m z : lookup matter_table (m_code m) = Some z -> raw_len_ok m z ->
  4 * (pad z + ls z + len (m_raw m)) = 3 * (mfs m z - (hs z + ss z) + pad z) /\ hs z + ss z <= mfs m z /\ mfs m z mod 4 = 0.
Proof.
  intros H W. pose proof (lookup_facts _ _ H) as F. pose proof (pad_le _ _ F) as (P1 & P2 & P3).
  unfold raw_len_ok, mfs in *. destruct (var z) eqn:Ev.
  - rewrite P2 by auto. destruct (tf_var _ _ F Ev); lia.
  - destruct (tf_fix _ _ F Ev) as (E & H1 & H2 & H3 & H4 & H5). unfold pad in *. rewrite E in *.
    pose proof (tf_hs _ _ F). lia.
Qed.

Lemma raw_mod3 m z : lookup matter_table (m_code m) = Some z -> raw_len_ok m z ->
  (pad z + ls z + len (m_raw m)) mod 3 = 0.
Proof. intros H W. destruct (raw_total m z H W) as (A & B & C). lia. Qed.

Lemma len_mtext m z : lookup matter_table (m_code m) = Some z -> raw_len_ok m z -> len (mtext m z) = mfs m z.
Proof.
  intros H W. pose proof (raw_total m z H W) as (A & B & C). pose proof (raw_mod3 m z H W) as D.
  unfold mtext. rewrite len_app, len_mboth by auto. rewrite len_drop, len_encode, len_app, len_zeros. lia.
Qed.

Lemma is_b64s_drop n l : is_b64s l = true -> is_b64s (drop n l) = true.
Proof. intros H. rewrite <- (take_drop n l), is_b64s_app in H. now apply andb_true_iff in H. Qed.
Lemma is_b64s_take n l : is_b64s l = true -> is_b64s (take n l) = true.
Proof. intros H. rewrite <- (take_drop n l), is_b64s_app in H. now apply andb_true_iff in H. Qed.

Lemma mtext_b64 m z : lookup matter_table (m_code m) = Some z -> raw_len_ok m z -> is_b64s (mtext m z) = true.
Proof.
  intros H W. unfold mtext. rewrite is_b64s_app, mboth_b64 by auto. apply is_b64s_drop, encode_b64s.
  rewrite len_app, len_zeros. pose proof (raw_mod3 m z H W). exact H0.
Qed.

(** ** Printing *)
Lemma pow64_small k : k <= 5 -> pow64_u32 k = Ok (64 ^ k).
Proof.
  intros H. unfold pow64_u32. assert (64 ^ k <= 64 ^ 5) by (apply N.pow_le_mono_r; lia).
  change (64 ^ 5) with 1073741824 in *. replace (64 ^ k <=? u32_max) with true; auto. unfold u32_max. lia.
Qed.

Lemma u32_sub_ok a b c : u32_sub a b = Ok c <-> b <= a /\ c = a - b.
Proof. unfold u32_sub. destruct (b <=? a) eqn:E; split; intros H; try discriminate; try (inversion H; lia).
  - destruct H as [_ ->]. reflexivity.
Qed.
Lemma u32_sub_in a b : b <= a -> u32_sub a b = Ok (a - b).
Proof. intros H. now apply u32_sub_ok. Qed.

Lemma from_str_encode l n : n <= len (encode l) -> from_str (encode l) n = Ok (drop n (encode l)).
Proof. intros H. apply from_str_ascii; auto. apply encode_ascii. Qed.

Lemma infil_wf m z : lookup matter_table (m_code m) = Some z -> raw_len_ok m z -> infil m = Ok (mtext m z).
Proof.
  intros H W. pose proof (lookup_facts _ _ H) as F. pose proof (pad_le _ _ F) as (P1 & P2 & P3).
  pose proof (raw_mod3 m z H W) as D. pose proof (raw_total m z H W) as (A & B & C).
  pose proof (tf_ls _ _ F) as Hl.
  unfold infil. rewrite (proj2 (sizage_of_ok _ _) H), bind_Ok. cbv zeta. fold (var z).
  pose proof W as W'. unfold raw_len_ok in W'. destruct (var z) eqn:Ev.
  - destruct W' as [Ws Wr]. specialize (P2 eq_refl). fold (pad z). rewrite P2. cbn [negb N.eqb].
    change (negb (0 =? 0)) with false. cbv iota.
    assert (ss z <= 4) as Hss by (destruct (tf_var _ _ F Ev); lia).
    rewrite pow64_small by lia. rewrite bind_Ok.
    replace (64 ^ ss z - 1 <? m_size m) with false by lia.
    rewrite uint_to_b64_exact by lia.
    assert (m_code m ++ b64_digits (N.to_nat (ss z)) (m_size m) = mboth m z) as Eb by (unfold mboth; now rewrite Ev).
    rewrite Eb, len_mboth by auto. fold (pad z). rewrite P2.
    assert ((3 - len (m_raw m) mod 3) mod 3 = ls z) as -> by lia.
    rewrite N.sub_diag, N.ltb_irrefl, N.leb_refl. change (negb (0 =? 0)) with false. cbn [andb orb].
    rewrite len_app, len_zeros. rewrite P2 in D. replace ((ls z + len (m_raw m)) mod 3) with 0 by lia.
    change (negb (0 =? 0)) with false. cbv iota. unfold mtext. rewrite P2, drop_0, N.add_0_l. reflexivity.
  - destruct W' as [Ws Wr]. destruct (tf_fix _ _ F Ev) as (E1 & E2 & E3 & E4 & E5 & E6).
    assert (len (m_code m) mod 4 = pad z) as -> by (unfold pad; rewrite (tf_len _ _ F), E1; lia).
    assert ((3 - len (m_raw m) mod 3) mod 3 = pad z + ls z) as -> by lia.
    rewrite u32_sub_in by lia. rewrite bind_Ok. replace (pad z + ls z - ls z) with (pad z) by lia.
    rewrite N.eqb_refl. cbn [negb]. rewrite len_app, len_zeros, D. change (negb (0 =? 0)) with false. cbv iota.
    rewrite from_str_encode.
    + rewrite bind_Ok. unfold mtext, mboth. rewrite Ev, app_nil_r. reflexivity.
    + rewrite len_encode, len_app, len_zeros. lia.
Qed.

Lemma mtext_ascii m z : lookup matter_table (m_code m) = Some z -> raw_len_ok m z -> ascii (mtext m z) = true.
Proof. intros. now apply is_b64s_ascii, mtext_b64. Qed.

(** ** Parsing text *)
Lemma u32_mul_in a b : a * b <= u32_max -> u32_mul a b = Ok (a * b).
Proof. intros H. unfold u32_mul. apply N.leb_le in H. now rewrite H. Qed.
Lemma u32_add_in a b : a + b <= u32_max -> u32_add a b = Ok (a + b).
Proof. intros H. unfold u32_add. apply N.leb_le in H. now rewrite H. Qed.

Lemma exfil_mtext m z rest : lookup matter_table (m_code m) = Some z -> raw_len_ok m z -> utf8 rest = true ->
  exfil (mtext m z ++ rest) = Ok m.
Proof.
  intros H W Hu. pose proof (lookup_facts _ _ H) as F. pose proof (pad_le _ _ F) as (P1 & P2 & P3).
  pose proof (raw_mod3 m z H W) as D. pose proof (raw_total m z H W) as (A & B & C).
  pose proof (tf_ls _ _ F) as Hl. pose proof (len_mtext m z H W) as Lt.
  pose proof (mtext_ascii m z H W) as Ha. pose proof (len_mboth m z H) as Lb.
  destruct (tf_first _ _ F) as (f & r & i & Ec & Ehard & _ & _).
  assert (exists t, mtext m z ++ rest = f :: t) as (t & Et).
  { unfold mtext, mboth. rewrite Ec. cbn [app]. eauto. }
  unfold exfil. rewrite Et. rewrite <- Et. rewrite Ehard, bind_Ok.
  assert (len (mtext m z ++ rest) = mfs m z + len rest) as LL by (rewrite len_app, Lt; reflexivity).
  rewrite LL. replace (mfs m z + len rest <? hs z) with false by lia.
  rewrite slice_str_ascii_prefix by (auto; lia). rewrite bind_Ok, drop_0, N.sub_0_r.
  assert (take (hs z) (mtext m z) = m_code m) as ->.
  { unfold mtext, mboth. rewrite <- !app_assoc. apply take_app_exact. apply (tf_len _ _ F). }
  rewrite (proj2 (sizage_of_ok _ _) H), bind_Ok. cbv zeta. fold (var z) (pad z).
  assert (slice_str (mtext m z ++ rest) 0 (mfs m z) = Ok (mtext m z)) as Etrim.
  { rewrite slice_str_ascii_prefix by (auto; lia). rewrite drop_0, N.sub_0_r, take_all by lia. reflexivity. }
  assert (from_str (mtext m z) (hs z + ss z) = Ok (drop (pad z) (encode (zeros (pad z + ls z) ++ m_raw m)))) as Erest.
  { rewrite from_str_ascii by (auto; lia). f_equal. unfold mtext. now apply drop_app_exact. }
  assert (m = Mt (m_code m) (m_size m) (m_raw m)) as Em by (now destruct m).
  pose proof W as W'. unfold raw_len_ok, mfs in W', LL, Etrim. destruct (var z) eqn:Ev.
  - destruct W' as [Ws Wr]. specialize (P2 eq_refl). rewrite P2. change (negb (0 =? 0)) with false. cbv iota.
    replace (hs z + ss z + 4 * m_size m + len rest <? hs z + ss z) with false by lia.
    unfold mfs in *. rewrite Ev in *.
    replace (hs z + ss z + 4 * m_size m + len rest <? hs z + ss z) with false by lia.
    rewrite slice_str_ascii_prefix by (auto; lia). rewrite bind_Ok.
    assert (take (hs z + ss z - hs z) (drop (hs z) (mtext m z)) = b64_digits (N.to_nat (ss z)) (m_size m)) as ->.
    { replace (hs z + ss z - hs z) with (ss z) by lia. unfold mtext, mboth. rewrite Ev, <- app_assoc.
      rewrite drop_app_exact by apply (tf_len _ _ F). apply take_app_exact. rewrite len_b64_digits. lia. }
    assert (ss z <= 4) as Hss by (destruct (tf_var _ _ F Ev); lia).
    rewrite (b64_to_u32_exact _ (m_size m)).
    2:{ rewrite b64val_digits, N2Nat.id, N.mod_small; auto. }
    2:{ rewrite len_b64_digits. lia. }
    rewrite bind_Ok.
    assert (m_size m < 16777216) as Hsz.
    { assert (64 ^ ss z <= 64 ^ 4) by (apply N.pow_le_mono_r; lia). change (64 ^ 4) with 16777216 in *. lia. }
    rewrite u32_mul_in by (unfold u32_max; lia). rewrite bind_Ok.
    assert (hs z + ss z <= 8) by (destruct (tf_var _ _ F Ev); lia).
    rewrite u32_add_in by (unfold u32_max; lia). rewrite !bind_Ok.
    replace (m_size m * 4 + (hs z + ss z)) with (hs z + ss z + 4 * m_size m) by lia.
    replace (hs z + ss z + 4 * m_size m + len rest <? hs z + ss z + 4 * m_size m) with false by lia.
    rewrite Etrim, bind_Ok. rewrite P2 in Erest. rewrite Erest, bind_Ok.
    rewrite drop_0, N.add_0_l, decode_encode, bind_Ok.
    rewrite slice_bytes_in by (rewrite ?len_app, ?len_zeros; lia). rewrite bind_Ok, drop_0, N.sub_0_r.
    rewrite take_app_exact by apply len_zeros.
    assert (be_val (zeros (ls z)) = 0) as ->.
    { pose proof (be_val_zeros (ls z) []) as Z. now rewrite app_nil_r in Z. }
    change (negb (0 =? 0)) with false. cbv iota.
    rewrite from_bytes_in by (rewrite len_app, len_zeros; lia).
    rewrite drop_app_exact by apply len_zeros. rewrite bind_Ok. now rewrite <- Em.
  - destruct W' as [Ws Wr]. destruct (tf_fix _ _ F Ev) as (E1 & E2 & E3 & E4 & E5 & E6).
    rewrite bind_Ok. unfold mfs in *. rewrite Ev in *.
    replace (fs z + len rest <? fs z) with false by lia.
    rewrite Etrim, bind_Ok. destruct (pad z =? 0) eqn:Ep; cbn [negb].
    + assert (pad z = 0) as Ep' by lia. rewrite Ep' in Erest. rewrite Erest, bind_Ok.
      rewrite drop_0, N.add_0_l, decode_encode, bind_Ok.
      rewrite slice_bytes_in by (rewrite ?len_app, ?len_zeros; lia). rewrite bind_Ok, drop_0, N.sub_0_r.
      rewrite take_app_exact by apply len_zeros.
      assert (be_val (zeros (ls z)) = 0) as ->.
      { pose proof (be_val_zeros (ls z) []) as Z. now rewrite app_nil_r in Z. }
      change (negb (0 =? 0)) with false. cbv iota.
      rewrite from_bytes_in by (rewrite len_app, len_zeros; lia).
      rewrite drop_app_exact by apply len_zeros. rewrite bind_Ok, <- Ws. now rewrite <- Em.
    + assert (ls z = 0) as El by (destruct (ls z); auto; lia). rewrite El, N.add_0_r in *.
      rewrite Erest, bind_Ok.
      rewrite <- encode_zeros by lia. rewrite decode_encode, bind_Ok.
      rewrite slice_bytes_in by (rewrite ?len_app, ?len_zeros; lia). rewrite bind_Ok, drop_0, N.sub_0_r.
      rewrite take_app_exact by apply len_zeros.
      assert (be_val (zeros (pad z)) = 0) as ->.
      { pose proof (be_val_zeros (pad z) []) as Z. now rewrite app_nil_r in Z. }
      rewrite N.mod_0_l by (now apply N.pow_nonzero). change (negb (0 =? 0)) with false. cbv iota.
      rewrite from_bytes_in by (rewrite len_app, len_zeros; lia).
      rewrite drop_app_exact by apply len_zeros. rewrite bind_Ok, <- Ws. now rewrite <- Em.
Qed.

(** ** Construction yields well-formed primitives *)
(** The first character of a code decides whether it is variable and its lead size. *)
Definition first_ok (e : bytes * sizage) : bool :=
  let '(c, z) := e in
  match c with
  | [] => false
  | f :: r =>
    Bool.eqb (var z) (is_small_vrz f || is_large_vrz f) &&
    (if is_small_vrz f then
       (hs z =? 2) && (ss z =? 2) && Byte.eqb f (small_vrz (ls z)) &&
       forallb (fun l => match lookup matter_table (small_vrz l :: r) with
                         | Some z' => (ls z' =? l) && (ss z' =? 2) && var z' | None => false end &&
                         match lookup matter_table (large_vrz l :: x41 :: x41 :: r) with
                         | Some z' => (ls z' =? l) && (ss z' =? 4) && var z' | None => false end) [0; 1; 2]
     else if is_large_vrz f then
       (hs z =? 4) && (ss z =? 4) && Byte.eqb f (large_vrz (ls z)) &&
       forallb (fun l => match lookup matter_table (large_vrz l :: r) with
                         | Some z' => (ls z' =? l) && (ss z' =? 4) && var z' | None => false end) [0; 1; 2]
     else true)
  end.
Lemma matter_table_first : forallb first_ok matter_table = true.
Proof. vm_compute. reflexivity. Qed.
Lemma lookup_first c z : lookup matter_table c = Some z -> first_ok (c, z) = true.
Proof. intros H. apply lookup_In in H. exact (proj1 (forallb_forall _ _) matter_table_first _ H). Qed.

Lemma small_vrz_is l : l <= 2 -> is_small_vrz (small_vrz l) = true /\ is_large_vrz (small_vrz l) = false.
Proof.
  intros H. assert (l = 0 \/ l = 1 \/ l = 2) as Hl by lia. destruct Hl as [Hl|[Hl|Hl]]; subst; split; reflexivity.
Qed.
Lemma large_vrz_is l : l <= 2 -> is_large_vrz (large_vrz l) = true /\ is_small_vrz (large_vrz l) = false.
Proof.
  intros H. assert (l = 0 \/ l = 1 \/ l = 2) as Hl by lia. destruct Hl as [Hl|[Hl|Hl]]; subst; split; reflexivity.
Qed.
Lemma small_vrz_inj a b : a <= 2 -> b <= 2 -> small_vrz a = small_vrz b -> a = b.
Proof.
  intros Ha Hb. assert (a = 0 \/ a = 1 \/ a = 2) as Hl by lia. assert (b = 0 \/ b = 1 \/ b = 2) as Hm by lia.
  destruct Hl as [Hl|[Hl|Hl]], Hm as [Hm|[Hm|Hm]]; subst; auto; discriminate.
Qed.
Lemma large_vrz_inj a b : a <= 2 -> b <= 2 -> large_vrz a = large_vrz b -> a = b.
Proof.
  intros Ha Hb. assert (a = 0 \/ a = 1 \/ a = 2) as Hl by lia. assert (b = 0 \/ b = 1 \/ b = 2) as Hm by lia.
  destruct Hl as [Hl|[Hl|Hl]], Hm as [Hm|[Hm|Hm]]; subst; auto; discriminate.
Qed.

(** A constructed primitive whose (possibly rewritten) code is in the table is well formed. *)
Lemma construct_wf code raw m : matter_of_code_raw code raw = Ok m ->
  (exists z, lookup matter_table (m_code m) = Some z) -> wf_matter m.
Proof.
  intros H (z & Hz). exists z. split; auto. pose proof (lookup_facts _ _ Hz) as F.
  pose proof (lookup_first _ _ Hz) as G. pose proof (tf_ls _ _ F) as Hl.
  unfold matter_of_code_raw in H. destruct code as [|first rest]; try discriminate.
  apply bind_ok in H as (((c' & sz) & rz) & H1 & H).
  destruct (len raw <? rz) eqn:El; try discriminate.
  apply bind_ok in H as (r & H2 & H). inversion H; subst m; clear H. cbn [m_code m_size m_raw] in *.
  apply slice_bytes_ok in H2 as (_ & L2 & ->). rewrite drop_0, N.sub_0_r in *.
  unfold raw_len_ok. cbn [m_size m_raw]. rewrite len_take, N.min_l by auto.
  destruct (is_small_vrz first || is_large_vrz first) eqn:Ef.
  - set (l := (3 - as_u32 (len raw) mod 3) mod 3) in *. assert (l <= 2) as Hl2 by (unfold l; lia).
    assert (forall x, (var z = true /\ ls z = l /\ ss z = x) -> sz = (rz + l) / 3 -> rz = as_u32 (len raw) -> sz < 64 ^ x ->
      if var z then sz < 64 ^ ss z /\ ls z + rz = 3 * sz else sz = 0 /\ rz = (fs z - hs z) * 3 / 4 - ls z) as K.
    { intros x (-> & -> & ->) E1 E2 Hs. split; auto. subst rz. unfold l in *. lia. }
    destruct (is_small_vrz first) eqn:Es.
    + destruct (_ <? 4096) eqn:E1.
      * apply bind_ok in H1 as (c & Hc & H1). inversion H1; subst; clear H1.
        pose proof (small_vrz_is l Hl2) as [S1 S2].
        cbn [first_ok] in G. rewrite S1 in G. cbn [orb] in G. apply andb_true_iff in G as [G1 G].
        apply andb_true_iff in G as [G _]. apply andb_true_iff in G as [G G3].
        apply byte_eqb_eq in G3. apply small_vrz_inj in G3; auto.
        apply (K 2); auto. { repeat split; auto; try lia. now apply eqb_prop. }
        change (64 ^ 2) with 4096. fold l. lia.
      * destruct (_ <? 16777216) eqn:E2; try discriminate.
        apply bind_ok in H1 as (c & Hc & H1). inversion H1; subst; clear H1.
        pose proof (large_vrz_is l Hl2) as [S1 S2].
        cbn [first_ok] in G. rewrite S1, S2 in G. cbn [orb] in G. apply andb_true_iff in G as [G1 G].
        apply andb_true_iff in G as [G _]. apply andb_true_iff in G as [G G3].
        apply byte_eqb_eq in G3. apply large_vrz_inj in G3; auto.
        apply (K 4); auto. { repeat split; auto; try lia. now apply eqb_prop. }
        change (64 ^ 4) with 16777216. fold l. lia.
    + destruct (_ <? 16777216) eqn:E2; try discriminate.
      apply bind_ok in H1 as (c & Hc & H1). inversion H1; subst; clear H1.
      pose proof (large_vrz_is l Hl2) as [S1 S2].
      cbn [first_ok] in G. rewrite S1, S2 in G. cbn [orb] in G. apply andb_true_iff in G as [G1 G].
      apply andb_true_iff in G as [G _]. apply andb_true_iff in G as [G G3].
      apply byte_eqb_eq in G3. apply large_vrz_inj in G3; auto.
      apply (K 4); auto. { repeat split; auto; try lia. now apply eqb_prop. }
      change (64 ^ 4) with 16777216. fold l. lia.
  - apply bind_ok in H1 as (rz' & H1 & H3). inversion H3; subst; clear H3.
    unfold raw_size in H1. rewrite (proj2 (sizage_of_ok _ _) Hz), bind_Ok in H1. fold (var z) in H1.
    destruct (var z) eqn:Ev; try discriminate. apply bind_ok in H1 as (d & H1 & H3).
    apply u32_sub_ok in H1 as (_ & ->). apply u32_sub_ok in H3 as (_ & ->).
    destruct (tf_fix _ _ F Ev) as (E1 & _). rewrite E1. split; auto. do 3 f_equal. lia.
Qed.

(** Codes of the table stay in the table. *)
Lemma construct_code code z raw m : lookup matter_table code = Some z -> matter_of_code_raw code raw = Ok m ->
  exists z', lookup matter_table (m_code m) = Some z' /\ var z' = var z.
Proof.
  intros Hz H. pose proof (lookup_facts _ _ Hz) as F. pose proof (lookup_first _ _ Hz) as G.
  pose proof (is_b64s_ascii _ (tf_b64 _ _ F)) as Ha. pose proof (tf_len _ _ F) as L.
  unfold matter_of_code_raw in H. destruct code as [|first rest]; try discriminate.
  apply bind_ok in H as (((c' & sz) & rz) & H1 & H).
  destruct (len raw <? rz) eqn:El; try discriminate.
  apply bind_ok in H as (r & H2 & H). inversion H; subst m; clear H. cbn [m_code m_size m_raw] in *.
  cbn [first_ok] in G. apply andb_true_iff in G as [G0 G]. apply eqb_prop in G0.
  rewrite len_cons in L.
  destruct (is_small_vrz first || is_large_vrz first) eqn:Ef.
  - set (l := (3 - as_u32 (len raw) mod 3) mod 3) in *. assert (In l [0; 1; 2]) as Hl.
    { assert (l = 0 \/ l = 1 \/ l = 2) as Hl by (unfold l; lia). simpl. intuition auto. }
    destruct (is_small_vrz first) eqn:Es.
    + apply andb_true_iff in G as [G Gf]. rewrite forallb_forall in Gf. specialize (Gf l Hl).
      do 2 (apply andb_true_iff in G as [G _]). apply N.eqb_eq in G. apply andb_true_iff in Gf as [Gs Gl].
      assert (slice_str (first :: rest) 1 2 = Ok rest) as Esl.
      { rewrite slice_str_ascii; auto; try (rewrite len_cons; lia); try lia. f_equal.
        change (drop 1 (first :: rest)) with rest. apply take_all. lia. }
      destruct (_ <? 4096).
      * rewrite Esl, bind_Ok in H1. inversion H1; subst.
        destruct (lookup matter_table (small_vrz l :: rest)) as [z'|] eqn:E; try discriminate.
        exists z'. fold l. split; auto.
        all: try (apply andb_true_iff in Gs as [_ ->]); try (apply andb_true_iff in Gl as [_ ->]); try (apply andb_true_iff in Gf as [_ ->]).
        all: rewrite G0; auto.
      * destruct (_ <? 16777216); try discriminate. rewrite Esl, bind_Ok in H1. inversion H1; subst.
        destruct (lookup matter_table (large_vrz l :: x41 :: x41 :: rest)) as [z'|] eqn:E; try discriminate.
        exists z'. fold l. split; auto.
        all: try (apply andb_true_iff in Gs as [_ ->]); try (apply andb_true_iff in Gl as [_ ->]); try (apply andb_true_iff in Gf as [_ ->]).
        all: rewrite G0; auto.
    + cbn [orb] in Ef. rewrite Ef in G. apply andb_true_iff in G as [G Gf]. rewrite forallb_forall in Gf.
      specialize (Gf l Hl).
      do 2 (apply andb_true_iff in G as [G _]). apply N.eqb_eq in G.
      assert (slice_str (first :: rest) 1 4 = Ok rest) as Esl.
      { rewrite slice_str_ascii; auto; try (rewrite len_cons; lia); try lia. f_equal.
        change (drop 1 (first :: rest)) with rest. apply take_all. lia. }
      destruct (_ <? 16777216); try discriminate. rewrite Esl, bind_Ok in H1. inversion H1; subst.
      destruct (lookup matter_table (large_vrz l :: rest)) as [z'|] eqn:E; try discriminate.
      exists z'. fold l. split; auto.
        all: try (apply andb_true_iff in Gs as [_ ->]); try (apply andb_true_iff in Gl as [_ ->]); try (apply andb_true_iff in Gf as [_ ->]).
        all: rewrite G0; auto.
  - apply bind_ok in H1 as (rz' & H1 & H3). inversion H3; subst; clear H3. eauto.
Qed.

Lemma construct_wf' code z raw m : lookup matter_table code = Some z -> matter_of_code_raw code raw = Ok m -> wf_matter m.
Proof. intros Hz H. destruct (construct_code _ _ _ _ Hz H) as (z' & H' & _). eapply construct_wf; eauto. Qed.
