(** Lemmas about the integer and sextet codecs of util.rs. *)
From Coq Require Import NArith ZArith Bool List Lia ZifyBool ZifyNat ZifyN.
From Verif Require Import Base BaseFacts B64 B64Facts Util.
Import ListNotations.
Open Scope N_scope.
Ltac Zify.zify_post_hook ::= Z.div_mod_to_equations.

(** ** Base-64 numerals *)
Fixpoint b64val_acc (acc : N) (s : bytes) : option N :=
  match s with
  | [] => Some acc
  | c :: r => match b64_index c with Some i => b64val_acc (acc * 64 + i) r | None => None end
  end.
(** The integer denoted by a string of base64 digits, most significant first. *)
Definition b64val (s : bytes) : option N := b64val_acc 0 s.

(** Exactly [L] base64 digits of [n] (low digits). *)
Fixpoint b64_digits (L : nat) (n : N) : bytes :=
  match L with O => [] | S l => b64_digits l (n / 64) ++ [b64_char (n mod 64)] end.

Lemma len_b64_digits L n : len (b64_digits L n) = N.of_nat L.
Proof.
  revert n; induction L as [|L IH]; intros n; cbn [b64_digits]; auto.
  rewrite len_app, IH, len_cons. change (len (@nil byte)) with 0. lia.
Qed.
Lemma length_b64_digits L n : length (b64_digits L n) = L.
Proof. pose proof (len_b64_digits L n). unfold len in H. lia. Qed.

Lemma is_b64s_digits L n : is_b64s (b64_digits L n) = true.
Proof.
  revert n; induction L as [|L IH]; intros n; cbn [b64_digits]; auto.
  rewrite is_b64s_app, IH. cbn [is_b64s forallb andb]. rewrite is_b64_char by lia. reflexivity.
Qed.

Lemma b64val_acc_app acc a b :
  b64val_acc acc (a ++ b) = match b64val_acc acc a with Some v => b64val_acc v b | None => None end.
Proof.
  revert acc; induction a as [|c a IH]; intros acc; simpl; auto.
  destruct (b64_index c); auto.
Qed.
Lemma b64val_acc_total acc s : is_b64s s = true -> exists v, b64val_acc acc s = Some v.
Proof.
  revert acc; induction s as [|c s IH]; intros acc H; simpl; eauto.
  cbn [is_b64s forallb] in H. apply andb_true_iff in H as [H1 H2]. unfold is_b64 in H1.
  destruct (b64_index c); try discriminate. now apply IH.
Qed.
Lemma b64val_acc_b64s acc s v : b64val_acc acc s = Some v -> is_b64s s = true.
Proof.
  revert acc; induction s as [|c s IH]; intros acc H; simpl; auto.
  simpl in H. unfold is_b64. destruct (b64_index c); try discriminate. eauto.
Qed.
Lemma b64val_acc_shift acc s v : b64val_acc acc s = Some v ->
  exists w, b64val s = Some w /\ v = acc * 64 ^ len s + w /\ w < 64 ^ len s.
Proof.
  unfold b64val. revert acc v; induction s as [|c s IH]; intros acc v H.
  - simpl in H. inversion H; subst. exists 0. change (len (@nil byte)) with 0. simpl. split; auto. lia.
  - simpl in H. simpl. destruct (b64_index c) as [i|] eqn:Ei; try discriminate.
    apply b64_index_Some in Ei as [Hi _].
    destruct (IH _ _ H) as (w & Hw & -> & Lw).
    destruct (b64val_acc_total (0 * 64 + i) s) as (v' & Hv'). { now apply b64val_acc_b64s in H. }
    exists v'. split; [exact Hv'|].
    destruct (IH _ _ Hv') as (w' & Hw' & -> & Lw'). rewrite Hw in Hw'. inversion Hw'; subst w'.
    rewrite len_cons, N.pow_add_r. change (64 ^ 1) with 64. split; nia.
Qed.
Lemma b64val_app a b u v : b64val a = Some u -> b64val b = Some v -> b64val (a ++ b) = Some (u * 64 ^ len b + v).
Proof.
  intros Ha Hb. unfold b64val in *. rewrite b64val_acc_app, Ha.
  destruct (b64val_acc_total u b) as (x & Hx). { eapply b64val_acc_b64s; eauto. }
  rewrite Hx. f_equal. apply b64val_acc_shift in Hx as (w & Hw & -> & _). unfold b64val in Hw.
  rewrite Hb in Hw. inversion Hw. reflexivity.
Qed.
Lemma b64val_lt s v : b64val s = Some v -> v < 64 ^ len s.
Proof. intros H. apply b64val_acc_shift in H as (w & _ & -> & L). lia. Qed.
Lemma b64val_b64s s v : b64val s = Some v -> is_b64s s = true.
Proof. apply b64val_acc_b64s. Qed.
Lemma b64val_total s : is_b64s s = true -> exists v, b64val s = Some v.
Proof. apply b64val_acc_total. Qed.
Lemma b64val_cons c s i v : b64_index c = Some i -> b64val s = Some v -> b64val (c :: s) = Some (i * 64 ^ len s + v).
Proof.
  intros Hc Hs. change (c :: s) with ([c] ++ s). apply b64val_app; auto. unfold b64val. simpl.
  rewrite Hc. f_equal.
Qed.

Lemma b64val_digits L n : b64val (b64_digits L n) = Some (n mod 64 ^ N.of_nat L).
Proof.
  revert n; induction L as [|L IH]; intros n.
  - simpl. unfold b64val. simpl. f_equal. symmetry. apply N.mod_1_r.
  - cbn [b64_digits]. erewrite b64val_app; [|apply IH|].
    2:{ unfold b64val. simpl. rewrite b64_index_char by lia. reflexivity. }
    f_equal. change (len [b64_char (n mod 64)]) with 1. change (64 ^ 1) with 64.
    rewrite Nat2N.inj_succ, N.pow_succ_r'.
    rewrite (N.mod_mul_r n 64 (64 ^ N.of_nat L)); [lia|lia|now apply N.pow_nonzero].
Qed.

Lemma b64val_inj s t v : len s = len t -> b64val s = Some v -> b64val t = Some v -> s = t.
Proof.
  revert t v; induction s as [|c s IH]; intros [|d t] v L Hs Ht; auto.
  - rewrite len_cons in L. change (len (@nil byte)) with 0 in L. lia.
  - rewrite len_cons in L. change (len (@nil byte)) with 0 in L. lia.
  - pose proof (b64val_b64s _ _ Hs) as Bs. pose proof (b64val_b64s _ _ Ht) as Bt.
    cbn [is_b64s forallb] in Bs, Bt. apply andb_true_iff in Bs as [B1 B2]. apply andb_true_iff in Bt as [B3 B4].
    unfold is_b64 in B1, B3. destruct (b64_index c) as [i|] eqn:Ei; try discriminate.
    destruct (b64_index d) as [j|] eqn:Ej; try discriminate.
    destruct (b64val_total s B2) as (v1 & H1). destruct (b64val_total t B4) as (v2 & H2).
    rewrite (b64val_cons _ _ _ _ Ei H1) in Hs. rewrite (b64val_cons _ _ _ _ Ej H2) in Ht.
    rewrite !len_cons in L. assert (len s = len t) as L' by lia.
    pose proof (b64val_lt _ _ H1) as T1. pose proof (b64val_lt _ _ H2) as T2. rewrite L' in *.
    assert (i = j /\ v1 = v2) as [-> ->].
    { inversion Hs. inversion Ht. subst v. eapply digit_unique; eauto. }
    f_equal; [|eapply IH; eauto]. apply b64_index_Some in Ei as [_ <-]. now apply b64_index_Some in Ej as [_ <-].
Qed.

Lemma b64_digits_val s v : b64val s = Some v -> b64_digits (length s) v = s.
Proof.
  intros H. eapply b64val_inj; [|apply b64val_digits|].
  - rewrite len_b64_digits. reflexivity.
  - rewrite N.mod_small; auto. change (N.of_nat (length s)) with (len s). now apply b64val_lt.
Qed.

Lemma b64_digits_mod L n : b64_digits L (n mod 64 ^ N.of_nat L) = b64_digits L n.
Proof.
  pose proof (b64val_digits L n) as H. apply b64_digits_val in H. now rewrite length_b64_digits in H.
Qed.

Lemma b64_digits_app L M n : b64_digits (L + M) n = b64_digits L (n / 64 ^ N.of_nat M) ++ b64_digits M n.
Proof.
  revert n; induction M as [|M IH]; intros n.
  - simpl. rewrite N.div_1_r, app_nil_r. f_equal. lia.
  - replace (L + S M)%nat with (S (L + M)) by lia. cbn [b64_digits]. rewrite IH, app_assoc.
    rewrite Nat2N.inj_succ, N.pow_succ_r', N.div_div; [reflexivity|lia|now apply N.pow_nonzero].
Qed.

(** ** b64_to_u32 / b64_to_u64 *)
Lemma b64_to_uint_exact w acc s v :
  b64val_acc acc s = Some v -> v < w -> b64_to_uint_from w acc s = Ok v.
Proof.
  revert acc; induction s as [|c s IH]; intros acc H Hw; simpl in *.
  - now inversion H.
  - destruct (b64_index c) as [i|] eqn:Ei; try discriminate.
    rewrite N.mod_small. { now apply IH. }
    apply b64val_acc_shift in H as (x & _ & -> & _).
    pose proof (N.pow_nonzero 64 (len s)). nia.
Qed.
Lemma b64_to_uint_err w acc s : is_b64s s = false -> b64_to_uint_from w acc s = Err EInvalidBase64Character.
Proof.
  revert acc; induction s as [|c s IH]; intros acc H; simpl in *; try discriminate.
  unfold is_b64 in H. destruct (b64_index c); auto.
Qed.
Lemma b64_to_u32_exact s v : b64val s = Some v -> len s <= 5 -> b64_to_u32 s = Ok v.
Proof.
  intros H L. apply b64_to_uint_exact; auto. pose proof (b64val_lt _ _ H) as B.
  pose proof (N.pow_le_mono_r 64 (len s) 5). assert (64 ^ 5 = 1073741824) by reflexivity. lia.
Qed.
Lemma b64_to_u64_exact s v : b64val s = Some v -> len s <= 10 -> b64_to_u64 s = Ok v.
Proof.
  intros H L. apply b64_to_uint_exact; auto. pose proof (b64val_lt _ _ H) as B.
  pose proof (N.pow_le_mono_r 64 (len s) 10). assert (64 ^ 10 = 1152921504606846976) by reflexivity. lia.
Qed.
Lemma b64_to_u32_ok s v : b64_to_u32 s = Ok v -> is_b64s s = true.
Proof.
  intros H. destruct (is_b64s s) eqn:E; auto. unfold b64_to_u32 in H.
  rewrite (b64_to_uint_err _ _ _ E) in H. discriminate.
Qed.
Lemma b64_to_u32_inv s v : b64_to_u32 s = Ok v -> len s <= 5 -> b64val s = Some v.
Proof.
  intros H L. destruct (b64val_total s (b64_to_u32_ok _ _ H)) as (w & Hw).
  rewrite (b64_to_u32_exact _ _ Hw L) in H. inversion H. now subst.
Qed.
Lemma b64_to_u64_ok s v : b64_to_u64 s = Ok v -> is_b64s s = true.
Proof.
  intros H. destruct (is_b64s s) eqn:E; auto. unfold b64_to_u64 in H.
  rewrite (b64_to_uint_err _ _ _ E) in H. discriminate.
Qed.
Lemma b64_to_u64_inv s v : b64_to_u64 s = Ok v -> len s <= 10 -> b64val s = Some v.
Proof.
  intros H L. destruct (b64val_total s (b64_to_u64_ok _ _ H)) as (w & Hw).
  rewrite (b64_to_u64_exact _ _ Hw L) in H. inversion H. now subst.
Qed.
Lemma b64_to_uint_no_panic w acc s : b64_to_uint_from w acc s <> Panic.
Proof.
  revert acc; induction s as [|c s IH]; intros acc; simpl; try discriminate.
  destruct (b64_index c); auto. discriminate.
Qed.

(** ** u32_to_b64 / u64_to_b64 *)
Lemma b64_digits_0 L : b64_digits L 0 = repeat x41 L.
Proof.
  induction L as [|L IH]; auto. cbn [b64_digits]. change (0 / 64) with 0. rewrite IH.
  change (b64_char (0 mod 64)) with x41. change [x41] with (repeat x41 1). rewrite <- repeat_app.
  f_equal. lia.
Qed.

Lemma uint_to_b64_loop_exact L : forall fuel n length x out,
  (L <= fuel)%nat -> n <= 64 ^ length -> x < 64 ^ N.of_nat L ->
  repeat x41 (L + List.length out - List.length (uint_to_b64_loop fuel n length 0 x out))
    ++ uint_to_b64_loop fuel n length 0 x out = b64_digits L x ++ out.
Proof.
  induction L as [|L IH]; intros fuel n length x out Hf Hn Hx.
  - assert (x = 0) by (simpl in Hx; lia). subst x. destruct fuel; simpl; now rewrite Nat.sub_diag.
  - destruct fuel as [|fuel]; [lia|]. cbn [uint_to_b64_loop]. destruct (x =? 0) eqn:E0.
    + assert (x = 0) by lia. subst x. rewrite b64_digits_0. do 2 f_equal. lia.
    + rewrite N.add_0_r. replace (n <=? 64 ^ length) with true by lia.
      cbn [b64_digits]. rewrite <- app_assoc. cbn [app].
      rewrite <- (IH fuel n length (x / 64) (b64_char (x mod 64) :: out)); [|lia|auto|].
      * cbn [List.length]. do 2 f_equal. lia.
      * rewrite Nat2N.inj_succ, N.pow_succ_r' in Hx. lia.
Qed.

Lemma uint_to_b64_exact n length :
  length <= 10 -> n < 64 ^ length -> uint_to_b64 n length = b64_digits (N.to_nat length) n.
Proof.
  intros HL Hn. unfold uint_to_b64. destruct (length =? 0) eqn:E.
  - assert (length = 0) by lia. subst. reflexivity.
  - cbv zeta. pose proof (uint_to_b64_loop_exact (N.to_nat length) 11 n length n []) as H.
    rewrite app_nil_r in H. cbn [List.length] in H. rewrite Nat.add_0_r in H. apply H; try lia.
Qed.

(** ** Groups as numbers *)
Lemma enc3_digits a b c : enc3 a b c = b64_digits 4 (be_val [a; b; c]).
Proof.
  byte_bounds. unfold be_val. cbn [be_val_acc b64_digits app]. unfold enc3.
  repeat (apply f_equal2); try reflexivity; f_equal; lia.
Qed.

Lemma encode3_digits l : len l = 3 -> encode l = b64_digits 4 (be_val l).
Proof.
  destruct l as [|a [|b [|c [|d r]]]]; intros H; try (vm_compute in H; discriminate).
  - rewrite encode_cons3, enc3_digits. apply app_nil_r.
  - rewrite !len_cons in H. lia.
Qed.

Lemma encode6_digits l : len l = 6 -> encode l = b64_digits 8 (be_val l).
Proof.
  intros H. rewrite <- (take_drop 3 l).
  assert (len (take 3 l) = 3) as L1 by (rewrite len_take; lia).
  assert (len (drop 3 l) = 3) as L2 by (rewrite len_drop; lia).
  rewrite encode_app by (rewrite L1; reflexivity).
  rewrite (encode3_digits _ L1), (encode3_digits _ L2).
  rewrite be_val_app, L2. change (256 ^ 3) with 16777216.
  change 8%nat with (4 + 4)%nat. rewrite b64_digits_app. f_equal.
  - f_equal. change (64 ^ N.of_nat 4) with 16777216.
    pose proof (be_val_lt (drop 3 l)) as B. rewrite L2 in B. change (256 ^ 3) with 16777216 in B. lia.
  - rewrite <- (b64_digits_mod 4 (be_val (take 3 l) * 16777216 + be_val (drop 3 l))). f_equal.
    change (64 ^ N.of_nat 4) with 16777216.
    pose proof (be_val_lt (drop 3 l)) as B. rewrite L2 in B. change (256 ^ 3) with 16777216 in B. lia.
Qed.

(** ** Leading characters of an encoding *)
Lemma encode_head1 a r : take 1 (encode (a :: r)) = [b64_char (b2n a / 4)].
Proof. destruct r as [|b [|c r]]; reflexivity. Qed.
Lemma encode_head2 a b r :
  take 2 (encode (a :: b :: r)) = [b64_char (b2n a / 4); b64_char ((b2n a mod 4) * 16 + b2n b / 16)].
Proof. destruct r as [|c r]; reflexivity. Qed.

(** Bytes needed for [k] sextets. *)
Definition nbytes (k : N) : N := ((k + 1) * 3) / 4.

Lemma encode_head_small k b : 1 <= k -> k <= 4 -> nbytes k <= len b ->
  take k (encode b) = b64_digits (N.to_nat k) (be_val (take (nbytes k) b) / 2 ^ (2 * (k mod 4))).
Proof.
  intros H1 H2 H3. assert (k = 1 \/ k = 2 \/ k = 3 \/ k = 4) as Hk by lia.
  destruct Hk as [Hk|[Hk|[Hk|Hk]]]; subst k.
  - destruct b as [|a r]; [vm_compute in H3; contradiction|]. rewrite encode_head1.
    change (nbytes 1) with 1. change (take 1 (a :: r)) with [a]. change (2 ^ (2 * (1 mod 4))) with 4.
    rewrite be_val_cons. change (be_val []) with 0. change (256 ^ len (@nil byte)) with 1.
    change (N.to_nat 1) with 1%nat. cbn [b64_digits app]. byte_bounds. do 2 f_equal. lia.
  - destruct b as [|a [|b r]]; [vm_compute in H3; contradiction..|]. rewrite encode_head2.
    change (nbytes 2) with 2. change (take 2 (a :: b :: r)) with [a; b]. change (2 ^ (2 * (2 mod 4))) with 16.
    rewrite !be_val_cons. change (be_val []) with 0. change (256 ^ len (@nil byte)) with 1. change (256 ^ len [b]) with 256.
    change (N.to_nat 2) with 2%nat. cbn [b64_digits app]. byte_bounds.
    apply f_equal2; [f_equal; lia|]. apply f_equal2; [f_equal; lia|reflexivity].
  - destruct b as [|a [|b [|c r]]]; [vm_compute in H3; contradiction..|].
    rewrite encode_cons3, take_app_le by (vm_compute; discriminate). rewrite enc3_digits.
    change (nbytes 3) with 3. change (take 3 (a :: b :: c :: r)) with [a; b; c].
    change (N.to_nat 3) with 3%nat. change 4%nat with (3 + 1)%nat. rewrite b64_digits_app, take_app_exact; [|now rewrite len_b64_digits].
    f_equal. 
  - destruct b as [|a [|b [|c r]]]; [vm_compute in H3; contradiction..|].
    rewrite encode_cons3, take_app_exact by reflexivity. rewrite enc3_digits.
    change (nbytes 4) with 3. change (take 3 (a :: b :: c :: r)) with [a; b; c].
    change (N.to_nat 4) with 4%nat. f_equal. change (2 ^ (2 * (4 mod 4))) with 1. now rewrite N.div_1_r.
Qed.

Lemma pow_nbytes k : 1 <= k -> k <= 4 -> 256 ^ nbytes k = 64 ^ k * 2 ^ (2 * (k mod 4)).
Proof.
  intros H1 H2. assert (k = 1 \/ k = 2 \/ k = 3 \/ k = 4) as Hk by lia.
  destruct Hk as [Hk|[Hk|[Hk|Hk]]]; subst k; reflexivity.
Qed.

Lemma encode_head k b : 1 <= k -> k <= 8 -> nbytes k <= len b ->
  take k (encode b) = b64_digits (N.to_nat k) (be_val (take (nbytes k) b) / 2 ^ (2 * (k mod 4))).
Proof.
  intros H1 H2 H3. destruct (N.leb_spec k 4) as [H|H]; [now apply encode_head_small|].
  pose (j := k - 4). assert (k = 4 + j) as Ek by lia. assert (1 <= j /\ j <= 4) as [J1 J2] by lia.
  assert (nbytes k = 3 + nbytes j) as En by (unfold nbytes; lia).
  assert (k mod 4 = j mod 4) as Em by lia. rewrite Em.
  destruct b as [|x [|y [|z r]]]; try (change (len (@nil byte)) with 0 in H3; rewrite ?len_cons in H3; change (len (@nil byte)) with 0 in H3; unfold nbytes in H3; lia).
  rewrite encode_cons3. rewrite take_app_ge by (change (len (enc3 x y z)) with 4; lia).
  change (len (enc3 x y z)) with 4. replace (k - 4) with j by lia.
  rewrite encode_head_small; auto. 2:{ rewrite !len_cons in H3. lia. }
  rewrite enc3_digits, Ek, N2Nat.inj_add. change (N.to_nat 4) with 4%nat. rewrite b64_digits_app.
  rewrite En in *. clearbody j. replace (nbytes (4 + j)) with (3 + nbytes j) by (unfold nbytes; lia).
  assert (take (3 + nbytes j) (x :: y :: z :: r) = [x; y; z] ++ take (nbytes j) r) as ->.
  { change (x :: y :: z :: r) with ([x; y; z] ++ r). rewrite take_app_ge by (change (len [x; y; z]) with 3; lia).
    change (len [x; y; z]) with 3. do 2 f_equal. lia. }
  rewrite be_val_app. rewrite len_take. rewrite !len_cons in H3.
  rewrite N.min_l by lia. rewrite pow_nbytes by auto.
  set (v := be_val [x; y; z]). set (w := be_val (take (nbytes j) r)).
  assert (w < 64 ^ j * 2 ^ (2 * (j mod 4))) as Hw.
  { rewrite <- pow_nbytes by auto. unfold w. pose proof (be_val_lt (take (nbytes j) r)) as B.
    rewrite len_take, N.min_l in B by lia. exact B. }
  assert (2 ^ (2 * (j mod 4)) <> 0) as Hp by (now apply N.pow_nonzero).
  assert (64 ^ j <> 0) as Hq by (now apply N.pow_nonzero).
  set (P := 2 ^ (2 * (j mod 4))) in *. rewrite N2Nat.id. set (Q := 64 ^ j) in *.
  assert ((v * (Q * P) + w) / P = v * Q + w / P) as ->.
  { replace (v * (Q * P) + w) with (w + v * Q * P) by lia. rewrite N.div_add by auto. lia. }
  assert (w / P < Q) as HwP by (apply N.div_lt_upper_bound; lia).
  f_equal.
  - f_equal. replace (v * Q + w / P) with (w / P + v * Q) by lia. rewrite N.div_add, N.div_small by auto. lia.
  - rewrite <- (b64_digits_mod _ (v * Q + w / P)). f_equal. rewrite N2Nat.id. fold Q.
    replace (v * Q + w / P) with (w / P + v * Q) by lia. rewrite N.mod_add by auto. now rewrite N.mod_small.
Qed.

Lemma be_val_app_zeros x z : be_val (x ++ zeros z) = be_val x * 256 ^ z.
Proof.
  rewrite be_val_app, len_zeros. pose proof (be_val_zeros z []) as H. rewrite app_nil_r in H. rewrite H.
  change (be_val []) with 0. lia.
Qed.

Lemma pow_nbytes8 k : 1 <= k -> k <= 8 -> 256 ^ nbytes k = 64 ^ k * 2 ^ (2 * (k mod 4)).
Proof.
  intros H1 H2. assert (k = 1 \/ k = 2 \/ k = 3 \/ k = 4 \/ k = 5 \/ k = 6 \/ k = 7 \/ k = 8) as Hk by lia.
  repeat destruct Hk as [Hk|Hk]; subst k; reflexivity.
Qed.

Lemma shift_top x z p : be_val (x ++ zeros z) / 2 ^ (p + z * 8) = be_val x / 2 ^ p.
Proof.
  rewrite be_val_app_zeros, N.pow_add_r. rewrite (N.mul_comm z 8), N.pow_mul_r. change (2 ^ 8) with 256.
  rewrite N.div_mul_cancel_r; auto; now apply N.pow_nonzero.
Qed.

Theorem code_b2_to_b64_spec b k : k <= 8 -> nbytes k <= len b -> code_b2_to_b64 b k = Ok (take k (encode b)).
Proof.
  intros H2 H3. unfold code_b2_to_b64. fold (nbytes k). destruct (k =? 0) eqn:E0.
  { assert (k = 0) by lia. subst. reflexivity. }
  replace (len b <? nbytes k) with false by lia.
  assert (forall W, (be_val (take (nbytes k) b ++ zeros (W - nbytes k)) / 2 ^ (2 * (k mod 4) + (W - nbytes k) * 8))
    < 64 ^ k) as B.
  { intros W. rewrite shift_top. apply N.div_lt_upper_bound. { now apply N.pow_nonzero. }
    pose proof (be_val_lt (take (nbytes k) b)) as B. rewrite len_take, N.min_l in B by lia.
    rewrite pow_nbytes8 in B by lia. lia. }
  cbv zeta. destruct (k <=? 4) eqn:E4.
  - rewrite uint_to_b64_exact by (auto; lia). rewrite shift_top. rewrite <- encode_head by lia. reflexivity.
  - replace (k <=? 8) with true by lia.
    rewrite uint_to_b64_exact by (auto; lia). rewrite shift_top. rewrite <- encode_head by lia. reflexivity.
Qed.

Lemma code_b2_to_b64_short b k : 0 < k -> len b < nbytes k -> code_b2_to_b64 b k = Err EMatter.
Proof.
  intros H1 H2. unfold code_b2_to_b64. fold (nbytes k). replace (k =? 0) with false by lia.
  replace (len b <? nbytes k) with true by lia. reflexivity.
Qed.

(** ** nab_sextets *)
Lemma sextets3_char a b c : map b64_char (sextets3 a b c) = enc3 a b c.
Proof.
  byte_bounds. unfold sextets3, enc3. cbn [map]. repeat (apply f_equal2); try reflexivity; f_equal; lia.
Qed.
Lemma map_sextets l : len l mod 3 = 0 -> map b64_char (sextets l) = encode l.
Proof.
  induction l as [|a|a b|a b c r IH] using list_ind3; intros H; try (vm_compute in H; discriminate).
  - reflexivity.
  - cbn [sextets]. rewrite map_app, sextets3_char, encode_cons3, IH; auto. rewrite !len_cons in H. lia.
Qed.
Lemma sextets_lt l i : In i (sextets l) -> i < 64.
Proof.
  induction l as [|a|a b|a b c r IH] using list_ind3; cbn [sextets In]; try tauto.
  intros H. apply in_app_or in H as [H|H]; auto. byte_bounds. unfold sextets3 in H.
  destruct H as [<-|[<-|[<-|[<-|[]]]]]; lia.
Qed.

(** Appending bytes does not change the leading characters that were complete. *)
Lemma encode_head_app k b r : 1 <= k -> k <= 8 -> nbytes k <= len b -> take k (encode (b ++ r)) = take k (encode b).
Proof.
  intros H1 H2 H3. rewrite !encode_head; auto.
  - now rewrite take_app_le.
  - rewrite len_app. lia.
Qed.

Theorem nab_sextets_spec b k : 1 <= k -> k <= 8 -> nbytes k <= len b ->
  exists l, nab_sextets b k = Ok l /\ map b64_char l = take k (encode b) /\ Forall (fun i => i < 64) l.
Proof.
  intros H1 H2 H3. unfold nab_sextets. fold (nbytes k). replace (len b <? nbytes k) with false by lia.
  set (p := b ++ zeros (3 - len b mod 3)).
  assert (len p mod 3 = 0) as Lp by (unfold p; rewrite len_app, len_zeros; lia).
  pose proof (map_sextets p Lp) as M.
  assert (len (sextets p) = len (encode p)) as Ls by (rewrite <- M; now rewrite len_map).
  rewrite len_encode in Ls. unfold nbytes in H3.
  assert (k <= len (sextets p)) as Lk by (rewrite Ls; unfold p; rewrite len_app, len_zeros; lia).
  rewrite slice_bytes_in by lia. rewrite N.sub_0_r, drop_0. eexists. split; [reflexivity|]. split.
  - unfold take at 1. rewrite <- firstn_map. fold (take k (map b64_char (sextets p))). rewrite M.
    unfold p. now apply encode_head_app.
  - apply Forall_forall. intros i Hi. apply (sextets_lt p). unfold take in Hi.
    rewrite <- (firstn_skipn (N.to_nat k) (sextets p)). apply in_or_app. now left.
Qed.

(** ** code_b64_to_b2 *)
Lemma be_bytes_app n m v : be_bytes (n + m) v = be_bytes n (v / 256 ^ N.of_nat m) ++ be_bytes m v.
Proof.
  revert v; induction m as [|m IH]; intros v.
  - simpl. rewrite N.div_1_r, app_nil_r. f_equal. lia.
  - replace (n + S m)%nat with (S (n + m)) by lia. cbn [be_bytes]. rewrite IH, app_assoc.
    rewrite Nat2N.inj_succ, N.pow_succ_r', N.div_div; [reflexivity|lia|now apply N.pow_nonzero].
Qed.
Lemma drop_be_bytes n m v : drop (N.of_nat n) (be_bytes (n + m) v) = be_bytes m v.
Proof. rewrite be_bytes_app. apply drop_app_exact. now rewrite len_be_bytes. Qed.

Theorem code_b64_to_b2_spec s v : b64val s = Some v -> 1 <= len s -> len s <= 8 ->
  code_b64_to_b2 s = Ok (be_bytes (N.to_nat (nbytes (len s))) (v * 2 ^ (2 * (len s mod 4)))).
Proof.
  intros H H1 H2. unfold code_b64_to_b2. rewrite (b64_to_u64_exact _ _ H) by lia. rewrite bind_Ok.
  cbv zeta. fold (nbytes (len s)). assert (nbytes (len s) <= 6) as Hn by (unfold nbytes; lia).
  replace (8 <? nbytes (len s)) with false by lia.
  f_equal. rewrite N.mod_small.
  - replace (8 - nbytes (len s)) with (N.of_nat (8 - N.to_nat (nbytes (len s)))) by lia.
    replace 8%nat with ((8 - N.to_nat (nbytes (len s))) + N.to_nat (nbytes (len s)))%nat at 2 by lia.
    apply drop_be_bytes.
  - pose proof (b64val_lt _ _ H) as B. pose proof (pow_nbytes8 (len s) H1 H2) as P.
    assert (256 ^ nbytes (len s) <= 256 ^ 6) as Q by (apply N.pow_le_mono_r; lia).
    change (256 ^ 6) with 281474976710656 in Q.
    assert (2 ^ (2 * (len s mod 4)) <> 0) by (now apply N.pow_nonzero). nia.
Qed.

(** Text to binary and back. *)
Theorem code_b64_b2_b64 s : is_b64s s = true -> 1 <= len s -> len s <= 8 ->
  exists b, code_b64_to_b2 s = Ok b /\ forall r, code_b2_to_b64 (b ++ r) (len s) = Ok s.
Proof.
  intros Hs H1 H2. destruct (b64val_total s Hs) as (v & Hv).
  rewrite (code_b64_to_b2_spec s v) by auto. eexists. split; [reflexivity|]. intros r.
  set (n := nbytes (len s)). assert (len (be_bytes (N.to_nat n) (v * 2 ^ (2 * (len s mod 4)))) = n) as L.
  { rewrite len_be_bytes. lia. }
  rewrite code_b2_to_b64_spec; auto.
  2:{ rewrite len_app, L. fold n. lia. }
  f_equal. rewrite encode_head by (auto; rewrite len_app, L; fold n; lia). fold n.
  rewrite take_app_exact by auto. rewrite be_val_be_bytes.
  2:{ rewrite N2Nat.id. unfold n. rewrite pow_nbytes8 by auto. pose proof (b64val_lt _ _ Hv).
      assert (2 ^ (2 * (len s mod 4)) <> 0) by (now apply N.pow_nonzero). nia. }
  rewrite N.div_mul by (now apply N.pow_nonzero).
  replace (N.to_nat (len s)) with (length s) by (unfold len; lia). now apply b64_digits_val.
Qed.
