(** Lemmas about the common vocabulary. *)
From Coq Require Import NArith ZArith Bool List Lia ZifyBool ZifyNat ZifyN.
From Verif Require Import Base.
Import ListNotations.
Open Scope N_scope.
Ltac Zify.zify_post_hook ::= Z.div_mod_to_equations.

(** ** Bytes *)
Lemma b2n_lt b : b2n b < 256.
Proof. unfold b2n. pose proof (Byte.to_N_bounded b). lia. Qed.

Lemma n2b_b2n b : n2b (b2n b) = b.
Proof. unfold n2b, b2n. now rewrite Byte.of_to_N. Qed.

Lemma b2n_n2b n : n < 256 -> b2n (n2b n) = n.
Proof.
  intros H. unfold n2b, b2n. destruct (Byte.of_N n) eqn:E.
  - now apply Byte.to_of_N.
  - apply Byte.of_N_None_iff in E. lia.
Qed.

Lemma b2n_inj a b : b2n a = b2n b -> a = b.
Proof. intros H. rewrite <- (n2b_b2n a), <- (n2b_b2n b). now rewrite H. Qed.

Lemma n2b_inj a b : a < 256 -> b < 256 -> n2b a = n2b b -> a = b.
Proof. intros Ha Hb H. rewrite <- (b2n_n2b a), <- (b2n_n2b b) by assumption. now rewrite H. Qed.

Lemma n2b_eq n b : n = b2n b -> n2b n = b.
Proof. intros ->. apply n2b_b2n. Qed.

Lemma n2b_0 : n2b 0 = x00. Proof. reflexivity. Qed.
Lemma b2n_0 : b2n x00 = 0. Proof. reflexivity. Qed.
Lemma b2n_eq0 b : b2n b = 0 -> b = x00.
Proof. intros H. apply b2n_inj. exact H. Qed.

Lemma byte_eqb_eq a b : Byte.eqb a b = true <-> a = b.
Proof. split; [apply Byte.byte_dec_bl | apply Byte.byte_dec_lb]. Qed.

Lemma byte_eqb_refl a : Byte.eqb a a = true.
Proof. now apply byte_eqb_eq. Qed.

Lemma byte_eqb_neq a b : Byte.eqb a b = false <-> a <> b.
Proof.
  split; intros H.
  - intros ->. now rewrite byte_eqb_refl in H.
  - destruct (Byte.eqb a b) eqn:E; auto. apply byte_eqb_eq in E. now elim H.
Qed.

Lemma digit_unique (X i j a b : N) : a < X -> b < X -> i * X + a = j * X + b -> i = j /\ a = b.
Proof.
  intros Ha Hb H. assert (i = j) as ->; [|split; [reflexivity|lia]].
  destruct (N.lt_trichotomy i j) as [L|[L|L]]; auto; exfalso; nia.
Qed.

(** All 256 bytes, for exhaustive arguments. *)
Definition all_bytes : bytes := map (fun n => n2b (N.of_nat n)) (seq 0 256).
Lemma all_bytes_complete b : In b all_bytes.
Proof.
  unfold all_bytes. apply in_map_iff. exists (N.to_nat (b2n b)). split.
  - rewrite N2Nat.id. apply n2b_b2n.
  - apply in_seq. pose proof (b2n_lt b). lia.
Qed.
Lemma forall_byte (P : byte -> bool) : forallb P all_bytes = true -> forall b, P b = true.
Proof. intros H b. exact (proj1 (forallb_forall _ _) H b (all_bytes_complete b)). Qed.

(** ** Results *)
Lemma bind_ok {A B} (r : R A) (k : A -> R B) b :
  bind r k = Ok b <-> exists a, r = Ok a /\ k a = Ok b.
Proof.
  destruct r; simpl; split; intros H; try discriminate.
  - now exists a.
  - destruct H as (a' & E & H). now inversion E.
  - destruct H as (a' & E & H). discriminate.
  - destruct H as (a' & E & H). discriminate.
Qed.

Lemma bind_Ok {A B} (a : A) (k : A -> R B) : bind (Ok a) k = k a.
Proof. reflexivity. Qed.

Lemma bind_assoc {A B C} (r : R A) (f : A -> R B) (g : B -> R C) :
  bind (bind r f) g = bind r (fun a => bind (f a) g).
Proof. now destruct r. Qed.

(** Peel one layer of a successful computation off a hypothesis. *)
Ltac inv_ok H :=
  match type of H with
  | Ok _ = Ok _ => injection H as H
  | Err _ = Ok _ => discriminate H
  | Panic = Ok _ => discriminate H
  | bind _ _ = Ok _ =>
      let x := fresh "x" in let E := fresh "E" in
      apply bind_ok in H; destruct H as (x & E & H)
  | (if ?c then _ else _) = Ok _ => let E := fresh "E" in destruct c eqn:E; try discriminate H
  | (match ?c with _ => _ end) = Ok _ => let E := fresh "E" in destruct c eqn:E; try discriminate H
  end.
Ltac inv_oks H := repeat (inv_ok H).

(** ** Byte-string equality *)
Lemma beq_eq a b : beq a b = true <-> a = b.
Proof.
  revert b; induction a as [|x a IH]; intros [|y b]; simpl; split; intros H; try discriminate; auto.
  - apply andb_true_iff in H as [H1 H2]. apply byte_eqb_eq in H1. apply IH in H2. now subst.
  - inversion H; subst. rewrite byte_eqb_refl. now apply IH.
Qed.
Lemma beq_refl a : beq a a = true. Proof. now apply beq_eq. Qed.
Lemma beq_neq a b : beq a b = false <-> a <> b.
Proof.
  split; intros H.
  - intros ->. now rewrite beq_refl in H.
  - destruct (beq a b) eqn:E; auto. apply beq_eq in E. now elim H.
Qed.
Lemma bytes_eq_dec (a b : bytes) : {a = b} + {a <> b}.
Proof. destruct (beq a b) eqn:E; [left; now apply beq_eq | right; now apply beq_neq]. Qed.

(** ** Lengths, take, drop *)
Lemma len_nil {A} : len (@nil A) = 0. Proof. reflexivity. Qed.
Lemma len_cons {A} (x : A) l : len (x :: l) = 1 + len l.
Proof. unfold len. simpl length. lia. Qed.
Lemma len_app {A} (a b : list A) : len (a ++ b) = len a + len b.
Proof. unfold len. rewrite app_length. lia. Qed.
Lemma len_zeros n : len (zeros n) = n.
Proof. unfold len, zeros. rewrite repeat_length. lia. Qed.
Lemma len_repeat {A} (x : A) n : len (repeat x n) = N.of_nat n.
Proof. unfold len. now rewrite repeat_length. Qed.
Lemma len_take {A} n (l : list A) : len (take n l) = N.min n (len l).
Proof. unfold len, take. rewrite firstn_length. lia. Qed.
Lemma len_drop {A} n (l : list A) : len (drop n l) = len l - n.
Proof. unfold len, drop. rewrite skipn_length. lia. Qed.
Lemma len_map {A B} (f : A -> B) l : len (map f l) = len l.
Proof. unfold len. now rewrite map_length. Qed.
Lemma len_rev {A} (l : list A) : len (rev l) = len l.
Proof. unfold len. now rewrite rev_length. Qed.
Lemma len_0_nil {A} (l : list A) : len l = 0 -> l = [].
Proof. destruct l; auto. rewrite len_cons. lia. Qed.

Lemma take_0 {A} (l : list A) : take 0 l = []. Proof. reflexivity. Qed.
Lemma drop_0 {A} (l : list A) : drop 0 l = l. Proof. reflexivity. Qed.
Lemma take_all {A} n (l : list A) : len l <= n -> take n l = l.
Proof. unfold take, len. intros. apply firstn_all2. lia. Qed.
Lemma drop_all {A} n (l : list A) : len l <= n -> drop n l = [].
Proof. unfold drop, len. intros. apply skipn_all2. lia. Qed.
Lemma take_drop {A} n (l : list A) : take n l ++ drop n l = l.
Proof. apply firstn_skipn. Qed.
Lemma take_app_le {A} n (a b : list A) : n <= len a -> take n (a ++ b) = take n a.
Proof.
  unfold take, len. intros. rewrite firstn_app.
  replace (N.to_nat n - length a)%nat with 0%nat by lia. simpl. apply app_nil_r.
Qed.
Lemma take_app_ge {A} n (a b : list A) : len a <= n -> take n (a ++ b) = a ++ take (n - len a) b.
Proof.
  unfold take, len. intros. rewrite firstn_app. f_equal.
  - apply firstn_all2. lia.
  - f_equal. lia.
Qed.
Lemma drop_app_le {A} n (a b : list A) : n <= len a -> drop n (a ++ b) = drop n a ++ b.
Proof.
  unfold drop, len. intros. rewrite skipn_app.
  replace (N.to_nat n - length a)%nat with 0%nat by lia. reflexivity.
Qed.
Lemma drop_app_ge {A} n (a b : list A) : len a <= n -> drop n (a ++ b) = drop (n - len a) b.
Proof.
  unfold drop, len. intros. rewrite skipn_app.
  rewrite (skipn_all2 a) by lia. simpl. f_equal. lia.
Qed.
Lemma take_app_exact {A} n (a b : list A) : len a = n -> take n (a ++ b) = a.
Proof. intros H. rewrite take_app_le by lia. apply take_all. lia. Qed.
Lemma drop_app_exact {A} n (a b : list A) : len a = n -> drop n (a ++ b) = b.
Proof. intros H. rewrite drop_app_ge by lia. replace (n - len a) with 0 by lia. reflexivity. Qed.
Lemma drop_drop {A} n m (l : list A) : drop n (drop m l) = drop (m + n) l.
Proof.
  unfold drop. rewrite N2Nat.inj_add. generalize (N.to_nat n), (N.to_nat m). intros a b.
  revert l; induction b as [|b IH]; intros l; simpl; auto.
  destruct l; simpl; auto. now rewrite skipn_nil.
Qed.
Lemma take_take {A} n m (l : list A) : take n (take m l) = take (N.min n m) l.
Proof. unfold take. rewrite firstn_firstn. f_equal. lia. Qed.
Lemma take_drop_comm {A} n m (l : list A) : take n (drop m l) = drop m (take (m + n) l).
Proof.
  unfold take, drop. rewrite N2Nat.inj_add. generalize (N.to_nat n), (N.to_nat m). intros a b.
  revert l; induction b as [|b IH]; intros l; simpl; auto.
  destruct l; simpl; auto. now rewrite firstn_nil.
Qed.
Lemma app_eq_len {A} (a b c d : list A) : a ++ b = c ++ d -> len a = len c -> a = c /\ b = d.
Proof.
  unfold len. revert c; induction a as [|x a IH]; intros [|y c] H L; simpl in *; try lia; auto.
  inversion H; subst. destruct (IH c H2) as [-> ->]; auto. lia.
Qed.
Lemma nth_error_app_l {A} (a b : list A) i : (i < length a)%nat -> nth_error (a ++ b) i = nth_error a i.
Proof. intros. now apply nth_error_app1. Qed.

(** ** Slices *)
Lemma slice_bytes_ok {A} (l : list A) a b x :
  slice_bytes l a b = Ok x <-> a <= b /\ b <= len l /\ x = take (b - a) (drop a l).
Proof.
  unfold slice_bytes. destruct ((a <=? b) && (b <=? len l)) eqn:E; split; intros H.
  - inversion H. repeat split; lia.
  - destruct H as (_ & _ & ->). reflexivity.
  - discriminate.
  - lia.
Qed.
Lemma slice_bytes_in {A} (l : list A) a b : a <= b -> b <= len l -> slice_bytes l a b = Ok (take (b - a) (drop a l)).
Proof. intros. apply slice_bytes_ok. auto. Qed.
Lemma from_bytes_in {A} (l : list A) a : a <= len l -> from_bytes l a = Ok (drop a l).
Proof.
  intros. unfold from_bytes. rewrite slice_bytes_in by lia. f_equal. apply take_all. rewrite len_drop. lia.
Qed.
Lemma from_bytes_ok {A} (l : list A) a x : from_bytes l a = Ok x <-> a <= len l /\ x = drop a l.
Proof.
  split.
  - intros H. unfold from_bytes in H. apply slice_bytes_ok in H as (H1 & _ & ->). split; auto.
    apply take_all. rewrite len_drop. lia.
  - intros [H ->]. now apply from_bytes_in.
Qed.

Definition is_ascii (b : byte) : bool := b2n b <=? 127.
Definition ascii (l : bytes) : bool := forallb is_ascii l.

Lemma is_ascii_not_cont b : is_ascii b = true -> is_cont b = false.
Proof. unfold is_ascii, is_cont. lia. Qed.

Lemma slice_str_ok s a b x :
  slice_str s a b = Ok x <->
  a <= b /\ b <= len s /\ boundary s a = true /\ boundary s b = true /\ x = take (b - a) (drop a s).
Proof.
  unfold slice_str. destruct ((a <=? b) && (b <=? len s) && boundary s a && boundary s b) eqn:E; split; intros H.
  - inversion H. repeat (apply andb_true_iff in E as [E ?]). repeat split; auto; lia.
  - destruct H as (_ & _ & _ & _ & ->). reflexivity.
  - discriminate.
  - destruct H as (H1 & H2 & H3 & H4 & _). rewrite H3, H4 in E.
    apply N.leb_le in H1, H2. rewrite H1, H2 in E. discriminate.
Qed.

Lemma nth_error_ascii s i b : ascii s = true -> nth_error s i = Some b -> is_cont b = false.
Proof.
  intros H E. apply nth_error_In in E. apply is_ascii_not_cont.
  exact (proj1 (forallb_forall _ _) H b E).
Qed.

Lemma ascii_app a b : ascii (a ++ b) = ascii a && ascii b.
Proof. apply forallb_app. Qed.

(** A position inside (or at the end of) an ASCII prefix is a boundary when the remainder is valid UTF-8. *)
Lemma utf8_head_not_cont b r : utf8 (b :: r) = true -> is_cont b = false.
Proof.
  simpl. unfold is_cont, in_range. destruct (b2n b <=? 127) eqn:E1.
  - intros _. lia.
  - destruct ((194 <=? b2n b) && (b2n b <=? 223)) eqn:E2; [intros _; lia|].
    destruct ((224 <=? b2n b) && (b2n b <=? 239)) eqn:E3; [intros _; lia|].
    destruct ((240 <=? b2n b) && (b2n b <=? 244)) eqn:E4; [intros _; lia|]. discriminate.
Qed.

Lemma boundary_ascii_prefix a r i :
  ascii a = true -> utf8 r = true -> i <= len a -> boundary (a ++ r) i = true.
Proof.
  intros Ha Hr Hi. unfold boundary.
  destruct (i =? 0) eqn:E0; [reflexivity|].
  destruct (i =? len (a ++ r)) eqn:E1; [reflexivity|]. simpl.
  rewrite len_app in E1.
  assert (i < len a \/ i = len a) as [H|H] by lia.
  - rewrite nth_error_app_l by (unfold len in H; lia).
    destruct (nth_error a (N.to_nat i)) eqn:E.
    + now rewrite (nth_error_ascii _ _ _ Ha E).
    + apply nth_error_None in E. unfold len in H. lia.
  - subst i. rewrite nth_error_app2 by (unfold len; lia).
    replace (N.to_nat (len a) - length a)%nat with 0%nat by (unfold len; lia).
    destruct r as [|c r].
    + rewrite len_nil in E1. lia.
    + simpl. now rewrite (utf8_head_not_cont _ _ Hr).
Qed.

Lemma slice_str_ascii_prefix a r i j :
  ascii a = true -> utf8 r = true -> i <= j -> j <= len a ->
  slice_str (a ++ r) i j = Ok (take (j - i) (drop i a)).
Proof.
  intros Ha Hr Hij Hj. apply slice_str_ok. rewrite len_app.
  repeat split; try lia.
  - apply boundary_ascii_prefix; auto. lia.
  - apply boundary_ascii_prefix; auto.
  - rewrite drop_app_le by lia. rewrite take_app_le; auto. rewrite len_drop. lia.
Qed.

Lemma slice_str_ascii s i j :
  ascii s = true -> i <= j -> j <= len s -> slice_str s i j = Ok (take (j - i) (drop i s)).
Proof.
  intros H Hij Hj. rewrite <- (app_nil_r s) at 1. now apply slice_str_ascii_prefix.
Qed.

Lemma from_str_ascii s i : ascii s = true -> i <= len s -> from_str s i = Ok (drop i s).
Proof.
  intros H Hi. unfold from_str. rewrite slice_str_ascii by (auto; lia). f_equal.
  apply take_all. rewrite len_drop. lia.
Qed.

(** ** UTF-8 *)
Lemma utf8_ascii_app a r : ascii a = true -> utf8 (a ++ r) = utf8 r.
Proof.
  induction a as [|b a IH]; intros H; simpl; auto.
  simpl in H. apply andb_true_iff in H as [H1 H2]. unfold is_ascii in H1. rewrite H1. auto.
Qed.
Lemma utf8_ascii a : ascii a = true -> utf8 a = true.
Proof. intros H. rewrite <- (app_nil_r a). now rewrite utf8_ascii_app. Qed.

Lemma ascii_take n a : ascii a = true -> ascii (take n a) = true.
Proof. intros H. rewrite <- (take_drop n a), ascii_app in H. now apply andb_true_iff in H. Qed.
Lemma ascii_drop n a : ascii a = true -> ascii (drop n a) = true.
Proof. intros H. rewrite <- (take_drop n a), ascii_app in H. now apply andb_true_iff in H. Qed.

(** ** Big-endian numbers *)
Lemma be_val_acc_spec l acc : be_val_acc acc l = acc * 256 ^ len l + be_val l.
Proof.
  unfold be_val. revert acc; induction l as [|b l IH]; intros acc.
  - unfold len. simpl. lia.
  - change (be_val_acc acc (b :: l)) with (be_val_acc (acc * 256 + b2n b) l).
    change (be_val_acc 0 (b :: l)) with (be_val_acc (0 * 256 + b2n b) l).
    rewrite (IH (acc * 256 + b2n b)), (IH (0 * 256 + b2n b)).
    rewrite len_cons, N.pow_add_r. change (256 ^ 1) with 256. lia.
Qed.
Lemma be_val_cons b l : be_val (b :: l) = b2n b * 256 ^ len l + be_val l.
Proof.
  unfold be_val at 1. change (be_val_acc 0 (b :: l)) with (be_val_acc (0 * 256 + b2n b) l).
  rewrite be_val_acc_spec. lia.
Qed.
Lemma be_val_nil : be_val [] = 0. Proof. reflexivity. Qed.
Lemma be_val_app a b : be_val (a ++ b) = be_val a * 256 ^ len b + be_val b.
Proof.
  induction a as [|x a IH]; simpl app.
  - rewrite be_val_nil. lia.
  - rewrite !be_val_cons, IH, len_app, N.pow_add_r. lia.
Qed.
Lemma be_val_lt l : be_val l < 256 ^ len l.
Proof.
  induction l as [|b l IH].
  - rewrite be_val_nil, (@len_nil byte). simpl. lia.
  - rewrite be_val_cons, len_cons, N.pow_add_r. change (256 ^ 1) with 256.
    pose proof (b2n_lt b). nia.
Qed.
Lemma len_be_bytes n v : len (be_bytes n v) = N.of_nat n.
Proof.
  revert v; induction n as [|n IH]; intros v; simpl be_bytes; auto.
  rewrite len_app, IH, len_cons, (@len_nil byte). lia.
Qed.
Lemma be_val_be_bytes n v : v < 256 ^ N.of_nat n -> be_val (be_bytes n v) = v.
Proof.
  revert v; induction n as [|n IH]; intros v H.
  - simpl in *. rewrite be_val_nil. lia.
  - simpl be_bytes. rewrite be_val_app, len_cons, (@len_nil byte). change (256 ^ (1 + 0)) with 256.
    rewrite be_val_cons, be_val_nil, (@len_nil byte). change (256 ^ 0) with 1.
    rewrite Nat2N.inj_succ, N.pow_succ_r' in H.
    rewrite IH by lia. rewrite b2n_n2b by lia. lia.
Qed.
Lemma be_val_inj a b : len a = len b -> be_val a = be_val b -> a = b.
Proof.
  revert b; induction a as [|x a IH]; intros [|y b] L H; auto.
  - rewrite (@len_nil byte), len_cons in L. lia.
  - rewrite (@len_nil byte), len_cons in L. lia.
  - rewrite !len_cons in L. assert (len a = len b) as L' by lia.
    rewrite !be_val_cons in H. rewrite L' in H.
    pose proof (be_val_lt a) as Ba. pose proof (be_val_lt b) as Bb. rewrite L' in Ba.
    assert (b2n x = b2n y) as E by nia.
    apply b2n_inj in E. subst y. f_equal. apply IH; auto. nia.
Qed.
Lemma be_bytes_be_val n l : len l = N.of_nat n -> be_bytes n (be_val l) = l.
Proof.
  intros H. apply be_val_inj.
  - now rewrite len_be_bytes.
  - apply be_val_be_bytes. rewrite <- H. apply be_val_lt.
Qed.
Lemma be_val_zeros n l : be_val (zeros n ++ l) = be_val l.
Proof.
  rewrite be_val_app. replace (be_val (zeros n)) with 0; [lia|].
  unfold zeros. induction (N.to_nat n) as [|k IH]; cbn [repeat]; [reflexivity|]. rewrite be_val_cons, b2n_0. lia.
Qed.

(** ** Slices of an extended string *)
Lemma boundary_app s r i : i <= len s -> boundary s i = true -> utf8 r = true -> boundary (s ++ r) i = true.
Proof.
  intros Hi Hb Hu. unfold boundary in *. destruct (i =? 0) eqn:E0; auto. cbn [orb] in *.
  destruct (N.eq_dec i (len s)) as [E|E].
  - subst i. destruct r as [|c r]; [rewrite app_nil_r, N.eqb_refl; auto|].
    assert (nth_error (s ++ c :: r) (N.to_nat (len s)) = Some c) as ->.
    { unfold len. rewrite Nat2N.id. rewrite nth_error_app2 by lia. now rewrite Nat.sub_diag. }
    rewrite (utf8_head_not_cont c r Hu). now rewrite orb_true_r.
  - replace (i =? len s) with false in Hb by lia. cbn [orb] in Hb. rewrite nth_error_app1 by (unfold len in *; lia). rewrite Hb. now rewrite orb_true_r.
Qed.
Lemma slice_str_app s r a b x : slice_str s a b = Ok x -> utf8 r = true -> slice_str (s ++ r) a b = Ok x.
Proof.
  unfold slice_str. intros H Hu. destruct ((a <=? b) && (b <=? len s) && boundary s a && boundary s b) eqn:E; try discriminate.
  apply andb_true_iff in E as [E B2]. apply andb_true_iff in E as [E B1]. apply andb_true_iff in E as [E1 E2]. inversion H; subst x.
  rewrite E1, (boundary_app s r a), (boundary_app s r b) by (auto; lia). rewrite len_app. replace (b <=? len s + len r) with true by lia. cbn [andb].
  f_equal. rewrite !take_drop_comm. replace (a + (b - a)) with b by lia. rewrite take_app_le by lia. reflexivity.
Qed.

Lemma ltb_app s (r : bytes) n : (len s <? n) = false -> (len (s ++ r) <? n) = false.
Proof. rewrite len_app. lia. Qed.
