(** Lemmas about version strings and sizing. *)
From Coq Require Import String.
From Coq Require Import NArith ZArith Lia Bool List.
From Verif Require Import Base BaseFacts Prims PrimsFacts Json JsonFacts Common SpecPrims SpecCommon.
Import ListNotations.
Open Scope N_scope.

(** ** Character classes *)
Lemma lhex_in c : lhex c = true <-> In c hex_alphabet.
Proof.
  split.
  - intros H. assert (forallb (fun c => implb (lhex c) (existsb (Byte.eqb c) hex_alphabet)) all_bytes = true) as A by (vm_compute; reflexivity).
    pose proof (forall_byte _ A c) as B. cbn beta in B. rewrite H in B. cbn [implb] in B. apply existsb_exists in B as (x & I & E).
    apply byte_eqb_eq in E. now subst.
  - intros H. assert (forallb lhex hex_alphabet = true) as A by (vm_compute; reflexivity). rewrite forallb_forall in A. now apply A.
Qed.
Lemma upper_in c : upper c = true <-> In c (s! "ABCDEFGHIJKLMNOPQRSTUVWXYZ").
Proof.
  split.
  - intros H. assert (forallb (fun c => implb (upper c) (existsb (Byte.eqb c) (s! "ABCDEFGHIJKLMNOPQRSTUVWXYZ"))) all_bytes = true) as A
      by (vm_compute; reflexivity).
    pose proof (forall_byte _ A c) as B. cbn beta in B. rewrite H in B. cbn [implb] in B. apply existsb_exists in B as (x & I & E).
    apply byte_eqb_eq in E. now subst.
  - intros H. assert (forallb upper (s! "ABCDEFGHIJKLMNOPQRSTUVWXYZ") = true) as A by (vm_compute; reflexivity). rewrite forallb_forall in A. now apply A.
Qed.
Lemma hex_digits_forallb n h : hex_digits n h <-> len h = n /\ forallb lhex h = true.
Proof. unfold hex_digits. rewrite forallb_forall. split; intros (A & B); split; auto; intros c I; apply lhex_in, B, I. Qed.
Lemma uppercase_forallb n h : uppercase n h <-> len h = n /\ forallb upper h = true.
Proof. unfold uppercase. rewrite forallb_forall. split; intros (A & B); split; auto; intros c I; apply upper_in, B, I. Qed.

(** ** Hexadecimal numbers *)
Lemma lhex_digit c : lhex c = true -> hex_digit c = Some (index_of c hex_alphabet) /\ index_of c hex_alphabet < 16 /\ hex_char (index_of c hex_alphabet) = c
  /\ Byte.eqb c x2b = false.
Proof.
  intros H. assert (forallb (fun c => implb (lhex c) (match hex_digit c with Some d => (d =? index_of c hex_alphabet) | None => false end
    && (index_of c hex_alphabet <? 16) && Byte.eqb (hex_char (index_of c hex_alphabet)) c && negb (Byte.eqb c x2b))) all_bytes = true) as A by (vm_compute; reflexivity).
  pose proof (forall_byte _ A c) as B. cbn beta in B. rewrite H in B. cbn [implb] in B.
  apply andb_prop in B as (B & B4). apply andb_prop in B as (B & B3). apply andb_prop in B as (B1 & B2).
  destruct (hex_digit c); [|discriminate]. apply N.eqb_eq in B1. apply N.ltb_lt in B2. apply byte_eqb_eq in B3. apply negb_true_iff in B4. subst. auto.
Qed.
Definition hex_acc (acc : N) (s : bytes) : N := fold_left (fun acc c => acc * 16 + index_of c hex_alphabet) s acc.
Lemma hex_acc_split s : forall acc, hex_acc acc s = acc * 16 ^ len s + hex_number s.
Proof.
  unfold hex_number. fold (hex_acc 0 s). induction s as [|c s IH]; intros acc; [change (hex_acc acc []) with acc; change (hex_acc 0 []) with 0; change (16 ^ len (@nil byte)) with 1; lia|].
  change (hex_acc acc (c :: s)) with (hex_acc (acc * 16 + index_of c hex_alphabet) s).
  change (hex_acc 0 (c :: s)) with (hex_acc (0 * 16 + index_of c hex_alphabet) s).
  rewrite IH, (IH (0 * 16 + _)). rewrite len_cons, N.pow_add_r. change (16 ^ 1) with 16. ring.
Qed.
Lemma hex_number_cons c s : hex_number (c :: s) = index_of c hex_alphabet * 16 ^ len s + hex_number s.
Proof. unfold hex_number at 1. cbn [fold_left]. fold (hex_acc (0 * 16 + index_of c hex_alphabet) s). rewrite hex_acc_split. lia. Qed.
Lemma hex_number_lt s : forallb lhex s = true -> hex_number s < 16 ^ len s.
Proof.
  induction s as [|c s IH]; intros H; [cbn; lia|]. cbn [forallb] in H. apply andb_prop in H as (Hc & H). specialize (IH H).
  rewrite hex_number_cons, len_cons, N.pow_add_r. change (16 ^ 1) with 16. destruct (lhex_digit c Hc) as (_ & L & _ & _). nia.
Qed.
Lemma hex_number_inj a : forall b, forallb lhex a = true -> forallb lhex b = true -> len a = len b -> hex_number a = hex_number b -> a = b.
Proof.
  induction a as [|c a IH]; intros [|d b] Ha Hb L E; auto; try (rewrite ?len_cons, ?len_nil in L; lia).
  cbn [forallb] in Ha, Hb. apply andb_prop in Ha as (Hc & Ha). apply andb_prop in Hb as (Hd & Hb). rewrite !len_cons in L.
  rewrite !hex_number_cons in E. assert (len a = len b) as L' by lia. rewrite L' in E.
  pose proof (hex_number_lt a Ha) as La. rewrite L' in La. pose proof (hex_number_lt b Hb) as Lb.
  destruct (digit_unique _ _ _ _ _ La Lb E) as (E1 & E2).
  destruct (lhex_digit c Hc) as (_ & _ & C & _). destruct (lhex_digit d Hd) as (_ & _ & D & _). rewrite E1, D in C. subst. f_equal. auto.
Qed.
Lemma hex_val_number s : forallb lhex s = true -> forall acc, hex_val acc s = Some (hex_acc acc s).
Proof.
  induction s as [|c s IH]; intros H acc; [reflexivity|]. cbn [forallb] in H. apply andb_prop in H as (Hc & H).
  cbn [hex_val]. destruct (lhex_digit c Hc) as (E & _). rewrite E, IH by auto. reflexivity.
Qed.
Lemma uint_hex max s : s <> [] -> forallb lhex s = true -> uint_from_hex max s = if hex_number s <=? max then Ok (hex_number s) else Err EForeign.
Proof.
  intros Hne H. destruct s as [|c s]; [congruence|]. unfold uint_from_hex. pose proof H as H'. cbn [forallb] in H'. apply andb_prop in H' as (Hc & _).
  destruct (lhex_digit c Hc) as (_ & _ & _ & E). rewrite E, hex_val_number by auto. reflexivity.
Qed.
Lemma to_hex_forallb n : n <= u128_max -> forallb lhex (to_hex n) = true /\ hex_number (to_hex n) = n.
Proof.
  intros H. destruct (to_hex_lower n H) as ((_ & A & _) & B). split; auto. apply forallb_forall. intros c I. apply lhex_in, A, I.
Qed.
Lemma hex_number_zeros k s : hex_number (repeat x30 k ++ s) = hex_number s.
Proof. induction k as [|k IH]; [reflexivity|]. cbn [repeat app]. rewrite hex_number_cons. change (index_of x30 hex_alphabet) with 0. rewrite IH. lia. Qed.
Lemma forallb_repeat {A} (f : A -> bool) x k : f x = true -> forallb f (repeat x k) = true.
Proof. intros H. induction k; cbn; auto. rewrite H. auto. Qed.
Lemma hex_pad_ok w n : n <= u128_max -> forallb lhex (hex_pad w n) = true /\ hex_number (hex_pad w n) = n /\ w <= len (hex_pad w n).
Proof.
  intros H. unfold hex_pad. destruct (to_hex_forallb n H) as (A & B). split; [|split].
  - rewrite forallb_app, A, forallb_repeat; reflexivity.
  - now rewrite hex_number_zeros.
  - rewrite len_app, len_repeat. lia.
Qed.
Lemma lower_len s n : lower_hex s -> hex_number s = n -> forallb lhex s = true -> forall w, 0 < w -> n < 16 ^ w -> len s <= w.
Proof.
  intros (Hne & _ & Z) E F w W L. destruct s as [|c s]; [congruence|]. rewrite len_cons. rewrite hex_number_cons in E.
  cbn [forallb] in F. apply andb_prop in F as (Hc & F). destruct (lhex_digit c Hc) as (_ & _ & C & _).
  destruct (N.eq_dec (index_of c hex_alphabet) 0) as [E0|E0].
  - rewrite E0 in C. change (hex_char 0) with x30 in C. subst c. rewrite (Z s eq_refl), len_nil. lia.
  - destruct (N.le_gt_cases (1 + len s) w) as [|G]; auto. exfalso.
    assert (16 ^ w <= 16 ^ len s) as P by (apply N.pow_le_mono_r; lia). nia.
Qed.
Lemma hex_pad_len w n : 0 < w -> n <= u128_max -> n < 16 ^ w -> len (hex_pad w n) = w.
Proof.
  intros W H L. unfold hex_pad. rewrite len_app, len_repeat. destruct (to_hex_lower n H) as (A & B). destruct (to_hex_forallb n H) as (C & _).
  pose proof (lower_len _ _ A B C w W L). lia.
Qed.
Lemma hex_pad_long w n : n <= u128_max -> len (hex_pad w n) <= w -> n < 16 ^ w.
Proof.
  intros H L. destruct (hex_pad_ok w n H) as (A & B & C). pose proof (hex_number_lt _ A). rewrite B in H0.
  replace (len (hex_pad w n)) with w in H0 by lia. auto.
Qed.

(** ** The pattern *)
Lemma match_classes_app p s r : match_classes p s = true -> match_classes p (s ++ r) = true.
Proof. revert s; induction p as [|f p IH]; intros [|c s]; cbn; auto; try discriminate. intros H. apply andb_prop in H as (A & B). rewrite A. cbn. auto. Qed.
Lemma match_classes_take p : forall s, match_classes p s = match_classes p (firstn (length p) s).
Proof. induction p as [|f p IH]; intros [|c s]; cbn; auto. now rewrite <- IH. Qed.
Lemma match_classes_len p : forall s, match_classes p s = true -> (length p <= length s)%nat.
Proof. induction p as [|f p IH]; intros [|c s]; cbn; try discriminate; try lia. intros H. apply andb_prop in H as (_ & B). specialize (IH _ B). lia. Qed.
Lemma match_classes_none p c : (forall f, In f p -> f c = false) -> forall a r, (length a < length p)%nat -> match_classes p (a ++ c :: r) = false.
Proof.
  induction p as [|f p IH]; intros H a r L; [cbn in L; lia|]. destruct a as [|x a]; cbn.
  - rewrite (H f); [reflexivity|now left].
  - rewrite IH; [apply andb_false_r| |cbn in L; lia]. intros g I. apply H. now right.
Qed.
Lemma rever_here_split s : rever_here s = true -> exists m r, s = m ++ r /\ len m = 17 /\ rever_here m = true.
Proof.
  intros H. pose proof (match_classes_len _ _ H) as L. exists (take 17 s), (drop 17 s). split; [now rewrite take_drop|].
  change (length rever) with 17%nat in L. split. { rewrite len_take. unfold len. lia. }
  unfold rever_here in *. rewrite match_classes_take in H. exact H.
Qed.
(** A character outside all classes. *)
Definition outside (c : byte) : bool := negb (upper c || lhex c || underscore c).
Lemma outside_none c : outside c = true -> forall f, In f rever -> f c = false.
Proof.
  unfold outside. rewrite negb_true_iff, !orb_false_iff. intros ((A & B) & C) f I. unfold rever in I. cbn in I.
  repeat (destruct I as [<-|I]; [assumption|]). destruct I.
Qed.
Lemma rever_here_outside a c r : outside c = true -> rever_here (a ++ c :: r) = rever_here a.
Proof.
  intros O. unfold rever_here. rewrite match_classes_take, (match_classes_take _ a). change (length rever) with 17%nat.
  destruct (Nat.le_gt_cases 17 (length a)) as [L|L].
  - rewrite firstn_app. replace (17 - length a)%nat with 0%nat by lia. cbn [firstn]. now rewrite app_nil_r.
  - rewrite <- !match_classes_take. rewrite match_classes_none; [|now apply outside_none|exact L].
    symmetry. apply not_true_iff_false. intros H. apply match_classes_len in H. change (length rever) with 17%nat in H. lia.
Qed.
Lemma find_rever_outside a c r : outside c = true ->
  find_rever (a ++ c :: r) = match find_rever a with Some i => Some i | None => match find_rever r with Some i => Some (i + 1 + len a) | None => None end end.
Proof.
  intros O. induction a as [|x a IH].
  - cbn [app]. cbn [find_rever]. change (rever_here (c :: r)) with (rever_here ([] ++ c :: r)). rewrite rever_here_outside by auto.
    change (rever_here []) with false. cbn iota. destruct (find_rever r); [|reflexivity]. rewrite len_nil. f_equal; lia.
  - cbn [app find_rever]. change (x :: a ++ c :: r) with ((x :: a) ++ c :: r). rewrite rever_here_outside by auto.
    destruct (rever_here (x :: a)); [reflexivity|]. rewrite IH. rewrite len_cons. destruct (find_rever a); [reflexivity|].
    destruct (find_rever r); [|reflexivity]. f_equal; lia.
Qed.
Lemma find_rever_start m r : rever_here m = true -> find_rever (m ++ r) = Some 0.
Proof.
  intros H. assert (rever_here (m ++ r) = true) as H' by now apply match_classes_app. destruct (m ++ r); cbn [find_rever]; now rewrite H'.
Qed.
Lemma find_rever_some s i : find_rever s = Some i -> exists p m t, s = p ++ m ++ t /\ len p = i /\ len m = 17 /\ rever_here m = true.
Proof.
  revert i; induction s as [|c s IH]; intros i; cbn [find_rever].
  - change (rever_here []) with false. discriminate.
  - destruct (rever_here (c :: s)) eqn:E.
    + intros [= <-]. destruct (rever_here_split _ E) as (m & r & Es & L & H). exists [], m, r. auto.
    + destruct (find_rever s) as [j|]; [|discriminate]. intros [= <-]. destruct (IH j eq_refl) as (p & m & t & -> & <- & L & H).
      exists (c :: p), m, t. rewrite len_cons. repeat split; auto. lia.
Qed.
Lemma find_rever_none s : find_rever s = None -> forall p m t, s = p ++ m ++ t -> rever_here m = false.
Proof.
  induction s as [|c s IH]; cbn [find_rever].
  - intros _ p m t E. symmetry in E. apply app_eq_nil in E as (-> & E). apply app_eq_nil in E as (-> & ->). reflexivity.
  - destruct (rever_here (c :: s)) eqn:E; [discriminate|]. destruct (find_rever s) eqn:F; [discriminate|]. intros _ p m t Es.
    destruct p as [|x p].
    + cbn [app] in Es. apply not_true_iff_false. intros H. rewrite Es in E. unfold rever_here in *. rewrite (match_classes_app _ _ _ H) in E. discriminate.
    + cbn [app] in Es. injection Es as <- Es. eapply IH; eauto.
Qed.

Lemma replace_none g s : find_rever s = None -> rever_replace g 0 s = s.
Proof.
  induction s as [|c s IH]; [reflexivity|]. cbn [find_rever rever_replace]. destruct (rever_here (c :: s)); [discriminate|].
  destruct (find_rever s); [discriminate|]. intros _. now rewrite IH.
Qed.
Lemma replace_skip g a b : forall k, length a = k -> rever_replace g k (a ++ b) = rever_replace g 0 b.
Proof.
  induction a as [|c a IH]; intros k E; cbn in E; subst k; [reflexivity|]. cbn [app rever_replace]. now apply IH.
Qed.
Lemma replace_here g m t : len m = 17 -> rever_here m = true -> rever_replace g 0 (m ++ t) = g m ++ rever_replace g 0 t.
Proof.
  intros L H. assert (rever_here (m ++ t) = true) as H' by now apply match_classes_app.
  destruct m as [|c m]; [rewrite len_nil in L; lia|]. cbn [app] in *. cbn [rever_replace]. rewrite H'.
  change (c :: m ++ t) with ((c :: m) ++ t). rewrite take_app_exact by exact L. rewrite replace_skip; [reflexivity|].
  rewrite len_cons in L. unfold len in L. lia.
Qed.
Lemma replace_some g s i : find_rever s = Some i -> exists p m t, s = p ++ m ++ t /\ len m = 17 /\ rever_here m = true /\
  rever_replace g 0 s = p ++ g m ++ rever_replace g 0 t.
Proof.
  revert i; induction s as [|c s IH]; intros i; cbn [find_rever].
  - change (rever_here []) with false. discriminate.
  - destruct (rever_here (c :: s)) eqn:E.
    + intros _. destruct (rever_here_split _ E) as (m & r & -> & L & H). exists [], m, r. split; [reflexivity|]. split; auto. split; auto.
      cbn [app]. now apply replace_here.
    + destruct (find_rever s) as [j|] eqn:F; [|discriminate]. intros _. destruct (IH j eq_refl) as (p & m & t & Es & L & H & R).
      exists (c :: p), m, t. split; [now rewrite Es|]. split; auto. split; auto. cbn [rever_replace]. rewrite E, R. reflexivity.
Qed.

(** The parts of a match. *)
Lemma list17 {A} (m : list A) : len m = 17 -> exists a b c d e f g h i j k l n o p q r, m = [a;b;c;d;e;f;g;h;i;j;k;l;n;o;p;q;r].
Proof.
  intros L. unfold len in L. do 17 (destruct m as [|?x m]; [cbn in L; lia|]). destruct m; [|cbn in L; lia]. do 17 eexists. reflexivity.
Qed.
Lemma rever_parts m : len m = 17 -> rever_here m = true ->
  m = g_ident m ++ g_major m ++ g_minor m ++ g_kind m ++ g_size m ++ [x5f] /\
  forallb upper (g_ident m) = true /\ forallb lhex (g_major m) = true /\ forallb lhex (g_minor m) = true /\ forallb upper (g_kind m) = true /\
  forallb lhex (g_size m) = true /\ len (g_ident m) = 4 /\ len (g_major m) = 1 /\ len (g_minor m) = 1 /\ len (g_kind m) = 4 /\ len (g_size m) = 6.
Proof.
  intros L H. destruct (list17 m L) as (a&b&c&d&e&f&g&h&i&j&k&l&n&o&p&q&r&->).
  unfold rever_here in H. unfold rever in H. cbn [match_classes] in H. repeat (apply andb_prop in H as (?H & H)).
  match goal with U : underscore r = true |- _ => unfold underscore in U; apply byte_eqb_eq in U; subst r end. clear L H. vm_compute (g_ident _). vm_compute (g_major _). vm_compute (g_minor _). vm_compute (g_kind _).
  vm_compute (g_size _). split; [reflexivity|]. cbn [forallb].
  repeat match goal with A : ?x = true |- _ => rewrite A; clear A end. repeat split; reflexivity.
Qed.
Lemma match_forall f n p a r : forallb f a = true -> length a = n -> match_classes (repeat f n ++ p) (a ++ r) = match_classes p r.
Proof.
  revert a; induction n as [|n IH]; intros [|c a] H L; cbn in L; try lia; cbn [repeat app]; auto. cbn [match_classes]. cbn [forallb] in H.
  apply andb_prop in H as (Hc & H). rewrite Hc. cbn. apply IH; auto.
Qed.
Lemma rever_build a b k h r : len a = 4 -> len b = 2 -> len k = 4 -> len h = 6 -> forallb upper a = true -> forallb lhex b = true -> forallb upper k = true ->
  forallb lhex h = true -> rever_here (a ++ b ++ k ++ h ++ x5f :: r) = true.
Proof.
  intros La Lb Lk Lh Fa Fb Fk Fh. unfold rever_here.
  change rever with (repeat upper 4 ++ repeat lhex 2 ++ repeat upper 4 ++ repeat lhex 6 ++ [underscore]).
  unfold len in *. rewrite !match_forall by (auto; lia). reflexivity.
Qed.
Lemma version_like_rever m : version_like m <-> len m = 17 /\ rever_here m = true.
Proof.
  split.
  - intros (p & v & k & h & -> & P & V & K & H). apply uppercase_forallb in P as (P1 & P2). apply uppercase_forallb in K as (K1 & K2).
    apply hex_digits_forallb in V as (V1 & V2). apply hex_digits_forallb in H as (H1 & H2). split.
    + rewrite !len_app, P1, V1, K1, H1. reflexivity.
    + apply rever_build; auto.
  - intros (L & H). destruct (rever_parts m L H) as (E & U1 & X1 & X2 & U2 & X3 & L1 & L2 & L3 & L4 & L5).
    exists (g_ident m), (g_major m ++ g_minor m), (g_kind m), (g_size m). rewrite <- !app_assoc. split; [exact E|].
    split; [apply uppercase_forallb; auto|]. split. { apply hex_digits_forallb. rewrite len_app, forallb_app, X1, X2, L2, L3. auto. }
    split; [apply uppercase_forallb|apply hex_digits_forallb]; auto.
Qed.
Lemma no_version_find t : no_version_in t <-> find_rever t = None.
Proof.
  split.
  - intros H. destruct (find_rever t) as [i|] eqn:E; auto. destruct (find_rever_some _ _ E) as (p & m & s & -> & _ & L & M).
    exfalso. apply (H p m s eq_refl). now apply version_like_rever.
  - intros H p m s -> V. apply version_like_rever in V as (_ & M). rewrite (find_rever_none _ H p m s eq_refl) in M. discriminate.
Qed.

(** ** deversify *)
Lemma replace_nil g s : (forall m, len m = 17 -> rever_here m = true -> g m <> []) -> rever_replace g 0 s = [] -> s = [].
Proof.
  intros G E. destruct (find_rever s) as [i|] eqn:F.
  - destruct (replace_some g s i F) as (p & m & t & _ & L & H & R). rewrite R in E. apply app_eq_nil in E as (_ & E). apply app_eq_nil in E as (E & _).
    now apply G in E.
  - now rewrite replace_none in E.
Qed.
Lemma replace_exact g s n i : (forall m, len m = 17 -> rever_here m = true -> len (g m) = n) -> 0 < n -> find_rever s = Some i ->
  len (rever_replace g 0 s) = n -> len s = 17 /\ rever_here s = true.
Proof.
  intros G N F L. destruct (replace_some g s i F) as (p & m & t & Es & Lm & H & R). rewrite R, !len_app, (G m Lm H) in L.
  assert (p = []) as -> by (apply len_0_nil; lia). assert (rever_replace g 0 t = []) as E by (apply len_0_nil; lia).
  apply replace_nil in E. { subst t. cbn [app] in Es. rewrite app_nil_r in Es. subst. auto. }
  intros m' L' H' Z. specialize (G m' L' H'). rewrite Z, len_nil in G. lia.
Qed.
Lemma replace_whole g m : len m = 17 -> rever_here m = true -> replace_all g m = g m.
Proof.
  intros L H. unfold replace_all. pose proof (replace_here g m [] L H) as R. rewrite app_nil_r in R. rewrite R. cbn. apply app_nil_r.
Qed.
Lemma has_code_in l c : has_code l c = true <-> In c l.
Proof.
  unfold has_code. rewrite existsb_exists. split.
  - intros (x & I & E). apply beq_eq in E. now subst.
  - intros I. exists c. split; auto. apply beq_refl.
Qed.
Lemma hex1_le m : len m = 1 -> forallb lhex m = true -> hex_number m < 16.
Proof. intros L H. pose proof (hex_number_lt _ H). rewrite L in H0. exact H0. Qed.
Lemma hex6_le m : len m = 6 -> forallb lhex m = true -> hex_number m < 2 ^ 24.
Proof. intros L H. pose proof (hex_number_lt _ H). rewrite L in H0. exact H0. Qed.
Lemma ne_len {A} (l : list A) n : len l = n -> 0 < n -> l <> [].
Proof. intros L N ->. rewrite len_nil in L. lia. Qed.

Lemma deversify_match m : len m = 17 -> rever_here m = true ->
  deversify m = if negb (has_code idents (g_ident m)) then Err EValidation else if negb (has_code serials (g_kind m)) then Err EValidation
    else Ok (Vi (g_ident m) (g_kind m) (Ver (hex_number (g_major m)) (hex_number (g_minor m))) (hex_number (g_size m))).
Proof.
  intros L H. unfold deversify. pose proof (find_rever_start m [] H) as F. rewrite app_nil_r in F. rewrite F.
  rewrite !replace_whole by auto. destruct (rever_parts m L H) as (E & U1 & X1 & X2 & U2 & X3 & L1 & L2 & L3 & L4 & L5).
  rewrite !uint_hex by (eauto using ne_len; eapply ne_len; eauto; lia).
  pose proof (hex1_le _ L2 X1). pose proof (hex1_le _ L3 X2). pose proof (hex6_le _ L5 X3). change (2 ^ 24) with 16777216 in *.
  replace (hex_number (g_major m) <=? 255) with true by (symmetry; apply N.leb_le; lia).
  replace (hex_number (g_minor m) <=? 255) with true by (symmetry; apply N.leb_le; lia).
  replace (hex_number (g_size m) <=? u32_max) with true by (symmetry; apply N.leb_le; unfold u32_max; lia).
  rewrite !bind_Ok. reflexivity.
Qed.
Lemma version_string_rever vs proto a b n : version_string vs proto a b n -> len vs = 17 /\ rever_here vs = true.
Proof.
  intros (P & x & y & h & -> & X & Y & H & _). apply hex_digits_forallb in X as (X1 & X2). apply hex_digits_forallb in Y as (Y1 & Y2).
  apply hex_digits_forallb in H as (H1 & H2).
  assert (len proto = 4 /\ forallb upper proto = true) as (P1 & P2) by (destruct P as [-> | ->]; split; reflexivity).
  split. { rewrite !len_app, P1, X1, Y1, H1. reflexivity. }
  replace (proto ++ x ++ y ++ s! "JSON" ++ h ++ s! "_") with (proto ++ (x ++ y) ++ s! "JSON" ++ h ++ s! "_") by (rewrite <- !app_assoc; reflexivity).
  apply rever_build; auto. { rewrite len_app, X1, Y1. reflexivity. } rewrite forallb_app, X2, Y2. reflexivity.
Qed.
Lemma deversify_ok vs i : deversify vs = Ok i <->
  version_string vs (vi_ident i) (v_major (vi_version i)) (v_minor (vi_version i)) (vi_size i) /\ vi_kind i = s! "JSON".
Proof.
  split.
  - intros D. assert (len vs = 17 /\ rever_here vs = true) as (L & H).
    { unfold deversify in D. destruct (find_rever vs) as [j|] eqn:F; [|discriminate].
      apply bind_ok in D as (x & _ & D). apply bind_ok in D as (y & _ & D). apply bind_ok in D as (z & _ & D).
      destruct (has_code idents (replace_all g_ident vs)) eqn:Hc; [|discriminate]. apply has_code_in in Hc.
      apply (replace_exact g_ident vs 4 j); [| lia|auto|].
      - intros m Lm Hm. now destruct (rever_parts m Lm Hm) as (_ & _ & _ & _ & _ & _ & L1 & _).
      - unfold replace_all in Hc. destruct Hc as [<-|[<-|[]]]; reflexivity. }
    rewrite deversify_match in D by auto. destruct (has_code idents (g_ident vs)) eqn:Hc; [|discriminate]. cbn [negb] in D.
    destruct (has_code serials (g_kind vs)) eqn:Hk; [|discriminate]. cbn [negb] in D. injection D as <-. cbn [vi_ident vi_version vi_kind vi_size v_major v_minor].
    apply has_code_in in Hc, Hk. destruct Hk as [Hk|[]].
    destruct (rever_parts vs L H) as (E & U1 & X1 & X2 & U2 & X3 & L1 & L2 & L3 & L4 & L5).
    split; auto. split. { destruct Hc as [Hc|[Hc|[]]]; auto. }
    exists (g_major vs), (g_minor vs), (g_size vs). split. { rewrite Hk. exact E. }
    repeat split; auto; intros c I; apply lhex_in; match goal with F : forallb lhex ?l = true, I : In c ?l |- _ => rewrite forallb_forall in F; now apply F end.
  - intros (V & K). destruct (version_string_rever _ _ _ _ _ V) as (L & H). rewrite deversify_match by auto.
    destruct V as (P & x & y & h & E & X & Y & Z & EX & EY & EZ).
    destruct (rever_parts vs L H) as (E' & _ & _ & _ & _ & _ & L1 & L2 & L3 & L4 & L5).
    rewrite E in E' at 1. 
    assert (len (vi_ident i) = 4) as P1 by (destruct P as [-> | ->]; reflexivity).
    apply app_eq_len in E' as (E1 & E'); [|lia]. apply app_eq_len in E' as (E2 & E'); [|destruct X; lia]. apply app_eq_len in E' as (E3 & E'); [|destruct Y; lia].
    apply app_eq_len in E' as (E4 & E'); [|rewrite L4; reflexivity]. apply app_eq_len in E' as (E5 & E'); [|destruct Z; lia].
    rewrite <- E1, <- E2, <- E3, <- E4, <- E5.
    replace (has_code idents (vi_ident i)) with true by (destruct P as [-> | ->]; reflexivity). cbn [negb].
    change (has_code serials (s! "JSON")) with true. cbn [negb]. rewrite EX, EY, EZ. destruct i as [? ? [? ?] ?]. cbn in *. subst. reflexivity.
Qed.

(** ** versify *)
Lemma versify_eq proto maj min size : In proto idents -> versify (Some proto) (Some (Ver maj min)) (Some (s! "JSON")) (Some size) =
  Ok (proto ++ hex_pad 1 maj ++ hex_pad 1 min ++ s! "JSON" ++ hex_pad 6 size ++ [x5f]).
Proof. intros I. unfold versify. cbn [or_else]. replace (has_code idents proto) with true by (symmetry; now apply has_code_in). reflexivity. Qed.
Lemma idents_or proto : In proto idents <-> proto = s! "KERI" \/ proto = s! "ACDC".
Proof. split. - intros [<-|[<-|[]]]; auto. - intros [-> | ->]; [right; left|left]; reflexivity. Qed.
Lemma versify_string proto maj min size : In proto idents -> maj < 16 -> min < 16 -> size < 2 ^ 24 ->
  version_string (proto ++ hex_pad 1 maj ++ hex_pad 1 min ++ s! "JSON" ++ hex_pad 6 size ++ [x5f]) proto maj min size.
Proof.
  intros P A B S. split; [now apply idents_or|]. exists (hex_pad 1 maj), (hex_pad 1 min), (hex_pad 6 size). split; [reflexivity|].
  change (2 ^ 24) with (16 ^ 6) in S. assert (forall n, n < 16 ^ 6 -> n <= u128_max) as U. { intros n L. change (16 ^ 6) with 16777216 in L. unfold u128_max. lia. }
  assert (maj <= u128_max) as U1 by (apply U; change (16 ^ 6) with 16777216; lia).
  assert (min <= u128_max) as U2 by (apply U; change (16 ^ 6) with 16777216; lia).
  destruct (hex_pad_ok 1 maj U1) as (A1 & A2 & _). destruct (hex_pad_ok 1 min U2) as (B1 & B2 & _). destruct (hex_pad_ok 6 size (U _ S)) as (C1 & C2 & _).
  rewrite !hex_digits_forallb. rewrite !hex_pad_len by (auto; lia). auto 10.
Qed.
Lemma version_string_unique v w p a b n : version_string v p a b n -> version_string w p a b n -> v = w.
Proof.
  intros (_ & x & y & h & -> & X & Y & H & X1 & Y1 & H1) (_ & x' & y' & h' & -> & X' & Y' & H' & X1' & Y1' & H1').
  rewrite hex_digits_forallb in X, Y, H, X', Y', H'.
  assert (x = x') as -> by (apply hex_number_inj; try apply X; try apply X'; [destruct X, X'|]; congruence).
  assert (y = y') as -> by (apply hex_number_inj; try apply Y; try apply Y'; [destruct Y, Y'|]; congruence).
  assert (h = h') as -> by (apply hex_number_inj; try apply H; try apply H'; [destruct H, H'|]; congruence). reflexivity.
Qed.
Lemma version_string_bounds v p a b n : version_string v p a b n -> a < 16 /\ b < 16 /\ n < 2 ^ 24.
Proof.
  intros (_ & x & y & h & _ & X & Y & H & <- & <- & <-). rewrite hex_digits_forallb in X, Y, H. destruct X, Y, H.
  split; [|split]; [apply hex1_le|apply hex1_le|apply hex6_le]; auto.
Qed.

(** ** UTF-8 around an ASCII character *)
Lemma ascii_not_cont c : b2n c <= 127 -> is_cont c = false.
Proof. intros H. unfold is_cont. lia. Qed.
Lemma utf8_mid c r : b2n c <= 127 -> forall n a, (length a <= n)%nat -> utf8 (a ++ c :: r) = utf8 a && utf8 r.
Proof.
  intros C. assert (b2n c <=? 127 = true) as C' by now apply N.leb_le. pose proof (ascii_not_cont c C) as NC.
  induction n as [|n IH]; intros a L.
  - destruct a; [|cbn in L; lia]. cbn [app utf8]. rewrite C'. reflexivity.
  - destruct a as [|b a]; [cbn [app utf8]; rewrite C'; reflexivity|]. cbn in L. cbn [app utf8].
    destruct (b2n b <=? 127). { apply IH. lia. }
    destruct (in_range 194 223 b).
    { destruct a as [|c1 a]; cbn [app]. { rewrite NC. reflexivity. } rewrite IH by (cbn in L; lia). now rewrite andb_assoc. }
    destruct (in_range 224 239 b).
    { destruct a as [|c1 a]; cbn [app].
      { destruct r as [|c2 r]; [reflexivity|]. unfold in_range. replace (160 <=? b2n c) with false by lia. replace (128 <=? b2n c) with false by lia.
        rewrite NC. destruct (b2n b =? 224), (b2n b =? 237); reflexivity. }
      destruct a as [|c2 a]; cbn [app]. { rewrite NC. rewrite andb_false_r. reflexivity. }
      rewrite IH by (cbn in L; lia). now rewrite !andb_assoc. }
    destruct (in_range 240 244 b); [|reflexivity].
    destruct a as [|c1 a]; cbn [app].
    { destruct r as [|c2 [|c3 r]]; try reflexivity. unfold in_range. replace (144 <=? b2n c) with false by lia. replace (128 <=? b2n c) with false by lia.
      rewrite NC. destruct (b2n b =? 240), (b2n b =? 244); reflexivity. }
    destruct a as [|c2 a]; cbn [app]. { destruct r as [|c3 r]; [reflexivity|]. rewrite NC, andb_false_r. reflexivity. }
    destruct a as [|c3 a]; cbn [app]. { rewrite NC, andb_false_r. reflexivity. }
    rewrite IH by (cbn in L; lia). now rewrite !andb_assoc.
Qed.
Lemma utf8_quote a r : utf8 (a ++ x22 :: r) = utf8 a && utf8 r.
Proof. eapply utf8_mid; [vm_compute; discriminate|]. reflexivity. Qed.

(** ** JSON text of an object around one field *)
Definition field (kv : bytes * value) : bytes := json_string (fst kv) ++ x3a :: to_json (snd kv).
Lemma to_json_obj m : to_json (VObj m) = x7b :: join [x2c] (map field m) ++ [x7d].
Proof. reflexivity. Qed.
Definition lead (m1 : list (bytes * value)) : bytes := match m1 with [] => [] | _ => join [x2c] (map field m1) ++ [x2c] end.
Definition tail (m2 : list (bytes * value)) : bytes := concat (map (fun kv => x2c :: field kv) m2) ++ [x7d].
Lemma join_tail x l : join [x2c] (x :: l) = x ++ concat (map (cons x2c) l).
Proof.
  revert x; induction l as [|y l IH]; intros x; [cbn; now rewrite app_nil_r|]. rewrite join_cons2, IH. reflexivity.
Qed.
Lemma join_split l1 x l2 : join [x2c] (l1 ++ x :: l2) = (match l1 with [] => [] | _ => join [x2c] l1 ++ [x2c] end) ++ x ++ concat (map (cons x2c) l2).
Proof.
  destruct l1 as [|y l1].
  - cbn [app]. apply join_tail.
  - cbn [app]. rewrite !join_tail, map_app, concat_app. cbn [map concat]. rewrite <- !app_assoc. reflexivity.
Qed.
Lemma to_json_split m1 kv m2 : to_json (VObj (m1 ++ kv :: m2)) = x7b :: lead m1 ++ field kv ++ tail m2.
Proof.
  rewrite to_json_obj, map_app. cbn [map]. rewrite join_split. unfold tail. rewrite map_map. f_equal. rewrite <- !app_assoc.
  destruct m1; reflexivity.
Qed.
Definition fore (m1 : list (bytes * value)) (k : bytes) : bytes := x7b :: lead m1 ++ json_string k ++ [x3a; x22].
Definition back (m2 : list (bytes * value)) : bytes := x22 :: tail m2.
(** Text that JSON does not escape. *)
Definition plain (c : byte) : bool := (32 <=? b2n c) && negb (Byte.eqb c x22) && negb (Byte.eqb c x5c).
Lemma escape_plain s : forallb plain s = true -> concat (map escape1 s) = s.
Proof.
  assert (forallb (fun c => implb (plain c) (beq (escape1 c) [c])) all_bytes = true) as A by (vm_compute; reflexivity).
  induction s as [|c s IH]; intros H; [reflexivity|]. cbn [forallb] in H. apply andb_prop in H as (Hc & H). cbn [map concat]. rewrite IH by auto.
  pose proof (forall_byte _ A c) as B. cbn beta in B. rewrite Hc in B. cbn [implb] in B. apply beq_eq in B. rewrite B. reflexivity.
Qed.
Lemma to_json_str m1 k t m2 : forallb plain t = true -> to_json (VObj (m1 ++ (k, VStr t) :: m2)) = fore m1 k ++ t ++ back m2.
Proof.
  intros P. rewrite to_json_split. unfold field, fore, back. cbn [fst snd to_json]. unfold json_string at 2. rewrite escape_plain by auto.
  cbn [app]. f_equal. rewrite <- !app_assoc. cbn [app]. rewrite <- !app_assoc. reflexivity.
Qed.
Lemma class_plain : forallb (fun c => implb (upper c || lhex c || underscore c) (plain c && (b2n c <=? 127))) all_bytes = true.
Proof. vm_compute. reflexivity. Qed.
Lemma upper_plain s : forallb upper s = true -> forallb plain s = true /\ ascii s = true.
Proof.
  intros H. unfold ascii. rewrite !forallb_forall in *. split; intros c I; pose proof (forall_byte _ class_plain c) as B; cbn beta in B; rewrite (H c I) in B;
  apply andb_prop in B; apply B.
Qed.
Lemma lhex_plain s : forallb lhex s = true -> forallb plain s = true /\ ascii s = true.
Proof.
  intros H. unfold ascii. rewrite !forallb_forall in *. split; intros c I; pose proof (forall_byte _ class_plain c) as B; cbn beta in B;
  rewrite (H c I), orb_true_r in B; apply andb_prop in B; apply B.
Qed.
Lemma version_string_plain vs p a b n : version_string vs p a b n -> forallb plain vs = true /\ ascii vs = true.
Proof.
  intros (P & x & y & h & -> & X & Y & H & _). rewrite hex_digits_forallb in X, Y, H. destruct X as (_ & X). destruct Y as (_ & Y). destruct H as (_ & H).
  destruct (lhex_plain _ X) as (X1 & X2). destruct (lhex_plain _ Y) as (Y1 & Y2). destruct (lhex_plain _ H) as (H1 & H2).
  rewrite !forallb_app, !ascii_app, X1, X2, Y1, Y2, H1, H2. destruct P as [-> | ->]; split; reflexivity.
Qed.

(** ** Where the version string is found *)
Lemma find_rever_lead m1 : find_rever (to_json (VObj m1)) = None -> find_rever (x7b :: lead m1) = None.
Proof.
  intros H. destruct m1 as [|kv m1]; [vm_compute; reflexivity|]. rewrite to_json_obj in H. unfold lead.
  remember (join [x2c] (map field (kv :: m1))) as J. change (x7b :: J ++ [x7d]) with ((x7b :: J) ++ [x7d]) in H.
  change (x7b :: J ++ [x2c]) with ((x7b :: J) ++ [x2c]). rewrite find_rever_outside in * by reflexivity. destruct (find_rever (x7b :: J)); auto.
Qed.
Lemma find_rever_vs m1 m vs r : find_rever (to_json (VObj m1)) = None -> vs = m ++ r -> rever_here m = true ->
  find_rever (fore m1 (s! "v") ++ vs) = Some (len (fore m1 (s! "v"))).
Proof.
  intros H -> M. apply find_rever_lead in H. unfold fore. vm_compute (json_string (s! "v")).
  replace ((x7b :: lead m1 ++ [x22; x76; x22] ++ [x3a; x22]) ++ m ++ r) with ((x7b :: lead m1) ++ x22 :: [] ++ x76 :: [] ++ x22 :: [] ++ x3a :: [] ++ x22 :: m ++ r)
    by (cbn [app]; rewrite <- !app_assoc; reflexivity).
  rewrite find_rever_outside, H by reflexivity. do 4 (rewrite find_rever_outside by reflexivity; change (find_rever []) with (@None N); cbn iota).
  rewrite find_rever_start by auto. f_equal. unfold len. cbn [length]. rewrite !app_length. cbn [length]. lia.
Qed.

(** ** sizeify *)
Lemma assoc_split {A} k v (m : list (bytes * A)) : assoc k m = Some v -> exists m1 m2, m = m1 ++ (k, v) :: m2 /\ ~ In k (map fst m1).
Proof.
  induction m as [|[k' v'] m IH]; cbn [assoc]; [discriminate|]. destruct (beq k' k) eqn:E.
  - intros [= <-]. apply beq_eq in E. subst. exists [], m. split; auto.
  - intros H. destruct (IH H) as (m1 & m2 & -> & N). exists ((k', v') :: m1), m2. split; [reflexivity|]. cbn. intros [F|F]; [|contradiction].
    apply beq_neq in E. congruence.
Qed.
Lemma assoc_at {A} k (v : A) m1 m2 : ~ In k (map fst m1) -> assoc k (m1 ++ (k, v) :: m2) = Some v.
Proof. intros N. rewrite assoc_app, assoc_none by auto. cbn. now rewrite beq_refl. Qed.
Lemma insert_at {A} k (v w : A) m1 m2 : ~ In k (map fst m1) -> insert k w (m1 ++ (k, v) :: m2) = m1 ++ (k, w) :: m2.
Proof.
  induction m1 as [|[k' v'] m1 IH]; intros N; cbn [app insert].
  - now rewrite beq_refl.
  - cbn in N. replace (beq k' k) with false. { rewrite IH by tauto. reflexivity. } symmetry. apply beq_neq. tauto.
Qed.

Definition vtext (proto : bytes) (size : N) : bytes := proto ++ hex_pad 1 1 ++ hex_pad 1 0 ++ s! "JSON" ++ hex_pad 6 size ++ [x5f].
Lemma vtext_string proto size : In proto idents -> size < 2 ^ 24 -> version_string (vtext proto size) proto 1 0 size.
Proof. intros P L. apply versify_string; auto; lia. Qed.
Lemma as_u32_le n : as_u32 n <= u32_max.
Proof. unfold as_u32, u32_max. pose proof (N.mod_upper_bound n 4294967296). lia. Qed.
Lemma vtext_len proto size : In proto idents -> size <= u32_max -> (len (vtext proto size) =? 17) = (size <? 2 ^ 24).
Proof.
  intros P S. destruct (size <? 2 ^ 24) eqn:E.
  - apply N.ltb_lt in E. apply N.eqb_eq. eapply version_string_rever, vtext_string; eauto.
  - apply N.ltb_ge in E. apply N.eqb_neq. intros L. assert (size <= u128_max) as S' by (unfold u32_max, u128_max in *; lia).
    assert (len (hex_pad 6 size) <= 6) as L6.
    { unfold vtext in L. rewrite !len_app in L. assert (len proto = 4) as LP by (apply idents_or in P as [-> | ->]; reflexivity). rewrite LP in L.
      change (len (hex_pad 1 1)) with 1 in L. change (len (hex_pad 1 0)) with 1 in L. change (len (s! "JSON")) with 4 in L. change (len [x5f]) with 1 in L. lia. }
    pose proof (hex_pad_long 6 size S' L6). change (16 ^ 6) with (2 ^ 24) in *. lia.
Qed.

Definition knd (kind : option bytes) : bool := has_code serials (or_else kind (s! "JSON")).
Lemma knd_json kind : knd kind = true -> or_else kind (s! "JSON") = s! "JSON".
Proof. unfold knd. rewrite has_code_in. intros [E|[]]. auto. Qed.

(** What sizeify does when the leftmost version-like text is that of the field [v]. *)
Definition sized_of (m1 m2 : list (bytes * value)) (proto : bytes) : sized :=
  let size := len (fore m1 (s! "v")) + 17 + len (back m2) in
  let vs := vtext proto (as_u32 size) in
  Sz (fore m1 (s! "v") ++ vs ++ back m2) proto (s! "JSON") (VObj (m1 ++ (s! "v", VStr vs) :: m2)) (Ver 1 0).
Lemma sizeify_spec m1 vs m2 kind proto maj min n : ~ In (s! "v") (map fst m1) -> find_rever (to_json (VObj m1)) = None -> version_string vs proto maj min n ->
  sizeify (VObj (m1 ++ (s! "v", VStr vs) :: m2)) kind =
  if negb ((maj =? 1) && (min =? 0)) then Err EValue
  else if negb (knd kind) then Err EValue
  else if negb (utf8 (fore m1 (s! "v")) && utf8 (tail m2)) then Err EForeign
  else if 12 <? len (fore m1 (s! "v")) then Err EValue
  else if as_u32 (len (fore m1 (s! "v")) + 17 + len (back m2)) <? 2 ^ 24 then Ok (sized_of m1 m2 proto) else Err EValue.
Proof.
  intros N F V. unfold sizeify. cbn [to_map]. rewrite bind_Ok. unfold contains_key. rewrite assoc_at by auto. cbn [negb].
  cbn [index_str]. rewrite assoc_at by auto. rewrite bind_Ok. cbn [to_string]. rewrite bind_Ok.
  assert (deversify vs = Ok (Vi proto (s! "JSON") (Ver maj min) n)) as -> by (apply deversify_ok; split; auto). rewrite bind_Ok.
  cbn [vi_version vi_kind vi_ident]. unfold version_eqb. cbn [v_major v_minor current_version].
  destruct ((maj =? 1) && (min =? 0)) eqn:EV; [|reflexivity]. cbn [negb]. fold (knd kind). destruct (knd kind) eqn:K; [|reflexivity]. cbn [negb].
  apply andb_prop in EV as (M & M'). apply N.eqb_eq in M, M'. subst maj min.
  rewrite (knd_json _ K). unfold dumps. cbn [or_else]. rewrite beq_refl. rewrite bind_Ok.
  destruct (version_string_plain _ _ _ _ _ V) as (PL & AS). destruct (version_string_rever _ _ _ _ _ V) as (L17 & RV).
  rewrite to_json_str by auto. unfold from_utf8.
  assert (utf8 (fore m1 (s! "v") ++ vs ++ back m2) = utf8 (fore m1 (s! "v")) && utf8 (tail m2)) as ->.
  { unfold fore. set (P := x7b :: lead m1 ++ json_string (s! "v") ++ [x3a]).
    replace (x7b :: lead m1 ++ json_string (s! "v") ++ [x3a; x22]) with (P ++ x22 :: []) by (unfold P; cbn [app]; rewrite <- !app_assoc; reflexivity).
    rewrite <- app_assoc. cbn [app]. rewrite !utf8_quote. rewrite utf8_ascii_app by auto. cbn [utf8]. rewrite andb_true_r. unfold back. reflexivity. }
  destruct (utf8 (fore m1 (s! "v")) && utf8 (tail m2)); [|reflexivity]. cbn [negb]. rewrite bind_Ok.
  rewrite (find_rever_vs m1 vs (vs ++ back m2) (back m2)) by auto.
  set (FO := fore m1 (s! "v")) in *. set (BA := back m2) in *. destruct (12 <? len FO); [reflexivity|].
  rewrite slice_bytes_in by (rewrite ?len_app; lia). rewrite bind_Ok. rewrite from_bytes_in by (rewrite !len_app; lia). rewrite bind_Ok.
  rewrite N.sub_0_r, drop_0, take_app_exact by reflexivity.
  replace (drop (len FO + 17) (FO ++ vs ++ BA)) with BA by (rewrite app_assoc, drop_app_exact; [reflexivity|rewrite len_app; lia]).
  assert (In proto idents) as IP by (apply idents_or; apply V). rewrite versify_eq by auto. rewrite bind_Ok.
  replace (len (FO ++ vs ++ BA)) with (len FO + 17 + len BA) by (rewrite !len_app; lia). fold (vtext proto (as_u32 (len FO + 17 + len BA))).
  set (VT := vtext proto (as_u32 (len FO + 17 + len BA))). rewrite !len_app.
  pose proof (vtext_len proto (as_u32 (len FO + 17 + len BA)) IP (as_u32_le _)) as LE. fold VT in LE.
  replace (len FO + (len VT + len BA) =? len FO + 17 + len BA) with (len VT =? 17) by (destruct (len VT =? 17) eqn:X; lia).
  rewrite LE. destruct (as_u32 _ <? 2 ^ 24); [|reflexivity]. cbn [negb set_str]. rewrite bind_Ok. rewrite insert_at by auto. reflexivity.
Qed.
(** Whatever sizeify accepts is an object whose [v] is a version string 1.0. *)
Lemma sizeify_shape ked kind z : sizeify ked kind = Ok z -> exists m1 vs m2 proto n, ked = VObj (m1 ++ (s! "v", VStr vs) :: m2) /\ ~ In (s! "v") (map fst m1) /\
  version_string vs proto 1 0 n.
Proof.
  unfold sizeify. intros H. apply bind_ok in H as (m & E & H). destruct ked; try discriminate. injection E as ->.
  unfold contains_key in H. cbn [index_str] in H. destruct (assoc (s! "v") m) as [v|] eqn:A; [|discriminate]. cbn [negb] in H. rewrite bind_Ok in H.
  apply bind_ok in H as (vs & E & H). destruct v; try discriminate. injection E as ->. apply bind_ok in H as (i & D & H).
  destruct (version_eqb (vi_version i) current_version) eqn:EV; [|discriminate]. unfold version_eqb in EV. apply andb_prop in EV as (M1 & M2).
  apply N.eqb_eq in M1, M2. apply deversify_ok in D as (D & _). rewrite M1, M2 in D.
  destruct (assoc_split _ _ _ A) as (m1 & m2 & -> & N). exists m1, vs, m2, (vi_ident i), (vi_size i). auto.
Qed.

(** ** JSON text is UTF-8 *)
Lemma utf8_app_n r : forall n a, (length a <= n)%nat -> utf8 a = true -> utf8 (a ++ r) = utf8 r.
Proof.
  induction n as [|n IH]; intros a L U.
  - destruct a; [reflexivity|cbn in L; lia].
  - destruct a as [|b a]; [reflexivity|]. cbn in L. cbn [app utf8] in *. destruct (b2n b <=? 127). { apply IH; auto. lia. }
    destruct (in_range 194 223 b).
    { destruct a as [|c1 a]; [discriminate|]. cbn [app]. apply andb_prop in U as (U1 & U). rewrite U1. apply IH; auto. cbn in L. lia. }
    destruct (in_range 224 239 b).
    { destruct a as [|c1 [|c2 a]]; try discriminate. cbn [app]. apply andb_prop in U as (U1 & U). rewrite U1. apply IH; auto. cbn in L. lia. }
    destruct (in_range 240 244 b); [|discriminate].
    destruct a as [|c1 [|c2 [|c3 a]]]; try discriminate. cbn [app]. apply andb_prop in U as (U1 & U). rewrite U1. apply IH; auto. cbn in L. lia.
Qed.
Lemma utf8_app a r : utf8 a = true -> utf8 (a ++ r) = utf8 r.
Proof. now apply (utf8_app_n r (length a)). Qed.
Lemma escape_ascii : forallb (fun c => implb (b2n c <=? 127) (ascii (escape1 c))) all_bytes = true.
Proof. vm_compute. reflexivity. Qed.
Lemma escape_high : forallb (fun c => implb (128 <=? b2n c) (beq (escape1 c) [c])) all_bytes = true.
Proof. vm_compute. reflexivity. Qed.
Lemma escape1_high c : 128 <= b2n c -> escape1 c = [c].
Proof. intros H. pose proof (forall_byte _ escape_high c) as B. cbn beta in B. replace (128 <=? b2n c) with true in B by lia. now apply beq_eq in B. Qed.
Lemma utf8_escape_n : forall n s, (length s <= n)%nat -> utf8 s = true -> utf8 (concat (map escape1 s)) = true.
Proof.
  induction n as [|n IH]; intros s L U.
  - destruct s; [reflexivity|cbn in L; lia].
  - destruct s as [|b a]; [reflexivity|]. cbn in L. cbn [utf8] in U. cbn [map concat]. destruct (b2n b <=? 127) eqn:E.
    { pose proof (forall_byte _ escape_ascii b) as B. cbn beta in B. rewrite E in B. cbn [implb] in B. rewrite utf8_ascii_app by auto. apply IH; auto. lia. }
    assert (128 <= b2n b) as Hb by lia. rewrite (escape1_high b Hb). cbn [app utf8]. rewrite E.
    assert (forall c, is_cont c = true -> escape1 c = [c]) as Cc by (intros c Hc; apply escape1_high; unfold is_cont in Hc; lia).
    assert (forall lo hi c, 128 <= lo -> in_range lo hi c = true -> escape1 c = [c]) as Cr by (intros lo hi c Hl Hc; apply escape1_high; unfold in_range in Hc; lia).
    destruct (in_range 194 223 b).
    { destruct a as [|c1 a]; [discriminate|]. apply andb_prop in U as (U1 & U). cbn [map concat]. rewrite (Cc _ U1). cbn [app]. rewrite U1. apply IH; auto. cbn in L. lia. }
    destruct (in_range 224 239 b).
    { destruct a as [|c1 [|c2 a]]; try discriminate. apply andb_prop in U as (U1 & U). pose proof U1 as W. apply andb_prop in W as (W1 & W2). cbn [map concat].
      assert (escape1 c1 = [c1]) as ->. { destruct (b2n b =? 224), (b2n b =? 237); first [apply Cc; exact W1|eapply Cr; [|exact W1]; lia]. }
      rewrite (Cc _ W2). cbn [app]. rewrite U1. apply IH; auto. cbn in L. lia. }
    destruct (in_range 240 244 b); [|discriminate].
    destruct a as [|c1 [|c2 [|c3 a]]]; try discriminate. apply andb_prop in U as (U1 & U). pose proof U1 as W. apply andb_prop in W as (W & W3).
    apply andb_prop in W as (W1 & W2). cbn [map concat].
    assert (escape1 c1 = [c1]) as ->. { destruct (b2n b =? 240), (b2n b =? 244); first [apply Cc; exact W1|eapply Cr; [|exact W1]; lia]. }
    rewrite (Cc _ W2), (Cc _ W3). cbn [app]. rewrite U1. apply IH; auto. cbn in L. lia.
Qed.
Lemma utf8_json_string s : utf8 s = true -> utf8 (json_string s) = true.
Proof.
  intros U. unfold json_string. change (x22 :: ?x) with ([x22] ++ x). rewrite utf8_ascii_app by reflexivity. rewrite utf8_app; [reflexivity|].
  now apply (utf8_escape_n (length s)).
Qed.
Lemma utf8_join l : Forall (fun t => utf8 t = true) l -> utf8 (join [x2c] l) = true.
Proof.
  induction l as [|x l IH]; intros H; [reflexivity|]. inversion H; subst. destruct l as [|y l]; [auto|]. rewrite join_cons2, !utf8_app; auto.
Qed.
Lemma utf8_int z : is_i64 z = true -> utf8 (int_text z) = true.
Proof.
  intros H. assert (forall n, n < 10 ^ 40 -> ascii (dec_text n) = true) as D.
  { intros n L. pose proof (dec_text_spec n L) as S. unfold ascii. apply forallb_forall. intros c I. pose proof (ds_digits _ _ S) as F. rewrite forallb_forall in F. specialize (F c I). unfold is_digit, is_ascii in *. lia. }
  assert (Z.to_N z < 10 ^ 40 /\ Z.to_N (- z) < 10 ^ 40) as (L1 & L2).
  { change (10 ^ 40) with 10000000000000000000000000000000000000000. unfold is_i64 in H. lia. }
  unfold int_text. apply utf8_ascii. destruct (z <? 0)%Z; auto. change (x2d :: ?x) with ([x2d] ++ x). rewrite ascii_app. rewrite D by auto. reflexivity.
Qed.
Lemma utf8_to_json v : wfv v -> utf8 (to_json v) = true.
Proof.
  induction v as [|b|z|t|s|l IH|m IH] using value_ind'; intros W.
  - reflexivity.
  - destruct b; reflexivity.
  - now apply utf8_int.
  - destruct W.
  - now apply utf8_json_string.
  - apply wfv_arr in W. cbn [to_json]. change (x5b :: ?x) with ([x5b] ++ x). rewrite utf8_ascii_app by reflexivity. rewrite utf8_app; [reflexivity|].
    apply utf8_join. rewrite Forall_map. rewrite Forall_forall in *. auto.
  - apply wfv_obj in W as (_ & W). rewrite to_json_obj. change (x7b :: ?x) with ([x7b] ++ x). rewrite utf8_ascii_app by reflexivity. rewrite utf8_app; [reflexivity|].
    apply utf8_join. rewrite Forall_map. rewrite Forall_forall in *. intros kv I. unfold field. destruct (W kv I) as (W1 & W2). rewrite utf8_app by now apply utf8_json_string.
    change (x3a :: ?x) with ([x3a] ++ x). rewrite utf8_ascii_app by reflexivity. auto.
Qed.
Lemma utf8_parts m1 vs m2 p a b n : version_string vs p a b n -> wfv (VObj (m1 ++ (s! "v", VStr vs) :: m2)) -> utf8 (fore m1 (s! "v")) && utf8 (tail m2) = true.
Proof.
  intros V W. apply utf8_to_json in W. destruct (version_string_plain _ _ _ _ _ V) as (PL & AS). rewrite to_json_str in W by auto.
  unfold fore in *. set (P := x7b :: lead m1 ++ json_string (s! "v") ++ [x3a]) in *.
  assert (x7b :: lead m1 ++ json_string (s! "v") ++ [x3a; x22] = P ++ x22 :: []) as E by (unfold P; cbn [app]; rewrite <- !app_assoc; reflexivity).
  rewrite E in *. rewrite <- app_assoc in W. cbn [app] in W. rewrite !utf8_quote in *. rewrite utf8_ascii_app in W by auto. cbn [utf8].
  now rewrite andb_true_r.
Qed.

Lemma uint_from_hex_np max s : uint_from_hex max s <> Panic.
Proof.
  unfold uint_from_hex. set (d := match s with [] => s | c :: r => if Byte.eqb c x2b then r else s end). clearbody d. destruct d; [discriminate|].
  destruct (hex_val 0 (b :: d)) as [n|]; [|discriminate]. destruct (n <=? max); discriminate.
Qed.
Lemma bind_np' {A B} (r : R A) (k : A -> R B) : r <> Panic -> (forall a, r = Ok a -> k a <> Panic) -> bind r k <> Panic.
Proof. intros H K. destruct r; cbn [bind]; [now apply K|discriminate|congruence]. Qed.
Lemma deversify_np vs : deversify vs <> Panic.
Proof.
  unfold deversify. destruct (find_rever vs); [|discriminate]. repeat (apply bind_np'; [apply uint_from_hex_np|intros ? _]).
  destruct (negb _); [discriminate|]. destruct (negb _); discriminate.
Qed.
Lemma to_string_np v : to_string v <> Panic.
Proof. destruct v; discriminate. Qed.
Lemma versify_np a b c d : versify a b c d <> Panic.
Proof. unfold versify. destruct (negb _); [discriminate|]. destruct (negb _); discriminate. Qed.
Lemma from_utf8_np s : from_utf8 s <> Panic.
Proof. unfold from_utf8. destruct (utf8 s); discriminate. Qed.
Lemma dumps_np v k : dumps v k <> Panic.
Proof. unfold dumps. destruct (beq _ _); discriminate. Qed.
Lemma sizeify_np ked kind : sizeify ked kind <> Panic.
Proof.
  unfold sizeify. destruct ked as [| | | | | |m]; try discriminate. cbn [to_map bind]. unfold contains_key. cbn [index_str].
  destruct (assoc (s! "v") m) as [v|]; [|discriminate]. cbn [negb bind]. apply bind_np'; [apply to_string_np|intros vs _].
  apply bind_np'; [apply deversify_np|intros i _]. destruct (negb _); [discriminate|]. destruct (negb _); [discriminate|].
  apply bind_np'; [apply dumps_np|intros raw _]. apply bind_np'; [apply from_utf8_np|intros text T].
  assert (text = raw) as -> by (unfold from_utf8 in T; destruct (utf8 raw); congruence).
  destruct (find_rever raw) as [j|] eqn:F; [|discriminate]. destruct (12 <? j); [discriminate|].
  destruct (find_rever_some _ _ F) as (p & mm & t & E & L & L17 & _). assert (len raw = j + 17 + len t) as LR by (rewrite E, !len_app; lia).
  rewrite slice_bytes_in by lia. rewrite from_bytes_in by lia. cbn [bind]. apply bind_np'; [apply versify_np|intros w _].
  destruct (negb _); [discriminate|]. discriminate.
Qed.
