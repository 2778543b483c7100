(** Facts about weighted thresholds in the release profile (Release.v). *)
From Coq Require Import String.
From Coq Require Import NArith ZArith Znumtheory Zpow_facts QArith Qround List Bool Lia.
From Verif Require Import Base B64 Util Tables Matter Counter Prims Json Tholder Release SpecCounter SpecTholder SpecWeigh BaseFacts TholderFacts TholderThms WeighThms ReleaseFacts.
Import ListNotations.
Open Scope N_scope.

(** ** The checked instance *)
Lemma bind_assoc {A B C} (r : R A) (k : A -> R B) (h : B -> R C) : (let* b := (let* a := r in k a) in h b) = (let* a := r in let* b := k a in h b).
Proof. destruct r; reflexivity. Qed.
Lemma checked_clauses cs : check_clauses_in heavy_checked cs = check_clauses cs.
Proof.
  induction cs as [|c cs IH]; [reflexivity|]. cbn [check_clauses_in check_clauses]. unfold heavy_checked. rewrite bind_assoc. apply bind_ext. intros s _. cbn [bind].
  destruct (rat_lt1 s); [reflexivity|exact IH].
Qed.
Lemma checked_values v : values_to_rationals_in heavy_checked v = values_to_rationals v.
Proof. unfold values_to_rationals_in, values_to_rationals. apply bind_ext. intros cs _. apply bind_ext. intros rs _. now rewrite checked_clauses. Qed.
Lemma checked_size acc cs : size_sum_in u32_add acc cs = size_sum acc cs.
Proof. revert acc. induction cs as [|c cs IH]; intros acc; [reflexivity|]. cbn [size_sum_in size_sum]. apply bind_ext. intros a _. apply IH. Qed.
Lemma checked_weighted v : process_weighted_in heavy_checked u32_add v = process_weighted v.
Proof. unfold process_weighted_in, process_weighted. rewrite checked_values. apply bind_ext. intros cs _. now rewrite checked_size. Qed.
Lemma bind_both {A B} (r r' : R A) (k k' : A -> R B) : r = r' -> (forall a, r = Ok a -> k a = k' a) -> bind r k = bind r' k'.
Proof. intros <-. apply bind_ext. Qed.
Lemma checked_new canon a b c : tholder_new_in heavy_checked u32_add canon a b c = tholder_new canon a b c.
Proof.
  assert (forall v, sith_array_in heavy_checked u32_add v = sith_array v) as S.
  { intros v. unfold sith_array_in, sith_array. apply bind_ext. intros l _. destruct l; [reflexivity|]. cbv zeta. apply bind_ext. intros cs _. apply bind_ext. intros _u _. apply checked_weighted. }
  unfold tholder_new_in, tholder_new. apply bind_both; [|intros t1 _; apply bind_both; [|intros t2 _; apply bind_both; [|reflexivity]]].
  - destruct a as [v|]; [|reflexivity]. apply bind_left. unfold process_thold_in, process_thold. rewrite checked_weighted. reflexivity.
  - destruct b as [l|]; [|reflexivity]. apply bind_left. unfold process_limen_in, process_limen. destruct l as [|f l]; [reflexivity|].
    apply bind_ext. intros lm _. apply bind_ext. intros h _. apply bind_ext. intros code _. destruct (has_code number_codes code); [reflexivity|]. destruct (has_code bexter_codes code); [|reflexivity].
    apply bind_ext. intros bx _. apply bind_ext. intros t _. cbv zeta. rewrite checked_weighted. reflexivity.
  - destruct c as [v|]; [|reflexivity]. apply bind_left. unfold process_sith_in, process_sith. destruct (to_i64 v); [reflexivity| |].
    + destruct (to_string v) as [[|c s]| |]; [reflexivity| |apply S|apply S]. destruct c; try reflexivity. apply bind_ext. intros w _. apply S.
    + destruct (to_string v) as [[|c s]| |]; [reflexivity| |apply S|apply S]. destruct c; try reflexivity. apply bind_ext. intros w _. apply S.
Qed.
Lemma checked_satisfy_clauses sg wio cs : satisfy_clauses_in heavy_checked sg wio cs = satisfy_clauses sg wio cs.
Proof.
  revert wio. induction cs as [|c cs IH]; intros wio; [reflexivity|]. cbn [satisfy_clauses_in satisfy_clauses]. unfold heavy_checked. rewrite bind_assoc. apply bind_ext. intros s _. cbn [bind].
  destruct (rat_lt1 s); [reflexivity|]. apply IH.
Qed.
Lemma checked_satisfy t idx : satisfy_in heavy_checked t idx = satisfy t idx.
Proof.
  unfold satisfy_in, satisfy. destruct (t_number t); [reflexivity|]. destruct (t_bexter t); [|reflexivity]. unfold satisfy_weighted_in, satisfy_weighted. destruct (existsb _ _); [reflexivity|].
  rewrite checked_values. apply bind_ext. intros cs _. destruct (_ <? _); [reflexivity|]. apply checked_satisfy_clauses.
Qed.

(** ** Agreement *)
Open Scope Z_scope.
Lemma wrap32_id z : -2147483648 <= z < 2147483648 -> wrap32 z = z.
Proof. intros H. unfold wrap32. rewrite Z.mod_small; lia. Qed.
Lemma wrap32_range z : -2147483648 <= wrap32 z < 2147483648.
Proof. unfold wrap32. pose proof (Z.mod_pos_bound (z + 2147483648) 4294967296). lia. Qed.
Lemma wrap32_mod z : exists k, wrap32 z = z + k * 4294967296.
Proof. exists (- ((z + 2147483648) / 4294967296)). unfold wrap32. pose proof (Z.div_mod (z + 2147483648) 4294967296). lia. Qed.
Definition z2 (x : rat) : zrat := (Z.of_N (fst x), Z.of_N (snd x)).
Lemma gcd_N a b : Z.gcd (Z.of_N a) (Z.of_N b) = Z.of_N (N.gcd a b).
Proof. destruct a, b; reflexivity. Qed.
Lemma div_le a b : (0 < b -> a / b <= a)%N.
Proof. intros H. apply N.div_le_upper_bound; nia. Qed.
Lemma zrat_reduce_N n d r : (n <= i32_max)%N -> (d <= i32_max)%N -> rat_reduce n d = Ok r -> zrat_reduce (Z.of_N n) (Z.of_N d) = Ok (z2 r).
Proof.
  unfold i32_max. intros Hn Hd H. unfold rat_reduce in H. unfold zrat_reduce. destruct (N.eqb_spec d 0) as [E|E]; [discriminate|]. replace (Z.of_N d =? 0) with false by lia.
  destruct (N.eqb_spec n 0) as [E0|E0]; [injection H as <-; replace (Z.of_N n =? 0) with true by lia; reflexivity|]. replace (Z.of_N n =? 0) with false by lia.
  destruct (N.eqb_spec n d) as [E1|E1]; [injection H as <-; replace (Z.of_N n =? Z.of_N d) with true by lia; reflexivity|]. replace (Z.of_N n =? Z.of_N d) with false by lia.
  injection H as <-. cbv zeta. rewrite gcd_N, <- !N2Z.inj_quot.
  assert (0 < N.gcd n d)%N as G. { destruct (N.gcd n d) eqn:Q; [|lia]. apply N.gcd_eq_0_l in Q. lia. }
  assert (n / N.gcd n d <= n)%N as A by (apply div_le; exact G). assert (d / N.gcd n d <= d)%N as B by (apply div_le; exact G).
  unfold z2. cbn [fst snd]. revert A B. generalize (n / N.gcd n d)%N, (d / N.gcd n d)%N. intros n' d' A B.
  rewrite (wrap32_id (Z.of_N n')), (wrap32_id (Z.of_N d')) by lia. replace (Z.of_N d' <? 0) with false by lia. reflexivity.
Qed.
Lemma zrat_add_N x y r : wfr x -> wfr y -> rat_add x y = Ok r -> zrat_add (z2 x) (z2 y) = Ok (z2 r).
Proof.
  intros [X1 X2 X3 X4] [Y1 Y2 Y3 Y4] H. destruct x as [n1 d1], y as [n2 d2]. cbn [fst snd] in *. unfold rat_add in H. unfold zrat_add, z2. cbn [fst snd].
  destruct (N.eqb_spec d1 d2) as [E|E].
  - subst d2. rewrite Z.eqb_refl. apply bind_ok in H as (n & Hn & H). apply i32_ok in Hn as (-> & Hn). rewrite <- N2Z.inj_add, wrap32_id by (unfold i32_max in Hn; lia).
    apply zrat_reduce_N; [exact Hn|exact X4|exact H].
  - replace (Z.of_N d1 =? Z.of_N d2) with false by lia. apply bind_ok in H as (l & Hl & H). apply i32_ok in Hl as (El & Hl). apply bind_ok in H as (a & Ha & H). apply i32_ok in Ha as (Ea & Ha).
    apply bind_ok in H as (b & Hb & H). apply i32_ok in Hb as (Eb & Hb). apply bind_ok in H as (n & Hn & H). apply i32_ok in Hn as (En & Hn).
    rewrite <- El in Hl. rewrite <- Ea in Ha. rewrite <- Eb in Hb. rewrite <- En in Hn.
    rewrite gcd_N, <- N2Z.inj_quot.
    assert (0 < N.gcd d1 d2)%N as G. { destruct (N.gcd d1 d2) eqn:Q; [|lia]. apply N.gcd_eq_0_l in Q. lia. }
    assert (d2 / N.gcd d1 d2 <= d2)%N by (apply div_le; exact G).
    unfold i32_max in *. rewrite (wrap32_id (Z.of_N (d2 / N.gcd d1 d2))) by (clear - H0 Y4; revert H0; generalize (d2 / N.gcd d1 d2)%N; intros; lia). rewrite <- N2Z.inj_mul, <- El. rewrite (wrap32_id (Z.of_N l)) by lia. rewrite Z.abs_eq by lia. rewrite (wrap32_id (Z.of_N l)) by lia.
    rewrite <- !N2Z.inj_quot. assert (l / d1 <= l)%N by (apply div_le; exact X1). assert (l / d2 <= l)%N by (apply div_le; exact Y1).
    rewrite (wrap32_id (Z.of_N (l / d1))), (wrap32_id (Z.of_N (l / d2))) by lia. rewrite <- !N2Z.inj_mul, <- Ea, <- Eb. rewrite (wrap32_id (Z.of_N a)), (wrap32_id (Z.of_N b)) by lia.
    rewrite <- N2Z.inj_add, <- En, (wrap32_id (Z.of_N n)) by lia. apply zrat_reduce_N; [exact Hn|exact Hl|exact H].
Qed.
Lemma zrat_sum_N ws : Forall wfr ws -> forall acc s, wfr acc -> rat_sum_from acc ws = Ok s -> zrat_sum_from (z2 acc) ws = Ok (z2 s).
Proof.
  induction 1 as [|w ws W _ IH]; intros acc s A H; cbn [rat_sum_from] in H.
  - injection H as <-. reflexivity.
  - apply bind_ok in H as (a & Ha & H). unfold zrat_sum_from. cbn [sum_with]. change (Z.of_N (fst w), Z.of_N (snd w)) with (z2 w). rewrite (zrat_add_N _ _ _ A W Ha), bind_Ok.
    apply IH; auto. now destruct (rat_add_ok _ _ _ A W Ha).
Qed.
Lemma agree_heavy ws : Forall wfr ws -> agree (heavy_checked ws) (heavy_wrapping ws).
Proof.
  intros W H. unfold heavy_checked, heavy_wrapping in *. destruct (rat_sum ws) as [s|e|] eqn:E; [|now apply rat_sum_noerr in E|now contradiction H].
  pose proof (zrat_sum_N ws W (0, 1)%N s wfr_zero E) as Q. change (z2 (0, 1)%N) with (0, 1) in Q. rewrite Q, !bind_Ok. do 2 f_equal. unfold rat_lt1, z2. cbn [fst snd]. apply Bool.eq_iff_eq_true.
  rewrite Z.ltb_lt, N.ltb_lt. lia.
Qed.
Close Scope Z_scope.

(** ** Soundness *)
Open Scope Z_scope.
Lemma odd_pow_gcd k a : 0 <= k -> Z.Odd a -> Z.gcd (2 ^ k) a = 1.
Proof.
  intros Hk Ho. apply Zgcd_1_rel_prime. apply rel_prime_sym. apply rel_prime_Zpower_r; [exact Hk|]. apply rel_prime_sym. apply prime_rel_prime; [exact prime_2|].
  intros (j & Hj). destruct Ho as (m & Hm). lia.
Qed.
Lemma pow2_lcm (k : nat) : forall a b, 0 < a -> 0 < b -> (2 ^ Z.of_nat k | Z.lcm a b) -> (2 ^ Z.of_nat k | a) \/ (2 ^ Z.of_nat k | b).
Proof.
  induction k as [|k IH]; intros a b Ha Hb H; [left; exists a; cbn; lia|].
  assert ((2 ^ Z.of_nat (S k) | a * b)) as Hab. { eapply Z.divide_trans; [exact H|]. apply Z.lcm_least; [apply Z.divide_factor_l|apply Z.divide_factor_r]. }
  destruct (Z.Even_or_Odd a) as [(a' & Ea)|Oa]; [|right; apply Z.gauss with a; [exact Hab|apply odd_pow_gcd; [lia|exact Oa]]].
  destruct (Z.Even_or_Odd b) as [(b' & Eb)|Ob]; [|left; apply Z.gauss with b; [now rewrite Z.mul_comm|apply odd_pow_gcd; [lia|exact Ob]]].
  rewrite Ea, Eb in H |- *. rewrite Z.lcm_mul_mono_l in H. change (Z.abs 2) with 2 in H. rewrite Nat2Z.inj_succ, Z.pow_succ_r in * by lia.
  apply Z.mul_divide_cancel_l in H; [|lia]. destruct (IH a' b') as [I|I]; [lia|lia|exact H| |]; [left|right]; now apply Z.mul_divide_mono_l.
Qed.
Lemma lcm_not_2_31 a b : 0 < a < 2147483648 -> 0 < b < 2147483648 -> ~ (2147483648 | Z.lcm a b).
Proof.
  intros Ha Hb H. change 2147483648 with (2 ^ Z.of_nat 31) in H. apply pow2_lcm in H; [|lia|lia]. change (2 ^ Z.of_nat 31) with 2147483648 in H.
  destruct H as [H|H]; apply Z.divide_pos_le in H; lia.
Qed.

Definition fits (n : Z) : Prop := -2147483648 <= n < 2147483648.
Definition den_ok (d : Z) : Prop := 0 < d < 2147483648.
Lemma zrat_reduce_fits n d : fits n -> den_ok d -> exists n' d', zrat_reduce n d = Ok (n', d') /\ fits n' /\ den_ok d' /\ (0 <= n -> 0 <= n' /\ n' * d = n * d').
Proof.
  unfold fits, den_ok. intros Hn Hd. unfold zrat_reduce. replace (d =? 0) with false by lia. destruct (Z.eqb_spec n 0) as [E|E]; [exists 0, 1; repeat split; lia|].
  destruct (Z.eqb_spec n d) as [E1|E1]; [exists 1, 1; repeat split; lia|]. cbv zeta. pose proof (Z.gcd_nonneg n d) as G0.
  assert (0 < Z.gcd n d) as G. { destruct (Z.eq_dec (Z.gcd n d) 0) as [Q|Q]; [|lia]. apply Z.gcd_eq_0_l in Q. contradiction. }
  destruct (Z.gcd_divide_l n d) as (n' & En). destruct (Z.gcd_divide_r n d) as (d' & Ed). set (g := Z.gcd n d) in *. clearbody g.
  assert (Z.quot n g = n') as -> by (rewrite En; apply Z.quot_mul; lia). assert (Z.quot d g = d') as -> by (rewrite Ed; apply Z.quot_mul; lia).
  assert (0 < d') by nia. assert (d' <= d) by nia. assert (-2147483648 <= n' < 2147483648) by nia.
  rewrite (wrap32_id n'), (wrap32_id d') by lia. replace (d' <? 0) with false by lia. exists n', d'. repeat split; try lia; try nia.
Qed.

Definition below (q : Q) (x : zrat) : Prop :=
  fits (fst x) /\ den_ok (snd x) /\ ((1 <= q)%Q \/ 0 <= fst x /\ (fst x # Z.to_pos (snd x) <= q)%Q).
Lemma Qle_frac a b c d : 0 < b -> 0 < d -> ((a # Z.to_pos b <= c # Z.to_pos d)%Q <-> a * d <= c * b).
Proof. intros Hb Hd. unfold Qle. cbn [Qnum Qden]. rewrite !Z2Pos.id by assumption. reflexivity. Qed.
Lemma Qeq_frac a b c d : 0 < b -> 0 < d -> ((a # Z.to_pos b == c # Z.to_pos d)%Q <-> a * d = c * b).
Proof. intros Hb Hd. unfold Qeq. cbn [Qnum Qden]. rewrite !Z2Pos.id by assumption. reflexivity. Qed.
Lemma Qplus_frac a b d : ((a + b # d) == (a # d) + (b # d))%Q.
Proof. unfold Qeq, Qplus. cbn [Qnum Qden]. rewrite Pos2Z.inj_mul. ring. Qed.
Lemma reduce_below q n d : fits n -> den_ok d -> (1 <= q)%Q \/ 0 <= n /\ (n # Z.to_pos d <= q)%Q -> exists r, zrat_reduce n d = Ok r /\ below q r.
Proof.
  intros Hn Hd H. destruct (zrat_reduce_fits n d Hn Hd) as (n' & d' & E & Fn & Fd & K). exists (n', d'). split; [exact E|]. split; [exact Fn|]. split; [exact Fd|]. cbn [fst snd].
  destruct H as [H|(H0 & H)]; [left; exact H|right]. destruct (K H0) as (K1 & K2). split; [exact K1|]. eapply Qle_trans; [|exact H]. apply Qle_frac; [apply Fd|apply Hd|]. lia.
Qed.
Lemma over_one n d q : den_ok d -> d <= n -> (n # Z.to_pos d <= q)%Q -> (1 <= q)%Q.
Proof. intros Hd L H. eapply Qle_trans; [|exact H]. change 1%Q with (1 # Z.to_pos 1)%Q. apply Qle_frac; [lia|apply Hd|]. lia. Qed.
Lemma wrapped_lcm d1 d2 : den_ok d1 -> den_ok d2 -> den_ok (wrap32 (Z.abs (wrap32 (d1 * wrap32 (Z.quot d2 (Z.gcd d1 d2)))))).
Proof.
  unfold den_ok. intros H1 H2. assert (0 < Z.gcd d1 d2) as G. { destruct (Z.eq_dec (Z.gcd d1 d2) 0) as [Q|Q]; [apply Z.gcd_eq_0_l in Q; lia|]. pose proof (Z.gcd_nonneg d1 d2). lia. }
  pose proof (lcm_not_2_31 d1 d2 H1 H2) as N. unfold Z.lcm in N.
  assert (Z.quot d2 (Z.gcd d1 d2) = d2 / Z.gcd d1 d2) as -> by (apply Z.quot_div_nonneg; lia). rewrite Z.divide_abs_r in N.
  assert (0 <= d2 / Z.gcd d1 d2 <= d2) as Q. { split; [apply Z.div_pos; lia|]. apply Z.div_le_upper_bound; nia. }
  rewrite (wrap32_id (d2 / Z.gcd d1 d2)) by lia. set (L := d1 * (d2 / Z.gcd d1 d2)) in *. clearbody L. clear Q G H1 H2.
  pose proof (wrap32_range L) as R. destruct (wrap32_mod L) as (k & Ek).
  assert (wrap32 L <> 0). { intros E. apply N. exists (- 2 * k). lia. }
  assert (wrap32 L <> -2147483648). { intros E. apply N. exists (- 1 - 2 * k). lia. }
  rewrite wrap32_id by lia. lia.
Qed.
Lemma zrat_add_below q n1 d1 n2 d2 : below q (n1, d1) -> 0 <= n2 <= d2 -> den_ok d2 -> (0 <= q)%Q ->
  exists r, zrat_add (n1, d1) (n2, d2) = Ok r /\ below (q + (n2 # Z.to_pos d2)) r.
Proof.
  intros (F1 & D1 & B) H2 D2 Q0. cbn [fst snd] in *.
  assert (0 <= n2 # Z.to_pos d2)%Q as P2. { change 0%Q with (0 # Z.to_pos 1)%Q. apply Qle_frac; [lia|apply D2|lia]. }
  assert ((1 <= q)%Q -> (1 <= q + (n2 # Z.to_pos d2))%Q) as One. { intros H. rewrite <- (Qplus_0_r 1). apply Qplus_le_compat; assumption. }
  unfold zrat_add. destruct (Z.eqb_spec d1 d2) as [E|E].
  - subst d2. apply reduce_below; [apply wrap32_range|exact D1|]. destruct B as [B|(B0 & B)]; [left; auto|].
    assert (((n1 + n2) # Z.to_pos d1 <= q + (n2 # Z.to_pos d1))%Q) as S. { rewrite Qplus_frac. apply Qplus_le_l. exact B. }
    destruct (Z.le_gt_cases 2147483648 (n1 + n2)) as [O|O].
    + left. apply (over_one (n1 + n2) d1); [exact D1|unfold den_ok in D1; lia|exact S].
    + right. unfold fits in F1. rewrite wrap32_id by lia. split; [lia|exact S].
  - cbv zeta. pose proof (wrapped_lcm d1 d2 D1 D2) as Dl. set (l := wrap32 (Z.abs _)) in *. clearbody l. apply reduce_below; [apply wrap32_range|exact Dl|].
    destruct B as [B|(B0 & B)]; [left; auto|]. destruct (Qlt_le_dec q 1) as [Lt|Ge]; [|left; auto].
    assert (n1 < d1) as L1. { destruct (Z.le_gt_cases d1 n1) as [L|L]; [|exact L]. exfalso. apply (Qlt_not_le _ _ Lt). now apply (over_one n1 d1). }
    unfold den_ok, fits in *. assert (Z.quot l d1 = l / d1) as -> by (apply Z.quot_div_nonneg; lia). assert (Z.quot l d2 = l / d2) as -> by (apply Z.quot_div_nonneg; lia).
    assert (0 <= l / d1) as K1 by (apply Z.div_pos; lia). assert (0 <= l / d2) as K2 by (apply Z.div_pos; lia).
    assert (d1 * (l / d1) <= l) as M1 by (apply Z.mul_div_le; lia). assert (d2 * (l / d2) <= l) as M2 by (apply Z.mul_div_le; lia).
    generalize dependent (l / d1). generalize dependent (l / d2). intros k2 K2 M2 k1 K1 M1.
    assert (k1 <= l) by nia. assert (k2 <= l) by nia. assert (n1 * k1 <= l) by nia. assert (n2 * k2 <= l) by nia. assert (0 <= n1 * k1) by nia. assert (0 <= n2 * k2) by nia.
    rewrite (wrap32_id k1), (wrap32_id k2) by lia. rewrite (wrap32_id (n1 * k1)), (wrap32_id (n2 * k2)) by lia.
    assert ((n1 * k1 + n2 * k2 # Z.to_pos l) <= q + (n2 # Z.to_pos d2))%Q as S.
    { rewrite Qplus_frac. apply Qplus_le_compat; [eapply Qle_trans; [|exact B]|]; (apply Qle_frac; [lia|lia|nia]). }
    destruct (Z.le_gt_cases 2147483648 (n1 * k1 + n2 * k2)) as [O|O].
    + left. apply (over_one (n1 * k1 + n2 * k2) l); [unfold den_ok; lia|lia|exact S].
    + right. rewrite wrap32_id by lia. split; [lia|exact S].
Qed.
Lemma rq_z w : wfr w -> (rq w == (Z.of_N (fst w) # Z.to_pos (Z.of_N (snd w))))%Q.
Proof. intros W. destruct w as [n [|p]]; [destruct W as [W _ _ _]; cbn in W; lia|]. reflexivity. Qed.
Lemma zrat_sum_below ws : Forall wfw ws -> forall q acc, below q acc -> (0 <= q)%Q -> exists r, zrat_sum_from acc ws = Ok r /\ below (q + qsum (map rq ws)) r.
Proof.
  induction 1 as [|w ws W _ IH]; intros q acc B Q0.
  - exists acc. split; [reflexivity|]. cbn. destruct B as (B1 & B2 & B3). split; [exact B1|]. split; [exact B2|]. rewrite Qplus_0_r. exact B3.
  - destruct W as [W L]. destruct acc as [n d]. destruct (zrat_add_below q n d (Z.of_N (fst w)) (Z.of_N (snd w)) B) as (r & Er & Br).
    + lia.
    + destruct W as [W1 _ _ W4]. unfold den_ok, i32_max in *. lia.
    + exact Q0.
    + assert (0 <= rq w)%Q as Pw. { destruct w as [a [|p]]; cbn; [discriminate|]. unfold Qle. cbn. lia. }
      destruct (IH (q + rq w)%Q r) as (s & Es & Bs).
      * destruct Br as (B1 & B2 & B3). split; [exact B1|]. split; [exact B2|]. rewrite (rq_z w W). exact B3.
      * rewrite <- (Qplus_0_r 0). apply Qplus_le_compat; assumption.
      * exists s. split; [unfold zrat_sum_from in *; cbn [sum_with]; rewrite Er, bind_Ok; exact Es|]. destruct Bs as (B1 & B2 & B3). split; [exact B1|]. split; [exact B2|]. cbn [map qsum fold_right].
        rewrite Qplus_assoc. exact B3.
Qed.
(** The comparison is a total function of the weights, and errs only on the side of refusal. *)
Lemma heavy_wrapping_sound ws : Forall wfw ws -> exists b, heavy_wrapping ws = Ok b /\ (b = true -> (1 <= qsum (map rq ws))%Q).
Proof.
  intros W. destruct (zrat_sum_below ws W 0%Q (0, 1)) as ((n & d) & E & B1 & B2 & B3).
  - split; [unfold fits; cbn; lia|]. split; [unfold den_ok; cbn; lia|]. right. cbn. split; [lia|discriminate].
  - discriminate.
  - unfold heavy_wrapping. rewrite E, bind_Ok. eexists. split; [reflexivity|]. cbn [fst snd] in *. intros H. apply negb_true_iff, Z.ltb_ge in H. rewrite Qplus_0_l in B3.
    destruct B3 as [B3|(B0 & B3)]; [exact B3|]. now apply (over_one n d).
Qed.
Close Scope Z_scope.

(** ** What the constructors return, for any comparison with one *)
Section Gen.
Variable heavy : list rat -> R bool.
Variable add : N -> N -> R N.
Lemma gclauses_ok cs : check_clauses_in heavy cs = Ok tt <-> Forall (fun c => heavy c = Ok true) cs.
Proof.
  induction cs as [|c cs IH]; cbn [check_clauses_in]. { split; auto. } split.
  - intros H. apply bind_ok in H as (h & H1 & H). destruct h; [|discriminate]. constructor; auto. now apply IH.
  - intros H. inversion H as [|? ? H1 H3]; subst. rewrite H1, bind_Ok. now apply IH.
Qed.
Lemma gvalues_ok v cs : values_to_rationals_in heavy v = Ok cs <->
  exists ts, v = vals ts /\ mapR clause_rats (map (fun c => VArr (map VStr c)) ts) = Ok cs /\ Forall (Forall wfw) cs /\ Forall (fun c => heavy c = Ok true) cs.
Proof.
  unfold values_to_rationals_in. split.
  - intros H. apply bind_ok in H as (l & H1 & H). destruct v as [| | | | |l'|]; try discriminate. inversion H1; subst l'. apply bind_ok in H as (rs & H2 & H). apply bind_ok in H as (u & H3 & H).
    inversion H; subst rs. destruct u. apply gclauses_ok in H3. pose proof H2 as M. apply clauses_reads in H2 as (ts & qs & -> & Ft & Fc). exists ts. split; [reflexivity|]. split; [exact M|]. split; [|exact H3].
    clear - Fc. induction Fc as [|c q cs qs F _ IH]; constructor; auto. clear - F. induction F as [|w q c qs (W & _) _ IH]; constructor; auto.
  - intros (ts & -> & M & _ & C). cbn [vals to_vec]. rewrite bind_Ok, M, bind_Ok. apply gclauses_ok in C. now rewrite C.
Qed.
Record gweighted (cs : list (list rat)) (t : tholder) : Prop := {
  gw_wf : Forall (Forall wfw) cs;
  gw_ok : Forall (fun c => heavy c = Ok true) cs;
  gw_thold : t_thold t = vals (canon_texts cs);
  gw_weighted : t_weighted t = true;
  gw_size : size_sum_in add 0 cs = Ok (t_size t);
  gw_number : t_number t = None;
  gw_bexter : exists b, t_bexter t = Some b;
}.
Lemma gprocess_ok v t : process_weighted_in heavy add v = Ok t -> exists cs, values_to_rationals_in heavy v = Ok cs /\ gweighted cs t.
Proof.
  unfold process_weighted_in. intros H. apply bind_ok in H as (cs & H1 & H). exists cs. split; auto. apply bind_ok in H as (size & H2 & H). cbv zeta in H. apply bind_ok in H as (b & H3 & H). inversion H; subst.
  apply gvalues_ok in H1 as (ts & _ & _ & W & C). constructor; cbn; auto using canon_vals. exists b. auto.
Qed.
Lemma gcanon cs : Forall (Forall wfw) cs -> Forall (fun c => heavy c = Ok true) cs -> values_to_rationals_in heavy (vals (canon_texts cs)) = Ok cs.
Proof.
  intros W C. apply gvalues_ok. exists (canon_texts cs). split; auto. split; auto. apply mapR_ok. unfold canon_texts. clear C. induction W as [|c cs Wc W IH]; cbn [map]; constructor; auto.
  unfold clause_rats. cbn [to_vec]. rewrite bind_Ok. apply mapR_ok. clear - Wc. induction Wc; cbn [map]; constructor; auto. cbn [to_string]. rewrite bind_Ok. now apply weight_rat_text.
Qed.
Definition gaccepted_t (t : tholder) : Prop := (exists k, numeric_t k t) \/ (exists cs, gweighted cs t).
Lemma gpw_acc v t : process_weighted_in heavy add v = Ok t -> gaccepted_t t.
Proof. intros H. apply gprocess_ok in H as (cs & _ & H). right. eauto. Qed.
Lemma gpu_acc z t : process_unweighted z = Ok t -> gaccepted_t t.
Proof. intros H. apply process_unweighted_ok in H as (_ & H). left. eauto. Qed.
Lemma gsith_array v t : sith_array_in heavy add v = Ok t -> gaccepted_t t.
Proof. unfold sith_array_in. intros H. apply bind_ok in H as (a & H1 & H). destruct a; [discriminate|]. cbv zeta in H. apply bind_ok in H as (c & _ & H). apply bind_ok in H as (u & _ & H). eapply gpw_acc; eauto. Qed.
Lemma gaccepted canon a b c t : tholder_new_in heavy add canon a b c = Ok t -> gaccepted_t t.
Proof.
  unfold tholder_new_in. intros H. apply bind_ok in H as (t1 & H1 & H). apply bind_ok in H as (t2 & H2 & H). apply bind_ok in H as (t3 & H3 & H). destruct t3 as [t'|]; [|discriminate]. inversion H; subst t'. clear H.
  assert (forall x, t1 = Some x -> gaccepted_t x) as A1.
  { intros x ->. destruct a as [v|]; [|discriminate]. apply bind_ok in H1 as (y & H1 & E). inversion E; subst y. unfold process_thold_in in H1. destruct (to_i64 v); eauto using gpu_acc, gpw_acc. }
  assert (forall x, t2 = Some x -> gaccepted_t x) as A2.
  { intros x ->. destruct b as [l|]; [|inversion H2; subst; auto]. apply bind_ok in H2 as (o & H2 & E). destruct o as [y|]; [|inversion E; subst; auto]. inversion E; subst y. clear E.
    unfold process_limen_in in H2. destruct l as [|f l]; [discriminate|]. apply bind_ok in H2 as (li & _ & H2). apply bind_ok in H2 as (h & _ & H2). apply bind_ok in H2 as (code & _ & H2).
    destruct (has_code number_codes code).
    - apply bind_ok in H2 as (n & _ & H2). apply bind_ok in H2 as (k & _ & H2). destruct (_ <? k); [discriminate|]. apply bind_ok in H2 as (y & H2 & E). inversion E; subst. eauto using gpu_acc.
    - destruct (has_code bexter_codes code); [|discriminate]. apply bind_ok in H2 as (n & _ & H2). apply bind_ok in H2 as (k & _ & H2). cbv zeta in H2. apply bind_ok in H2 as (y & H2 & E). inversion E; subst. eauto using gpw_acc. }
  destruct c as [v|]; [|inversion H3; subst; auto]. apply bind_ok in H3 as (y & H3 & E). inversion E; subst. unfold process_sith_in in H3.
  destruct (to_i64 v); eauto using gpu_acc. all: destruct (to_string v) as [s|e'|]; eauto using gsith_array.
  all: assert ((exists v', sith_array_in heavy add v' = Ok t) \/ (exists z, process_unweighted z = Ok t)) as [(v' & Q)|(z & Q)]; eauto using gpu_acc, gsith_array.
  all: destruct s as [|ch s]; [discriminate H3|]; destruct (Byte.byte_eq_dec ch x5b) as [->|N];
    [apply bind_ok in H3 as (v' & _ & H3); left; eauto|]; right.
  all: assert (match parse_i64_hex (ch :: s) with Some z => process_unweighted z | None => Err EForeign end = Ok t) as H4 by (destruct ch; congruence || exact H3).
  all: destruct (parse_i64_hex (ch :: s)); [eauto|discriminate].
Qed.
Fixpoint gsat (idx : list N) (pos : N) (cs : list (list rat)) : R bool :=
  match cs with
  | [] => Ok true
  | c :: r => let* h := heavy (wlist idx pos c) in if h then gsat idx (pos + len c) r else Ok false
  end.
Lemma gsat_eq idx cs : forall pos, satisfy_clauses_in heavy (fun i => existsb (N.eqb i) idx) pos cs = gsat idx pos cs.
Proof. induction cs as [|c cs IH]; intros pos; cbn [satisfy_clauses_in gsat]; auto. rewrite signed_weights_eq. apply bind_ext. intros h _. destruct h; auto. Qed.
Lemma gsatisfy_eq cs t idx : gweighted cs t ->
  satisfy_in heavy t idx = if existsb (fun i => t_size t <=? i) idx then Panic else if t_size t <? len (concat cs) then Panic else gsat idx 0 cs.
Proof.
  intros T. unfold satisfy_in. rewrite (gw_number _ _ T). destruct (gw_bexter _ _ T) as (b & ->). unfold satisfy_weighted_in. destruct (existsb _ idx); auto.
  rewrite (gw_thold _ _ T), gcanon by apply T. rewrite bind_Ok, gsat_eq. reflexivity.
Qed.
End Gen.

(** ** In the release profile *)
Lemma wrapping_size cs : forall acc n, acc < word -> size_sum_in (plus wrapping) acc cs = Ok n -> acc + len (concat cs) < word -> n = acc + len (concat cs).
Proof.
  unfold word. induction cs as [|c cs IH]; intros acc n A H B; cbn [size_sum_in concat] in *. { inversion H; subst. change (len (@nil rat)) with 0. lia. }
  rewrite len_app in B. cbn [plus wrapping] in H. rewrite bind_Ok in H. unfold as_u32 in H. rewrite (N.mod_small (len c)) in H by (change (2 ^ 32) with 4294967296; lia).
  unfold word in H. rewrite N.mod_small in H by lia. apply IH in H; [|lia|lia]. rewrite len_app. lia.
Qed.
Lemma wrapping_size_ok cs : forall acc, exists n, size_sum_in (plus wrapping) acc cs = Ok n.
Proof. induction cs as [|c cs IH]; intros acc; cbn [size_sum_in]; [eauto|]. cbn [plus wrapping]. rewrite bind_Ok. apply IH. Qed.
Lemma near_wfw ws qs : Forall2 near ws qs -> Forall wfw ws.
Proof. induction 1 as [|w q ws qs (W & _) _ IH]; constructor; auto. Qed.
Lemma gsat_sound idx cs qs : Forall2 (Forall2 near) cs qs -> forall pos, exists b, gsat heavy_wrapping idx pos cs = Ok b /\ (b = true -> meets idx pos qs).
Proof.
  induction 1 as [|c q cs qs Fc F IH]; intros pos; cbn [gsat meets]. { exists true. auto. }
  pose proof (wlist_near idx c q Fc pos) as Nw.
  destruct (heavy_wrapping_sound (wlist idx pos c)) as (h & E & S). { eapply near_wfw, Nw. }
  rewrite E, bind_Ok. destruct h; [|exists false; split; [reflexivity|discriminate]]. destruct (IH (pos + len c)) as (b & Eb & Hb). exists b. split; [exact Eb|]. intros Q.
  rewrite (near_len c q Fc). split; auto. rewrite <- (earned_wlist idx pos c q). { now apply S. } clear - Fc. induction Fc as [|w x c q (_ & Ew) _ IH]; constructor; auto.
Qed.
Lemma near_total c q : Forall2 near c q -> (qsum (map rq c) == total q)%Q.
Proof. induction 1 as [|w q ws qs (_ & E) F IH]; cbn [map total qsum fold_right]; [reflexivity|]. fold (qsum (map rq ws)). rewrite E, IH. reflexivity. Qed.
Lemma heavy_total c q : Forall2 near c q -> heavy_wrapping c = Ok true -> (1 <= total q)%Q.
Proof.
  intros F H. destruct (heavy_wrapping_sound c) as (b & E & S). { eapply near_wfw, F. }
  rewrite H in E. injection E as <-. rewrite <- (near_total c q F). now apply S.
Qed.

(** Agreement with the checked profile. *)
Lemma agree_check cs : Forall (Forall wfr) cs -> agree (check_clauses_in heavy_checked cs) (check_clauses_in heavy_wrapping cs).
Proof.
  induction 1 as [|c cs W _ IH]; cbn [check_clauses_in]; [now intros _|]. apply agree_bind; [now apply agree_heavy|]. intros h _. destruct h; [exact IH|now intros _].
Qed.
Lemma wfr_all cs : Forall (Forall wfw) cs -> Forall (Forall wfr) cs.
Proof. apply Forall_impl. intros c. apply Forall_impl. intros w H. apply H. Qed.
Lemma rats_wfw l cs : mapR clause_rats l = Ok cs -> Forall (Forall wfw) cs.
Proof.
  intros M. apply clauses_reads in M as (ts & qs & _ & _ & Fc). induction Fc as [|c q cs qs F _ IH]; constructor; auto. clear - F. induction F as [|w q c qs (W & _) _ IH]; constructor; auto.
Qed.
Lemma agree_same {A} (r : R A) : agree r r.
Proof. now intros _. Qed.
Lemma agree_values v : agree (values_to_rationals_in heavy_checked v) (values_to_rationals_in heavy_wrapping v).
Proof.
  unfold values_to_rationals_in. apply agree_bind; [apply agree_same|]. intros l _. apply agree_bind; [apply agree_same|]. intros rs M. apply agree_bind; [|intros; apply agree_same].
  apply agree_check, wfr_all. eapply rats_wfw, M.
Qed.
Lemma agree_size cs : forall acc, agree (size_sum_in u32_add acc cs) (size_sum_in (plus wrapping) acc cs).
Proof. induction cs as [|c cs IH]; intros acc; cbn [size_sum_in]; [apply agree_same|]. apply agree_bind; [apply agree_plus|]. intros a _. apply IH. Qed.
Lemma agree_weighted v : agree (process_weighted_in heavy_checked u32_add v) (process_weighted_in heavy_wrapping (plus wrapping) v).
Proof.
  unfold process_weighted_in. apply agree_bind; [apply agree_values|]. intros cs _. apply agree_bind; [apply agree_size|]. intros n _. cbv zeta. apply agree_same.
Qed.
Lemma agree_new canon a b c : agree (tholder_new canon a b c) (release_new canon a b c).
Proof.
  rewrite <- checked_new. unfold release_new.
  assert (forall v, agree (sith_array_in heavy_checked u32_add v) (sith_array_in heavy_wrapping (plus wrapping) v)) as S.
  { intros v. unfold sith_array_in. apply agree_bind; [apply agree_same|]. intros l _. destruct l; [apply agree_same|]. cbv zeta. apply agree_bind; [apply agree_same|]. intros cs _.
    apply agree_bind; [apply agree_same|]. intros _u _. apply agree_weighted. }
  unfold tholder_new_in. apply agree_bind; [|intros t1 _; apply agree_bind; [|intros t2 _; apply agree_bind; [|intros; apply agree_same]]].
  - destruct a as [v|]; [|apply agree_same]. apply agree_bind; [|intros; apply agree_same]. unfold process_thold_in. destruct (to_i64 v); [apply agree_same|apply agree_weighted|apply agree_weighted].
  - destruct b as [l|]; [|apply agree_same]. apply agree_bind; [|intros; apply agree_same]. unfold process_limen_in. destruct l as [|f l]; [apply agree_same|].
    apply agree_bind; [apply agree_same|]. intros lm _. apply agree_bind; [apply agree_same|]. intros h _. apply agree_bind; [apply agree_same|]. intros code _.
    destruct (has_code number_codes code); [apply agree_same|]. destruct (has_code bexter_codes code); [|apply agree_same].
    apply agree_bind; [apply agree_same|]. intros bx _. apply agree_bind; [apply agree_same|]. intros t _. cbv zeta. apply agree_bind; [apply agree_weighted|]. intros; apply agree_same.
  - destruct c as [v|]; [|apply agree_same]. apply agree_bind; [|intros; apply agree_same]. unfold process_sith_in. destruct (to_i64 v); [apply agree_same| |].
    + destruct (to_string v) as [[|c s]| |]; [apply agree_same| |apply S|apply S]. destruct c; try apply agree_same. apply agree_bind; [apply agree_same|]. intros w _. apply S.
    + destruct (to_string v) as [[|c s]| |]; [apply agree_same| |apply S|apply S]. destruct c; try apply agree_same. apply agree_bind; [apply agree_same|]. intros w _. apply S.
Qed.
Lemma agree_sat_clauses idx cs : Forall (Forall wfr) cs -> forall pos, agree (gsat heavy_checked idx pos cs) (gsat heavy_wrapping idx pos cs).
Proof.
  induction 1 as [|c cs W _ IH]; intros pos; cbn [gsat]; [apply agree_same|]. apply agree_bind; [apply agree_heavy; now apply wlist_Forall|]. intros h _. destruct h; [apply IH|apply agree_same].
Qed.
Lemma agree_satisfy t idx : agree (satisfy t idx) (release_satisfy t idx).
Proof.
  rewrite <- checked_satisfy. unfold release_satisfy, satisfy_in. destruct (t_number t); [apply agree_same|]. destruct (t_bexter t); [|apply agree_same]. unfold satisfy_weighted_in.
  destruct (existsb _ _); [apply agree_same|]. apply agree_bind; [apply agree_values|]. intros cs H. destruct (_ <? _); [apply agree_same|]. rewrite !gsat_eq. apply agree_sat_clauses, wfr_all.
  apply gvalues_ok in H as (ts & _ & _ & W & _). exact W.
Qed.
