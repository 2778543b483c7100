(** Lemmas about [Tholder]. *)
From Coq Require Import String.
From Coq Require Import NArith ZArith QArith Bool List Lia ZifyBool ZifyNat ZifyN Lqa.
From Verif Require Import Base BaseFacts B64 Util Tables Matter MatterFacts Counter CounterThms Prims PrimsFacts Json JsonFacts Tholder SpecCounter SpecTholder.
Import ListNotations.
Open Scope N_scope.
Ltac Zify.zify_post_hook ::= Z.div_mod_to_equations.

(** ** Rationals *)
Definition rq (x : rat) : Q := match snd x with Npos p => Z.of_N (fst x) # p | N0 => 0 end.
Arguments rq x%N_scope.
Record wfr (x : rat) : Prop := { wr_pos : 0 < snd x; wr_gcd : N.gcd (fst x) (snd x) = 1; wr_n : fst x <= i32_max; wr_d : snd x <= i32_max }.

Lemma i32_ok n m : i32 n = Ok m -> m = n /\ n <= i32_max.
Proof. unfold i32. destruct (n <=? i32_max) eqn:E; [|discriminate]. intros H; inversion H; subst. split; auto. lia. Qed.
Lemma i32_in n : n <= i32_max -> i32 n = Ok n.
Proof. intros H. unfold i32. destruct (_ <=? _) eqn:E; auto. lia. Qed.

Lemma rq_eq n d n' d' : 0 < d -> 0 < d' -> n * d' = n' * d -> (rq (n, d) == rq (n', d'))%Q.
Proof. intros H H' E. unfold rq. cbn [fst snd]. destruct d as [|p]; [lia|]. destruct d' as [|p']; [lia|]. unfold Qeq. cbn [Qnum Qden]. lia. Qed.
Lemma rq_le1 n d : 0 < d -> (1 <= rq (n, d))%Q <-> d <= n.
Proof. intros H. unfold rq. cbn [fst snd]. destruct d as [|p]; [lia|]. unfold Qle. cbn [Qnum Qden]. lia. Qed.
Lemma rq_plus n1 n2 d : (rq ((n1 + n2)%N, d) == rq (n1, d) + rq (n2, d))%Q.
Proof. unfold rq. cbn [fst snd]. destruct d as [|p]; [reflexivity|]. unfold Qeq, Qplus. cbn [Qnum Qden]. lia. Qed.
Lemma rq_scale n d k : 0 < k -> 0 < d -> (rq ((n * k)%N, (d * k)%N) == rq (n, d))%Q.
Proof. intros. apply rq_eq; nia. Qed.

Lemma gcd_div n d : 0 < d -> exists g n' d', g = N.gcd n d /\ 0 < g /\ n = n' * g /\ d = d' * g /\ n / g = n' /\ d / g = d' /\ 0 < d' /\ N.gcd n' d' = 1.
Proof.
  intros H. destruct (N.gcd_divide_l n d) as (n' & Hn). destruct (N.gcd_divide_r n d) as (d' & Hd). remember (N.gcd n d) as g eqn:Eg.
  assert (0 < g) as Hg by (destruct g; lia).
  assert (n / g = n') as Qn by (rewrite Hn, N.div_mul; lia). assert (d / g = d') as Qd by (rewrite Hd, N.div_mul; lia).
  exists g, n', d'. assert (N.gcd n' d' = 1) as G. { rewrite <- Qn, <- Qd. apply N.gcd_div_gcd; auto. lia. }
  repeat split; auto. destruct d'; lia.
Qed.

Lemma rat_reduce_ok n d x : rat_reduce n d = Ok x -> n <= i32_max -> d <= i32_max ->
  0 < d /\ wfr x /\ (rq x == rq (n, d))%Q /\ N.divide (snd x) d /\ fst x * d = n * snd x.
Proof.
  unfold rat_reduce. intros H Bn Bd. destruct (d =? 0) eqn:E0; [discriminate|]. split; [lia|].
  destruct (n =? 0) eqn:E1. { inversion H; subst. assert (n = 0) as -> by lia. split; [split; cbn; auto; unfold i32_max; lia|]. split; [apply rq_eq; lia|].
    split; [apply N.divide_1_l|cbn; lia]. }
  destruct (n =? d) eqn:E2. { inversion H; subst. assert (n = d) as -> by lia. split; [split; cbn; auto; unfold i32_max; lia|]. split; [apply rq_eq; lia|].
    split; [apply N.divide_1_l|cbn; lia]. }
  cbv zeta in H. destruct (gcd_div n d) as (g & n' & d' & Eg & Hg & En & Ed & Qn & Qd & Hd & Hc); [lia|]. rewrite <- Eg, Qn, Qd in H. inversion H; subst x.
  split; [split; cbn [fst snd]; auto; clear - En Ed Bn Bd Hg; nia|]. split; [apply rq_eq; auto; [lia|]; clear - En Ed; subst n d; ring|]. split; [exists g; cbn [fst snd]; rewrite N.mul_comm; exact Ed|]. cbn [fst snd]. clear - En Ed. subst n d. ring.
Qed.
Lemma rat_reduce_in n d : 0 < d -> exists x, rat_reduce n d = Ok x.
Proof. intros H. unfold rat_reduce. destruct (d =? 0) eqn:E; [lia|]. destruct (n =? 0); eauto. destruct (n =? d); eauto. Qed.
Lemma rat_reduce_id n d : 0 < d -> N.gcd n d = 1 -> rat_reduce n d = Ok (n, d).
Proof.
  intros H G. unfold rat_reduce. destruct (d =? 0) eqn:E; [lia|]. destruct (n =? 0) eqn:E1. { assert (n = 0) as -> by lia. rewrite N.gcd_0_l in G. now subst. }
  destruct (n =? d) eqn:E2. { assert (n = d) as -> by lia. rewrite N.gcd_diag in G. now subst. } rewrite G, !N.div_1_r. reflexivity.
Qed.

Lemma rat_add_ok x y z : wfr x -> wfr y -> rat_add x y = Ok z -> wfr z /\ (rq z == rq x + rq y)%Q.
Proof.
  intros Wx Wy H. destruct x as [n1 d1], y as [n2 d2]. unfold rat_add in H. pose proof (wr_pos _ Wx) as P1. pose proof (wr_pos _ Wy) as P2. cbn [fst snd] in P1, P2.
  destruct (d1 =? d2) eqn:E.
  - assert (d1 = d2) as <- by lia. apply bind_ok in H as (n & H1 & H). apply i32_ok in H1 as (-> & Hn). apply rat_reduce_ok in H as (_ & W & Q & _); auto; [|exact (wr_d _ Wx)].
    split; auto. rewrite Q. apply rq_plus.
  - destruct (gcd_div d1 d2 P2) as (g & a & b & Eg & Hg & E1 & E2 & Q1 & Q2 & Hb & _). rewrite <- Eg, Q2 in H. assert (0 < a) as Ha by (destruct a; lia).
    apply bind_ok in H as (l & H1 & H). apply i32_ok in H1 as (-> & Hl). replace (d1 * b / d1) with b in H by (rewrite N.mul_comm, N.div_mul; lia).
    replace (d1 * b / d2) with a in H by (subst d1 d2; replace (a * g * b) with (a * (b * g)) by lia; rewrite N.div_mul; nia).
    apply bind_ok in H as (x1 & H1 & H). apply i32_ok in H1 as (-> & _). apply bind_ok in H as (x2 & H1 & H). apply i32_ok in H1 as (-> & _).
    apply bind_ok in H as (x3 & H1 & H). apply i32_ok in H1 as (-> & Hn). apply rat_reduce_ok in H as (_ & W & Q & _); auto. split; auto. rewrite Q, rq_plus.
    rewrite rq_scale by auto. replace (d1 * b) with (d2 * a) by nia. rewrite rq_scale by auto. reflexivity.
Qed.

Definition qsum (l : list Q) : Q := fold_right Qplus 0%Q l.
Lemma rat_sum_from_ok ws : Forall wfr ws -> forall acc z, wfr acc -> rat_sum_from acc ws = Ok z -> wfr z /\ (rq z == rq acc + qsum (map rq ws))%Q.
Proof.
  induction 1 as [|w ws Hw Hws IH]; intros acc z Wa H; cbn [rat_sum_from] in H.
  - inversion H; subst. split; auto. cbn. ring.
  - apply bind_ok in H as (a & H1 & H). apply rat_add_ok in H1 as (W1 & Q1); auto. apply IH in H as (W2 & Q2); auto. split; auto. rewrite Q2, Q1. cbn [map qsum fold_right].
    fold (qsum (map rq ws)). ring.
Qed.
Lemma wfr_zero : wfr (0, 1). Proof. split; cbn; auto; unfold i32_max; lia. Qed.
Lemma rat_sum_ok ws z : Forall wfr ws -> rat_sum ws = Ok z -> wfr z /\ (rq z == qsum (map rq ws))%Q.
Proof. intros W H. apply rat_sum_from_ok in H as (A & B); auto using wfr_zero. split; auto. rewrite B. unfold rq. cbn. ring. Qed.
Lemma rat_lt1_spec x : wfr x -> rat_lt1 x = false <-> (1 <= rq x)%Q.
Proof. intros W. destruct x as [n d]. rewrite rq_le1 by apply W. unfold rat_lt1. cbn [fst snd]. lia. Qed.

(** Errors never come out of sums. *)
Lemma rat_add_noerr x y e : rat_add x y <> Err e.
Proof.
  destruct x as [n1 d1], y as [n2 d2]. assert (forall n, i32 n <> Err e) as Hi by (intros n; unfold i32; destruct (_ <=? _); discriminate).
  assert (forall n d, rat_reduce n d <> Err e) as Hr. { intros n d. unfold rat_reduce. destruct (d =? 0); [discriminate|]. destruct (n =? 0); [discriminate|]. destruct (n =? d); discriminate. }
  unfold rat_add. destruct (d1 =? d2).
  - pose proof (Hi (n1 + n2)). destruct (i32 _); cbn [bind]; congruence || auto.
  - assert (forall n (k : N -> R rat), (forall m, k m <> Err e) -> bind (i32 n) k <> Err e) as Hb. { intros n k Hk. pose proof (Hi n). destruct (i32 n); cbn [bind]; auto; congruence. }
    apply Hb. intros l. apply Hb. intros a. apply Hb. intros b. apply Hb. intros n. apply Hr.
Qed.
Lemma rat_sum_noerr ws e : rat_sum ws <> Err e.
Proof.
  unfold rat_sum. generalize (0, 1). induction ws as [|w ws IH]; intros acc; cbn [rat_sum_from]; [discriminate|]. pose proof (rat_add_noerr acc w e).
  destruct (rat_add acc w); cbn [bind]; auto; congruence.
Qed.

(** ** No overflow with small denominators *)
Lemma rat_add_in x y m L M : wfr x -> wfr y -> N.divide (snd x) L -> N.divide (snd y) L -> 0 < L -> fst x <= m * snd x -> fst y <= snd y -> (m + 1) * L <= M -> M <= i32_max ->
  exists z, rat_add x y = Ok z /\ N.divide (snd z) L /\ fst z <= (m + 1) * snd z.
Proof.
  intros Wx Wy Dx Dy HL Bx By HM Hmax. destruct x as [n1 d1], y as [n2 d2]. pose proof (wr_pos _ Wx) as P1. pose proof (wr_pos _ Wy) as P2. cbn [fst snd] in *. unfold rat_add.
  assert (d1 <= L) as L1 by (apply N.divide_pos_le; auto). destruct (d1 =? d2) eqn:E.
  - assert (d1 = d2) as <- by lia. assert (n1 + n2 <= i32_max) as Hn by nia. rewrite (i32_in (n1 + n2)), bind_Ok by exact Hn.
    destruct (rat_reduce_in (n1 + n2) d1 P1) as (z & Hz). exists z. split; auto. apply rat_reduce_ok in Hz as (_ & W & _ & Dz & Ez); auto; [|exact (wr_d _ Wx)].
    split; [eapply N.divide_trans; eauto|]. nia.
  - destruct (gcd_div d1 d2 P2) as (g & a & b & Eg & Hg & E1 & E2 & Q1 & Q2 & Hb & Hc). rewrite <- Eg, Q2. assert (0 < a) as Ha by (destruct a; lia).
    assert (N.divide (d1 * b) L) as DL.
    { destruct Dx as (u & Du). destruct Dy as (v & Dv). subst d1 d2. assert (u * a = v * b) as K by (clear - Du Dv Hg; nia).
      assert (N.divide b u) as (w & ->). { apply (N.gauss b a u); [exists v; lia|]. rewrite N.gcd_comm. exact Hc. } exists w. nia. }
    assert (d1 * b <= L) as L2 by (apply N.divide_pos_le; auto).
    assert (m * L + L <= i32_max) as KM by nia.
    rewrite (i32_in (d1 * b)), bind_Ok by nia. replace (d1 * b / d1) with b by (rewrite N.mul_comm, N.div_mul; lia).
    replace (d1 * b / d2) with a by (subst d1 d2; replace (a * g * b) with (a * (b * g)) by lia; rewrite N.div_mul; nia).
    assert (n1 * b <= m * (d1 * b)) as K1 by nia. assert (n2 * a <= d1 * b) as K2 by (replace (d1 * b) with (d2 * a) by nia; nia).
    assert (m * (d1 * b) <= m * L) as K3 by (apply N.mul_le_mono_l; exact L2).
    rewrite (i32_in (n1 * b)), bind_Ok by lia. rewrite (i32_in (n2 * a)), bind_Ok by lia. rewrite (i32_in (n1 * b + n2 * a)), bind_Ok by lia.
    assert (0 < d1 * b) as P3 by nia.
    destruct (rat_reduce_in (n1 * b + n2 * a) (d1 * b) P3) as (z & Hz). exists z. split; auto. apply rat_reduce_ok in Hz as (_ & W & _ & Dz & Ez); [|lia|lia].
    split; [eapply N.divide_trans; eauto|]. assert (fst z * (d1 * b) <= (m + 1) * snd z * (d1 * b)) as K4.
    { rewrite Ez. replace ((m + 1) * snd z * (d1 * b)) with ((m * (d1 * b) + d1 * b) * snd z) by ring. apply N.mul_le_mono_r. clear - K1 K2. lia. }
    apply N.mul_le_mono_pos_r in K4; auto.
Qed.
Lemma rat_sum_in ws L : 0 < L -> Forall wfr ws -> (forall w, In w ws -> N.divide (snd w) L /\ fst w <= snd w) -> len ws * L <= i32_max -> exists z, rat_sum ws = Ok z.
Proof.
  intros HL W D B. unfold rat_sum.
  assert (forall acc m, wfr acc -> N.divide (snd acc) L -> fst acc <= m * snd acc -> (m + len ws) * L <= i32_max -> exists z, rat_sum_from acc ws = Ok z) as G.
  { clear B. induction W as [|w ws Hw Hws IH]; intros acc m Wa Da Ba B; cbn [rat_sum_from]; eauto. rewrite len_cons in B. destruct (D w (or_introl eq_refl)) as (D1 & D2).
    destruct (rat_add_in acc w m L ((m + 1) * L) Wa Hw Da D1 HL Ba D2) as (z & Hz & Dz & Bz); [lia|nia|]. rewrite Hz, bind_Ok. apply (IH ltac:(intros; apply D; now right) z (m + 1)); auto; [|nia].
    now apply rat_add_ok in Hz as (W & _). }
  apply (G (0, 1) 0); auto using wfr_zero; cbn [fst snd]; try lia; apply N.divide_1_l.
Qed.

(** ** Weight texts *)
Definition wfw (w : rat) : Prop := wfr w /\ fst w <= snd w.

Lemma decimal_dec n : n < 10 ^ 40 -> decimal (dec_text n) n.
Proof.
  intros H. pose proof (dec_text_spec n H) as T. split; [apply T|]. pose proof (ds_digits _ _ T) as D. split.
  - apply Forall_forall. intros c Hc. rewrite forallb_forall in D. specialize (D c Hc). unfold is_digit in D. lia.
  - pose proof (ds_num _ _ T 0) as E. replace (0 * 10 ^ len (dec_text n) + n) with n in E by lia. rewrite <- E at 2. generalize 0. generalize (dec_text n).
    intros l; induction l as [|c l IH]; intros acc; cbn [fold_left dec_num]; auto.
Qed.
Lemma i32_10 n : n <= i32_max -> n < 10 ^ 40.
Proof. unfold i32_max. change (10 ^ 40) with 10000000000000000000000000000000000000000. lia. Qed.
Lemma decimal_nosep c s n : (b2n c < 48 \/ 57 < b2n c) -> decimal s n -> forallb (fun x => negb (Byte.eqb x c)) s = true.
Proof.
  intros Hc (_ & H & _). apply forallb_forall. intros x Hx. rewrite Forall_forall in H. specialize (H x Hx). destruct (Byte.eqb x c) eqn:E; auto. apply byte_eqb_eq in E. subst. lia.
Qed.
Lemma signed_decimal lo hi s n : decimal s n -> n <= hi -> signed lo hi (dec_val 0) s = Some (Z.of_N n).
Proof.
  intros (H1 & H2 & H3) Hn. pose proof (dec_val_spec s 0 H2) as D. rewrite H3 in D. destruct s as [|c s]; [contradiction|]. inversion H2 as [|? ? Hc _]; subst. unfold signed.
  assert (c <> x2b /\ c <> x2d) as (N1 & N2) by (split; intros ->; cbn in Hc; lia).
  match goal with |- match c with _ => _ end = ?r => assert (forall A (a b d : A), match c with x2b => a | x2d => b | _ => d end = d) as K by (intros; destruct c; congruence) end.
  transitivity (match dec_val 0 (c :: s) with Some v => if v <=? hi then Some (Z.of_N v) else None | None => None end). { destruct c; try congruence; reflexivity. }
  rewrite D. destruct (_ <=? hi) eqn:E; auto. lia.
Qed.
Lemma parse_i32_dec n : n <= i32_max -> parse_i32 (dec_text n) = Some (Z.of_N n).
Proof. intros H. unfold parse_i32. apply signed_decimal; [apply decimal_dec; now apply i32_10|exact H]. Qed.

Lemma weight_rat_text w : wfw w -> weight_rat (rat_text x2f w) = Ok w.
Proof.
  intros (W & B). destruct w as [n d]. unfold rat_text. cbn [fst snd] in *. pose proof (wr_n _ W) as Hn. pose proof (wr_d _ W) as Hd. cbn [fst snd] in Hn, Hd.
  destruct (d =? 1) eqn:E.
  - assert (d = 1) as -> by lia. assert (n = 0 \/ n = 1) as [Q|Q] by lia; rewrite Q; reflexivity.
  - unfold weight_rat. rewrite split_on_app by (apply (decimal_nosep x2f _ n); [vm_compute; auto|apply decimal_dec; now apply i32_10]).
    rewrite split_on_none by (apply (decimal_nosep x2f _ d); [vm_compute; auto|apply decimal_dec; now apply i32_10]).
    rewrite !parse_i32_dec by auto. destruct ((Z.of_N n <? 0)%Z || (Z.of_N d <? 0)%Z) eqn:E1; [lia|]. destruct (Z.of_N d <? Z.of_N n)%Z eqn:E2; [lia|].
    rewrite !N2Z.id. apply rat_reduce_id; [apply (wr_pos _ W)|apply (wr_gcd _ W)].
Qed.
Lemma signed_range lo hi f s z : signed lo hi f s = Some z -> (- Z.of_N lo <= z <= Z.of_N hi)%Z.
Proof.
  unfold signed. intros H.
  assert (forall bound (sg : Z -> Z) (P : Prop) r, (forall v, v <= bound -> Some (sg (Z.of_N v)) = Some z -> P) ->
    match r with [] => None | _ => match f r with Some v => if v <=? bound then Some (sg (Z.of_N v)) else None | None => None end end = Some z -> P) as K.
  { clear H. intros bound sg P r HP E. destruct r; [discriminate|]. destruct (f _) as [v|]; [|discriminate]. destruct (v <=? bound) eqn:Ev; [|discriminate]. apply (HP v); auto. lia. }
  destruct s as [|c s]; [discriminate|].
  destruct (Byte.byte_eq_dec c x2b) as [->|N1]. { refine (K hi (fun v => v) _ s _ H). intros v Hv E. inversion E; subst. lia. }
  destruct (Byte.byte_eq_dec c x2d) as [->|N2]. { refine (K lo Z.opp _ s _ H). intros v Hv E. inversion E; subst. lia. }
  assert (match f (c :: s) with Some v => if v <=? hi then Some (Z.of_N v) else None | None => None end = Some z) as H' by (destruct c; congruence || exact H).
  clear - H'. destruct (f (c :: s)) as [v|]; [|discriminate H']. destruct (v <=? hi) eqn:Ev; [|discriminate]. inversion H'; subst. lia.
Qed.
Lemma weight_rat_wf s w : weight_rat s = Ok w -> wfw w.
Proof.
  assert (forall w, w = (0, 1) \/ w = (1, 1) -> wfw w) as H01. { intros w' [->| ->]; split; try (split; cbn; auto; unfold i32_max; lia); cbn; lia. }
  unfold weight_rat. destruct (split_on x2f s) as [|a [|b [|c l]]]; [discriminate| | |].
  1, 3: destruct (beq a (s! "0")); [intros H; inversion H; subst; auto|]; destruct (beq a (s! "1")); [intros H; inversion H; subst; auto|discriminate].
  destruct (parse_i32 a) as [n|] eqn:En; [|discriminate]. destruct (parse_i32 b) as [d|] eqn:Ed; [|discriminate]. unfold parse_i32 in En, Ed. apply signed_range in En, Ed.
  destruct (_ || _) eqn:E1; [discriminate|]. destruct (d <? n)%Z eqn:E2; [discriminate|]. intros H. apply rat_reduce_ok in H as (P & W & Q & _ & E); [|unfold i32_max; lia|unfold i32_max; lia].
  split; auto. pose proof (wr_pos _ W). nia.
Qed.
Lemma signed_cons lo hi f c s : signed lo hi f (c :: s) =
  let num bound sg r := match r with [] => None | _ => match f r with Some v => if v <=? bound then Some (sg (Z.of_N v)) else None | None => None end end in
  if Byte.eqb c x2b then num hi (fun z => z) s else if Byte.eqb c x2d then num lo Z.opp s else num hi (fun z => z) (c :: s).
Proof. destruct c; reflexivity. Qed.
Lemma decimal_val s n : decimal s n -> dec_val 0 s = Some n.
Proof. intros (H1 & H2 & H3). now rewrite (dec_val_spec s 0 H2), H3. Qed.
Lemma val_decimal s n : s <> [] -> dec_val 0 s = Some n -> decimal s n.
Proof.
  intros Hs H. assert (Forall (fun c => 48 <= b2n c <= 57) s) as F.
  { clear Hs. revert H. generalize 0. induction s as [|c s IH]; intros acc H; constructor; cbn [dec_val] in H; destruct (_ && _) eqn:E; try discriminate; [lia|eauto]. }
  split; auto. split; auto. rewrite (dec_val_spec s 0 F) in H. congruence.
Qed.
Lemma parse_i32_numeral t m z : numeral t m -> parse_i32 t = Some z -> z = Z.of_N m /\ m <= i32_max.
Proof.
  intros (d & D & [->|[->|(-> & ->)]]) H; pose proof (decimal_val _ _ D) as V; destruct D as (H1 & H2 & _); unfold parse_i32 in H.
  - destruct d as [|c d]; [contradiction|]. rewrite signed_cons in H. inversion H2 as [|? ? Hc _]; subst. cbv zeta in H. destruct (Byte.eqb c x2b) eqn:E1. { apply byte_eqb_eq in E1. subst. cbn in Hc. lia. }
    destruct (Byte.eqb c x2d) eqn:E2. { apply byte_eqb_eq in E2. subst. cbn in Hc. lia. } rewrite V in H. destruct (m <=? _) eqn:E; [|discriminate]. inversion H; subst. unfold i32_max. lia.
  - change (s! "+" ++ d) with (x2b :: d) in H. rewrite signed_cons in H. cbv zeta in H. change (Byte.eqb x2b x2b) with true in H. cbv iota in H. destruct d as [|c d]; [contradiction|].
    rewrite V in H. destruct (m <=? _) eqn:E; [|discriminate]. inversion H; subst. unfold i32_max. lia.
  - change (s! "-" ++ d) with (x2d :: d) in H. rewrite signed_cons in H. cbv zeta in H. change (Byte.eqb x2d x2b) with false in H. change (Byte.eqb x2d x2d) with true in H. cbv iota in H.
    destruct d as [|c d]; [contradiction|]. rewrite V in H. inversion H; subst. split; [reflexivity|]. unfold i32_max; lia.
Qed.
Lemma numeral_parse_i32 t m : numeral t m -> m <= i32_max -> parse_i32 t = Some (Z.of_N m).
Proof.
  intros (d & D & [->|[->|(-> & ->)]]) H; pose proof (decimal_val _ _ D) as V; unfold parse_i32.
  - now apply signed_decimal.
  - change (s! "+" ++ d) with (x2b :: d). rewrite signed_cons. cbv zeta. change (Byte.eqb x2b x2b) with true. cbv iota. destruct D as (H1 & H2 & _). destruct d as [|c d]; [contradiction|].
    rewrite V. unfold i32_max in H. destruct (m <=? _) eqn:E; auto. lia.
  - change (s! "-" ++ d) with (x2d :: d). rewrite signed_cons. cbv zeta. change (Byte.eqb x2d x2b) with false. change (Byte.eqb x2d x2d) with true. cbv iota.
    destruct D as (H1 & H2 & _). destruct d as [|c d]; [contradiction|]. rewrite V. reflexivity.
Qed.
Lemma parse_numeral t z : parse_i32 t = Some z -> (0 <= z)%Z -> numeral t (Z.to_N z).
Proof.
  unfold parse_i32. destruct t as [|c t]; [discriminate|]. rewrite signed_cons. cbv zeta. intros H Hz. destruct (Byte.eqb c x2b) eqn:E1; [|destruct (Byte.eqb c x2d) eqn:E2].
  - apply byte_eqb_eq in E1. subst. destruct t as [|c t]; [discriminate|]. destruct (dec_val 0 (c :: t)) as [v|] eqn:V; [|discriminate]. destruct (v <=? _); [|discriminate]. inversion H; subst.
    exists (c :: t). rewrite N2Z.id. split; [|right; left; reflexivity]. apply val_decimal; auto. discriminate.
  - apply byte_eqb_eq in E2. subst. destruct t as [|c t]; [discriminate|]. destruct (dec_val 0 (c :: t)) as [v|] eqn:V; [|discriminate]. destruct (v <=? _); [|discriminate]. inversion H; subst.
    assert (v = 0) as -> by lia. exists (c :: t). split; [apply val_decimal; auto; discriminate|]. right; right; split; reflexivity.
  - destruct (dec_val 0 (c :: t)) as [v|] eqn:V; [|discriminate]. destruct (v <=? _); [|discriminate]. inversion H; subst. rewrite N2Z.id.
    exists (c :: t). split; [|left; reflexivity]. apply val_decimal; auto. discriminate.
Qed.
Lemma numeral_nosep t n : numeral t n -> forallb (fun x => negb (Byte.eqb x x2f)) t = true.
Proof.
  intros (d & D & [->|[->|(-> & ->)]]); [|change (s! "+" ++ d) with (x2b :: d)|change (s! "-" ++ d) with (x2d :: d)]; cbn [forallb]; rewrite (decimal_nosep x2f _ _ ltac:(vm_compute; auto) D); reflexivity.
Qed.
(** A well-formed weight text is read exactly. *)
Lemma weight_frac_split a b n d : numeral a n -> numeral b d -> split_on x2f (a ++ s! "/" ++ b) = [a; b].
Proof. intros Da Db. change (a ++ s! "/" ++ b) with (a ++ x2f :: b). rewrite split_on_app by eauto using numeral_nosep. now rewrite split_on_none by eauto using numeral_nosep. Qed.
Lemma weight_rat_exact s q w : weight_text s q -> weight_rat s = Ok w -> (rq w == q)%Q /\ (Z.of_N (snd w) | Z.pos (Qden q))%Z.
Proof.
  intros H Hw. destruct H as [s n D|a b n d Da Db].
  - unfold weight_rat in Hw. rewrite split_on_none in Hw by (apply (decimal_nosep x2f _ n); [vm_compute; auto|auto]).
    destruct (beq s (s! "0")) eqn:E0. { apply beq_eq in E0. subst. destruct D as (_ & _ & D). vm_compute in D. subst. inversion Hw; subst. split; [reflexivity|apply Z.divide_1_l]. }
    destruct (beq s (s! "1")) eqn:E1; [|discriminate]. apply beq_eq in E1. subst. destruct D as (_ & _ & D). vm_compute in D. subst. inversion Hw; subst. split; [reflexivity|apply Z.divide_1_l].
  - unfold weight_rat in Hw. rewrite (weight_frac_split a b n (Npos d)) in Hw by auto.
    destruct (parse_i32 a) as [na|] eqn:En; [|discriminate]. destruct (parse_i32 b) as [nb|] eqn:Ed; [|discriminate].
    destruct (parse_i32_numeral _ _ _ Da En) as (-> & Ln). destruct (parse_i32_numeral _ _ _ Db Ed) as (-> & Ld). destruct (_ || _); [discriminate|]. destruct (_ <? _)%Z; [discriminate|]. rewrite !N2Z.id in Hw.
    apply rat_reduce_ok in Hw as (_ & _ & Q & (k & Dv) & _); auto. split; auto. cbn [Qden]. exists (Z.of_N k). lia.
Qed.
Lemma rat_text_weight w : wfw w -> weight_text (rat_text x2f w) (rq w).
Proof.
  intros (W & B). destruct w as [n d]. unfold rat_text, rq. cbn [fst snd] in *. pose proof (wr_n _ W) as Hn. pose proof (wr_d _ W) as Hd. pose proof (wr_pos _ W) as Hp. cbn [fst snd] in Hn, Hd, Hp.
  destruct d as [|p]; [lia|]. destruct (N.pos p =? 1) eqn:E.
  - assert (p = 1%positive) as -> by lia. change (Z.of_N n # 1) with (inject_Z (Z.of_N n)). constructor. apply decimal_dec. now apply i32_10.
  - apply (weight_frac (dec_text n) (dec_text (N.pos p))); [exists (dec_text n)|exists (dec_text (N.pos p))]; (split; [apply decimal_dec; now apply i32_10|auto]).
Qed.

(** ** Clauses *)
Lemma mapR_ok {A B} (f : A -> R B) l r : mapR f l = Ok r <-> Forall2 (fun x y => f x = Ok y) l r.
Proof.
  revert r; induction l as [|x l IH]; intros r; cbn [mapR].
  - split; intros H; inversion H; subst; auto.
  - split.
    + intros H. apply bind_ok in H as (y & H1 & H). apply bind_ok in H as (ys & H2 & H). inversion H; subst. constructor; auto. now apply IH.
    + intros H. inversion H as [|? y ? ys H1 H2]; subst. rewrite H1, bind_Ok. apply IH in H2. rewrite H2. reflexivity.
Qed.
Definition vals (ts : list (list bytes)) : value := VArr (map (fun c => VArr (map VStr c)) ts).
Definition clause_ok (c : list rat) : Prop := exists s, rat_sum c = Ok s /\ rat_lt1 s = false.
Lemma check_clauses_ok cs : check_clauses cs = Ok tt <-> Forall clause_ok cs.
Proof.
  induction cs as [|c cs IH]; cbn [check_clauses]. { split; auto. } split.
  - intros H. apply bind_ok in H as (s & H1 & H). destruct (rat_lt1 s) eqn:E; [discriminate|]. constructor; [exists s; auto|]. now apply IH.
  - intros H. inversion H as [|? ? (s & H1 & H2) H3]; subst. rewrite H1, bind_Ok, H2. now apply IH.
Qed.
Lemma v2r_ok v cs : values_to_rationals v = Ok cs <->
  exists ts, v = vals ts /\ Forall2 (Forall2 (fun s w => weight_rat s = Ok w)) ts cs /\ Forall clause_ok cs.
Proof.
  unfold values_to_rationals. split.
  - intros H. apply bind_ok in H as (l & H1 & H). destruct v as [| | | | |l'|]; try discriminate. inversion H1; subst l'. apply bind_ok in H as (rs & H2 & H). apply bind_ok in H as (u & H3 & H).
    inversion H; subst rs. destruct u. apply check_clauses_ok in H3. apply mapR_ok in H2.
    assert (exists ts, l = map (fun c => VArr (map VStr c)) ts /\ Forall2 (Forall2 (fun s w => weight_rat s = Ok w)) ts cs) as (ts & -> & F); [|exists ts; auto].
    clear - H2. induction H2 as [|x y l cs Hx Hl (ts & -> & F)]; [exists []; auto|].
    unfold clause_rats in Hx. apply bind_ok in Hx as (ws & E & Hx). destruct x as [| | | | |ws'|]; try discriminate. inversion E; subst ws'. apply mapR_ok in Hx.
    assert (exists t, ws = map VStr t /\ Forall2 (fun s w => weight_rat s = Ok w) t y) as (t & -> & Ft); [|exists (t :: ts); split; [reflexivity|constructor; auto]].
    clear - Hx. induction Hx as [|x y l cs Hx Hl (ts & -> & F)]; [exists []; auto|]. apply bind_ok in Hx as (s & E & Hx). destruct x; try discriminate. inversion E; subst.
    exists (s :: ts). split; [reflexivity|]. constructor; auto.
  - intros (ts & -> & F & C). unfold vals. cbn [to_vec]. rewrite bind_Ok. assert (mapR clause_rats (map (fun c => VArr (map VStr c)) ts) = Ok cs) as ->.
    { apply mapR_ok. clear C. induction F as [|t c ts cs Ft F IH]; cbn [map]; constructor; auto. unfold clause_rats. cbn [to_vec]. rewrite bind_Ok. apply mapR_ok.
      clear - Ft. induction Ft; cbn [map]; constructor; auto. }
    rewrite bind_Ok. apply check_clauses_ok in C. rewrite C. reflexivity.
Qed.
Definition canon_texts (cs : list (list rat)) : list (list bytes) := map (map (rat_text x2f)) cs.
Lemma v2r_wf v cs : values_to_rationals v = Ok cs -> Forall (Forall wfw) cs /\ Forall clause_ok cs.
Proof.
  intros H. apply v2r_ok in H as (ts & _ & F & C). split; auto. clear C. induction F as [|t c ts cs Ft F IH]; constructor; auto. clear - Ft. induction Ft; constructor; eauto using weight_rat_wf.
Qed.
Lemma v2r_canon cs : Forall (Forall wfw) cs -> Forall clause_ok cs -> values_to_rationals (vals (canon_texts cs)) = Ok cs.
Proof.
  intros W C. apply v2r_ok. exists (canon_texts cs). split; auto. split; auto. unfold canon_texts. clear C. induction W as [|c cs Wc W IH]; cbn [map]; constructor; auto.
  clear - Wc. induction Wc; cbn [map]; constructor; auto using weight_rat_text.
Qed.
Lemma canon_vals cs : VArr (map (fun c => VArr (map (fun w => VStr (rat_text x2f w)) c)) cs) = vals (canon_texts cs).
Proof. unfold vals, canon_texts. f_equal. rewrite map_map. apply map_ext. intros c. now rewrite map_map. Qed.

(** ** What the constructors return *)
Record weighted_t (cs : list (list rat)) (t : tholder) : Prop := {
  wt_wf : Forall (Forall wfw) cs;
  wt_ok : Forall clause_ok cs;
  wt_thold : t_thold t = vals (canon_texts cs);
  wt_weighted : t_weighted t = true;
  wt_size : size_sum 0 cs = Ok (t_size t);
  wt_number : t_number t = None;
  wt_bexter : exists b, t_bexter t = Some b /\ bexter_new (Some (rationals_to_bext cs)) None None None None None = Ok b;
}.
Lemma process_weighted_ok v t : process_weighted v = Ok t <-> exists cs, values_to_rationals v = Ok cs /\ weighted_t cs t.
Proof.
  unfold process_weighted. split.
  - intros H. apply bind_ok in H as (cs & H1 & H). exists cs. split; auto. apply bind_ok in H as (size & H2 & H). cbv zeta in H. apply bind_ok in H as (b & H3 & H). inversion H; subst.
    apply v2r_wf in H1 as (W & C). constructor; cbn; auto using canon_vals. exists b. auto.
  - intros (cs & H1 & T). rewrite H1, bind_Ok, (wt_size _ _ T), bind_Ok. cbv zeta. destruct (wt_bexter _ _ T) as (b & Eb & B). rewrite B, bind_Ok, canon_vals.
    destruct t as [th w sz nu be]. pose proof (wt_thold _ _ T) as E1. pose proof (wt_weighted _ _ T) as E2. pose proof (wt_number _ _ T) as E3. cbn in *. subst. reflexivity.
Qed.
Lemma process_weighted_again cs t : weighted_t cs t -> process_weighted (t_thold t) = Ok t.
Proof. intros T. apply process_weighted_ok. exists cs. split; auto. rewrite (wt_thold _ _ T). apply v2r_canon; apply T. Qed.

Record numeric_t (k : N) (t : tholder) : Prop := {
  nt_k : k <= u32_max;
  nt_eq : exists n, number_new (Some k) None None None None None None = Ok n /\ t = Th (VInt (Z.of_N k)) false k (Some n) None;
}.
Lemma process_unweighted_ok z t : process_unweighted z = Ok t <-> (0 <= z)%Z /\ numeric_t (Z.to_N z) t.
Proof.
  unfold process_unweighted. split.
  - destruct (z <? 0)%Z eqn:E1; [discriminate|]. destruct (_ <? z)%Z eqn:E2; [discriminate|]. intros H. apply bind_ok in H as (n & H1 & H). inversion H; subst.
    split; [lia|]. constructor; [lia|]. exists n. split; auto. f_equal. f_equal. lia.
  - intros (Hz & [Hk (n & Hn & ->)]). destruct (z <? 0)%Z eqn:E1; [lia|]. destruct (_ <? z)%Z eqn:E2; [lia|]. rewrite Hn, bind_Ok. do 2 f_equal. f_equal. lia.
Qed.

Definition accepted_t (t : tholder) : Prop := (exists k, numeric_t k t) \/ (exists cs, weighted_t cs t).
Lemma pw_acc v t : process_weighted v = Ok t -> accepted_t t.
Proof. intros H. apply process_weighted_ok in H as (cs & _ & H). right. eauto. Qed.
Lemma pu_acc z t : process_unweighted z = Ok t -> accepted_t t.
Proof. intros H. apply process_unweighted_ok in H as (_ & H). left. eauto. Qed.
Lemma sith_array_acc v t : sith_array v = Ok t -> accepted_t t.
Proof. unfold sith_array. intros H. apply bind_ok in H as (a & H1 & H). destruct a; [discriminate|]. cbv zeta in H. apply bind_ok in H as (c & _ & H). apply bind_ok in H as (u & _ & H). eapply pw_acc; eauto. Qed.
Lemma accepted canon a b c t : tholder_new canon a b c = Ok t -> accepted_t t.
Proof.
  unfold tholder_new. intros H. apply bind_ok in H as (t1 & H1 & H). apply bind_ok in H as (t2 & H2 & H). apply bind_ok in H as (t3 & H3 & H). destruct t3 as [t'|]; [|discriminate]. inversion H; subst t'. clear H.
  assert (forall x, t1 = Some x -> accepted_t x) as A1.
  { intros x ->. destruct a as [v|]; [|discriminate]. apply bind_ok in H1 as (y & H1 & E). inversion E; subst y. unfold process_thold in H1. destruct (to_i64 v); eauto using pu_acc, pw_acc. }
  assert (forall x, t2 = Some x -> accepted_t x) as A2.
  { intros x ->. destruct b as [l|]; [|inversion H2; subst; auto]. apply bind_ok in H2 as (o & H2 & E). destruct o as [y|]; [|inversion E; subst; auto]. inversion E; subst y. clear E.
    unfold process_limen in H2. destruct l as [|f l]; [discriminate|]. apply bind_ok in H2 as (li & _ & H2). apply bind_ok in H2 as (h & _ & H2). apply bind_ok in H2 as (code & _ & H2).
    destruct (has_code number_codes code).
    - apply bind_ok in H2 as (n & _ & H2). apply bind_ok in H2 as (k & _ & H2). destruct (_ <? k); [discriminate|]. apply bind_ok in H2 as (y & H2 & E). inversion E; subst. eauto using pu_acc.
    - destruct (has_code bexter_codes code); [|discriminate]. apply bind_ok in H2 as (n & _ & H2). apply bind_ok in H2 as (k & _ & H2). cbv zeta in H2. apply bind_ok in H2 as (y & H2 & E). inversion E; subst. eauto using pw_acc. }
  destruct c as [v|]; [|inversion H3; subst; auto]. apply bind_ok in H3 as (y & H3 & E). inversion E; subst. unfold process_sith in H3.
  destruct (to_i64 v); eauto using pu_acc. all: destruct (to_string v) as [s|e'|]; eauto using sith_array_acc.
  all: assert ((exists v', sith_array v' = Ok t) \/ (exists z, process_unweighted z = Ok t)) as [(v' & Q)|(z & Q)]; eauto using pu_acc, sith_array_acc.
  all: destruct s as [|ch s]; [discriminate H3|]; destruct (Byte.byte_eq_dec ch x5b) as [->|N];
    [apply bind_ok in H3 as (v' & _ & H3); left; eauto|]; right.
  all: assert (match parse_i64_hex (ch :: s) with Some z => process_unweighted z | None => Err EForeign end = Ok t) as H4 by (destruct ch; congruence || exact H3).
  all: destruct (parse_i64_hex (ch :: s)); [eauto|discriminate].
Qed.

(** ** Evaluation *)
Lemma satisfy_numeric_eq k t idx : numeric_t k t -> satisfy t idx = Ok ((0 <? k) && (k <=? len idx)).
Proof. intros [Hk (n & Hn & ->)]. unfold satisfy, satisfy_numeric. cbn. f_equal. lia. Qed.

Fixpoint wlist (idx : list N) (pos : N) (c : list rat) : list rat :=
  match c with [] => [] | w :: r => if in_dec N.eq_dec pos idx then w :: wlist idx (pos + 1) r else wlist idx (pos + 1) r end.
Lemma signed_weights_eq idx pos c : signed_weights (fun i => existsb (N.eqb i) idx) pos c = wlist idx pos c.
Proof.
  revert pos; induction c as [|w c IH]; intros pos; cbn [signed_weights wlist]; auto. rewrite IH. destruct (in_dec N.eq_dec pos idx) as [H|H].
  - replace (existsb (N.eqb pos) idx) with true; auto. symmetry. apply existsb_exists. exists pos. split; auto. lia.
  - replace (existsb (N.eqb pos) idx) with false; auto. symmetry. apply not_true_is_false. intros Q. apply existsb_exists in Q as (y & Hy & Ey). apply N.eqb_eq in Ey. subst. auto.
Qed.
Lemma wlist_In idx pos c w : In w (wlist idx pos c) -> In w c.
Proof. revert pos; induction c as [|x c IH]; intros pos H; [destruct H|]. cbn [wlist] in H. destruct (in_dec N.eq_dec pos idx); [destruct H as [->|H]|]; cbn; eauto. Qed.
Lemma wlist_Forall (P : rat -> Prop) idx pos c : Forall P c -> Forall P (wlist idx pos c).
Proof. rewrite !Forall_forall. intros H w Hw. apply H. eapply wlist_In; eauto. Qed.
Lemma wlist_len idx pos c : len (wlist idx pos c) <= len c.
Proof. revert pos; induction c as [|w c IH]; intros pos; cbn [wlist]; [lia|]. destruct (in_dec N.eq_dec pos idx); rewrite ?len_cons; specialize (IH (pos + 1)); lia. Qed.
Lemma wlist_all idx pos c : (forall i, pos <= i -> i < pos + len c -> In i idx) -> wlist idx pos c = c.
Proof.
  revert pos; induction c as [|w c IH]; intros pos H; cbn [wlist]; auto. rewrite len_cons in H. destruct (in_dec N.eq_dec pos idx) as [_|N].
  - f_equal. apply IH. intros i H1 H2. apply H; lia.
  - exfalso. apply N. apply H; lia.
Qed.
Lemma earned_wlist idx pos c qs : Forall2 (fun w q => rq w == q)%Q c qs -> (qsum (map rq (wlist idx pos c)) == earned idx pos qs)%Q.
Proof.
  intros H; revert pos; induction H as [|w q c qs Hw H IH]; intros pos; cbn [wlist earned]; [reflexivity|]. destruct (in_dec N.eq_dec pos idx); cbn [map qsum fold_right];
    fold (qsum (map rq (wlist idx (pos + 1) c))); rewrite (IH (pos + 1)), ?Hw; ring.
Qed.
Fixpoint sat_w (idx : list N) (pos : N) (cs : list (list rat)) : R bool :=
  match cs with
  | [] => Ok true
  | c :: r => let* cw := rat_sum (wlist idx pos c) in if rat_lt1 cw then Ok false else sat_w idx (pos + len c) r
  end.
Lemma satisfy_clauses_eq idx pos cs : satisfy_clauses (fun i => existsb (N.eqb i) idx) pos cs = sat_w idx pos cs.
Proof. revert pos; induction cs as [|c cs IH]; intros pos; cbn [satisfy_clauses sat_w]; auto. rewrite signed_weights_eq. destruct (rat_sum _); cbn [bind]; auto. rewrite IH. reflexivity. Qed.

Lemma sat_w_exact idx cs qs : Forall (Forall wfw) cs -> Forall2 (Forall2 (fun w q => rq w == q)%Q) cs qs -> forall pos,
  match sat_w idx pos cs with Ok b => b = true <-> meets idx pos qs | Err _ => False | Panic => True end.
Proof.
  intros W F. induction F as [|c q cs qs Fc F IH]; intros pos; cbn [sat_w meets]; [tauto|]. inversion W as [|? ? Wc Wcs]; subst.
  assert (Forall wfr c) as Wr by (revert Wc; apply Forall_impl; intros a Ha; apply Ha).
  destruct (rat_sum (wlist idx pos c)) as [s|e|] eqn:E; cbn [bind]; auto; [|exfalso; eapply rat_sum_noerr; eauto].
  apply rat_sum_ok in E as (Ws & Qs); [|now apply wlist_Forall]. rewrite (earned_wlist idx pos c q Fc) in Qs. pose proof (rat_lt1_spec s Ws) as L. rewrite Qs in L.
  assert (len q = len c) as Lq. { clear - Fc. induction Fc; auto. rewrite !len_cons. lia. }
  destruct (rat_lt1 s) eqn:Es.
  - split; [discriminate|]. intros (Q & _). apply L in Q. discriminate.
  - specialize (IH Wcs (pos + len c)). rewrite Lq. destruct (sat_w idx (pos + len c) cs); auto. rewrite IH. tauto.
Qed.

Lemma size_sum_spec cs acc n : size_sum acc cs = Ok n -> len (concat cs) < 4294967296 -> n = acc + len (concat cs).
Proof.
  revert acc; induction cs as [|c cs IH]; intros acc H B; cbn [size_sum concat] in *. { inversion H; subst. change (len (@nil rat)) with 0. lia. }
  apply bind_ok in H as (a & H1 & H). rewrite len_app in B. apply IH in H; [|lia]. unfold u32_add in H1. destruct (_ <=? _) eqn:E; [|discriminate]. inversion H1; subst. rewrite len_app.
  unfold as_u32 in *. rewrite N.mod_small in * by lia. lia.
Qed.
Lemma satisfy_weighted_eq cs t idx : weighted_t cs t ->
  satisfy t idx = if existsb (fun i => t_size t <=? i) idx then Panic else if t_size t <? len (concat cs) then Panic else sat_w idx 0 cs.
Proof.
  intros T. unfold satisfy. rewrite (wt_number _ _ T). destruct (wt_bexter _ _ T) as (b & -> & _). unfold satisfy_weighted. destruct (existsb _ idx); auto.
  rewrite (wt_thold _ _ T), v2r_canon by apply T. rewrite bind_Ok, satisfy_clauses_eq. reflexivity.
Qed.
