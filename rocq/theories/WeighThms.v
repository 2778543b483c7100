(** Exact statements about weighted thresholds: C42, C47, C82. *)
From Coq Require Import String.
From Coq Require Import NArith ZArith QArith Qreduction Bool List Lia ZifyBool ZifyNat ZifyN Lqa.
From Coq Require QArith.Qcanon.
From Verif Require Import Base BaseFacts B64 Util Tables Matter MatterFacts Counter CounterThms Prims PrimsFacts Json JsonFacts Tholder SpecCounter SpecTholder Spec PrimsThms TholderFacts TholderThms SpecWeigh.
Import ListNotations.
Open Scope N_scope.
Ltac Zify.zify_post_hook ::= Z.div_mod_to_equations.

(** ** Sums *)
Lemma qred_rq x : wfr x -> Npos (Qden (Qred (rq x))) = snd x.
Proof.
  intros W. destruct x as [n d]. pose proof (wr_pos _ W) as P. pose proof (wr_gcd _ W) as G. unfold rq. cbn [fst snd] in *. destruct d as [|p]; [lia|].
  rewrite Qcanon.Qred_identity; [reflexivity|]. cbn [Qnum Qden]. destruct n as [|q]; cbn in G |- *; congruence.
Qed.
Lemma qden_eq a x : wfr x -> (rq x == a)%Q -> Npos (Qden (Qred a)) = snd x.
Proof. intros W E. rewrite <- (Qred_complete _ _ E). now apply qred_rq. Qed.
Definition step (x y : rat) : Prop := 2 ^ 31 <= N.lcm (snd x) (snd y) \/ 2 ^ 31 <= fst x * (N.lcm (snd x) (snd y) / snd x) + fst y * (N.lcm (snd x) (snd y) / snd y).
Lemma i32_panic n : i32 n = Panic <-> 2 ^ 31 <= n.
Proof. unfold i32, i32_max. change (2 ^ 31) with 2147483648. destruct (_ <=? _) eqn:E; split; intros H; try discriminate; auto; lia. Qed.
Lemma bind_i32_panic {A} n (k : N -> R A) : bind (i32 n) k = Panic <-> 2 ^ 31 <= n \/ n < 2 ^ 31 /\ k n = Panic.
Proof.
  change (2 ^ 31) with 2147483648. unfold i32, i32_max. destruct (_ <=? _) eqn:E; cbn [bind].
  - split; [right; split; [lia|auto]|]. intros [H|(_ & H)]; [lia|auto].
  - split; [left; lia|auto].
Qed.
Lemma rat_add_panic x y : wfr x -> wfr y -> rat_add x y = Panic <-> step x y.
Proof.
  intros Wx Wy. destruct x as [n1 d1], y as [n2 d2]. unfold rat_add, step. pose proof (wr_pos _ Wx) as P1. pose proof (wr_pos _ Wy) as P2. pose proof (wr_d _ Wx) as B1. cbn [fst snd] in *.
  assert (forall n d, 0 < d -> rat_reduce n d <> Panic) as NR by (intros n d Hd; destruct (rat_reduce_in n d Hd) as (z & ->); discriminate).
  destruct (d1 =? d2) eqn:E.
  - assert (d1 = d2) as <- by lia. rewrite bind_i32_panic. assert (N.lcm d1 d1 = d1) as -> by (apply N.lcm_diag). rewrite N.div_same, !N.mul_1_r by lia. unfold i32_max in B1.
    change (2 ^ 31) with 2147483648. split; [intros [H|(_ & H)]; [now right|now apply NR in H]|intros [H|H]; [lia|now left]].
  - change (d1 * (d2 / N.gcd d1 d2)) with (N.lcm d1 d2). set (l := N.lcm d1 d2).
    assert (0 < l) as Pl. { destruct (N.eq_dec l 0) as [Q|Q]; [|lia]. apply N.lcm_eq_0 in Q. lia. }
    rewrite !bind_i32_panic. clearbody l. generalize (n1 * (l / d1)) (n2 * (l / d2)). intros a b. pose proof (NR (a + b) l Pl) as Q. change (2 ^ 31) with 2147483648. clear - Q. split.
    + intros [H|(_ & [H|(_ & [H|(_ & [H|(_ & H)])])])]; [now left|right; lia|right; lia|now right|contradiction].
    + intros [H|H]; [now left|]. destruct (N.le_gt_cases 2147483648 l); [now left|]. right. split; auto. destruct (N.le_gt_cases 2147483648 a); [now left|]. right. split; auto.
      destruct (N.le_gt_cases 2147483648 b); [now left|]. right. split; auto.
Qed.
Lemma rq_times n d l : 0 < d -> N.divide d l -> (rq (n, d) * inject_Z (Z.of_N l) == inject_Z (Z.of_N (n * (l / d))))%Q.
Proof.
  intros P (k & ->). rewrite N.div_mul by lia. unfold rq. cbn [fst snd]. destruct d as [|p]; [lia|]. unfold Qeq, Qmult, inject_Z. cbn [Qnum Qden]. lia.
Qed.
Lemma step_q x y a w : wfr x -> wfr y -> (rq x == a)%Q -> (rq y == w)%Q ->
  step x y <-> let l := N.lcm (Npos (Qden (Qred a))) (Npos (Qden (Qred w))) in 2 ^ 31 <= l \/ (inject_Z (2 ^ 31) <= (a + w) * inject_Z (Z.of_N l))%Q.
Proof.
  intros Wx Wy Ea Ew. cbv zeta. rewrite (qden_eq a x Wx Ea), (qden_eq w y Wy Ew). unfold step. set (l := N.lcm (snd x) (snd y)).
  assert ((a + w) * inject_Z (Z.of_N l) == inject_Z (Z.of_N (fst x * (l / snd x) + fst y * (l / snd y))))%Q as ->.
  { rewrite <- Ea, <- Ew. destruct x as [n1 d1], y as [n2 d2]. rewrite Qmult_plus_distr_l. rewrite !rq_times; [|apply Wy|apply N.divide_lcm_r|apply Wx|apply N.divide_lcm_l].
    cbn [fst snd]. rewrite <- inject_Z_plus, <- N2Z.inj_add. reflexivity. }
  rewrite <- Zle_Qle. change (2 ^ 31)%Z with (Z.of_N (2 ^ 31)). rewrite <- N2Z.inj_le. reflexivity.
Qed.
Lemma total_app a b : (total (a ++ b) == total a + total b)%Q.
Proof. induction a as [|w a IH]; cbn [app total]; [ring|]. rewrite IH. ring. Qed.
Lemma sum_from_panic ws qs : Forall2 (fun w q => wfr w /\ (rq w == q)%Q) ws qs -> forall acc pre, wfr acc -> (rq acc == total pre)%Q ->
  rat_sum_from acc ws = Panic <->
  exists a w b, qs = a ++ w :: b /\ let l := N.lcm (Npos (Qden (Qred (total (pre ++ a))))) (Npos (Qden (Qred w))) in
    2 ^ 31 <= l \/ (inject_Z (2 ^ 31) <= total (pre ++ a ++ [w]) * inject_Z (Z.of_N l))%Q.
Proof.
  assert (forall l p x n, (2 ^ 31 <= l \/ inject_Z (2 ^ 31) <= p * n)%Q -> (p == x)%Q -> (2 ^ 31 <= l \/ inject_Z (2 ^ 31) <= x * n)%Q) as K0 by (intros l p x n H E; now rewrite <- E).
  clear K0. induction 1 as [|w q ws qs (Ww & Ew) F IH]; intros acc pre Wa Ea; cbn [rat_sum_from].
  { split; [discriminate|]. intros (a & w & b & E & _). destruct a; discriminate. }
  pose proof (step_q acc w (total pre) q Wa Ww Ea Ew) as S. rewrite <- (rat_add_panic acc w Wa Ww) in S. cbv zeta in S |- *.
  assert ((total pre + q == total (pre ++ [q]))%Q) as T by (rewrite total_app; cbn [total]; ring). rewrite T in S.
  destruct (rat_add acc w) as [z|e|] eqn:A; cbn [bind].
  - apply rat_add_ok in A as (Wz & Ez); auto. rewrite (IH z (pre ++ [q]) Wz) by (rewrite Ez, Ea, Ew; exact T). cbv zeta. split.
    + intros (a & w' & b & -> & H). exists (q :: a), w', b. split; [reflexivity|]. rewrite <- !app_assoc in H. exact H.
    + intros (a & w' & b & E & H). destruct a as [|q' a].
      * exfalso. inversion E; subst. rewrite app_nil_r in H. cbn [app] in H. apply S in H. discriminate.
      * inversion E; subst. exists a, w', b. split; [reflexivity|]. rewrite <- !app_assoc. exact H.
  - exfalso. eapply rat_add_noerr; eauto.
  - split; auto. intros _. exists [], q, qs. split; [reflexivity|]. rewrite app_nil_r. cbn [app]. now apply S.
Qed.
Definition near (w : rat) (q : Q) : Prop := wfw w /\ (rq w == q)%Q.
Lemma near_wfr ws qs : Forall2 near ws qs -> Forall2 (fun w q => wfr w /\ (rq w == q)%Q) ws qs.
Proof. induction 1 as [|w q ws qs (W & E) F IH]; constructor; auto. split; auto. apply W. Qed.
Lemma sum_panic ws qs : Forall2 near ws qs -> rat_sum ws = Panic <-> overflows qs.
Proof.
  intros F. unfold rat_sum, overflows. rewrite (sum_from_panic ws qs (near_wfr _ _ F) (0, 1) [] wfr_zero) by reflexivity. reflexivity.
Qed.
Lemma sum_ok ws qs z : Forall2 near ws qs -> rat_sum ws = Ok z -> (rat_lt1 z = false <-> (1 <= total qs)%Q).
Proof.
  intros F H. apply rat_sum_ok in H as (W & E). 2: { induction F as [|w q ws' qs' (Ww & _) F IH]; constructor; [apply Ww|]. clear - F. induction F as [|w q ws qs (Ww & _) F IH]; constructor; auto. apply Ww. }
  assert (qsum (map rq ws) == total qs)%Q as T. { clear - F. induction F as [|w q ws qs (_ & E) F IH]; cbn [map total qsum fold_right]; [reflexivity|]. fold (qsum (map rq ws)). rewrite E, IH. reflexivity. }
  rewrite (rat_lt1_spec z W), E, T. reflexivity.
Qed.
(** The outcome of a clause. *)
Lemma clause_passes ws qs : Forall2 near ws qs -> clause_ok ws <-> passes qs.
Proof.
  intros F. unfold clause_ok, passes. rewrite <- (sum_panic ws qs F). split.
  - intros (z & E & L). split; [rewrite E; discriminate|]. now apply (sum_ok ws qs z F E).
  - intros (N & T). destruct (rat_sum ws) as [z|e|] eqn:E; [|exfalso; eapply rat_sum_noerr; eauto|congruence]. exists z. split; auto. now apply (sum_ok ws qs z F E).
Qed.
Lemma check_panic_iff cs qs : Forall2 (Forall2 near) cs qs -> check_clauses cs = Panic <-> exists a c b, qs = a ++ c :: b /\ Forall passes a /\ overflows c.
Proof.
  induction 1 as [|c q cs qs Fc F IH]; cbn [check_clauses]. { split; [discriminate|]. intros (a & c & b & E & _). destruct a; discriminate. }
  pose proof (sum_panic c q Fc) as S. pose proof (clause_passes c q Fc) as P. unfold clause_ok in P. destruct (rat_sum c) as [z|e|] eqn:E; cbn [bind].
  - assert (~ overflows q) as NO by (intros Q; apply S in Q; discriminate). destruct (rat_lt1 z) eqn:L.
    + split; [discriminate|]. intros (a & x & b & Eq & Pa & O). destruct a as [|y a]; inversion Eq; subst; [contradiction|]. inversion Pa as [|? ? Py _]; subst.
      apply P in Py as (z' & Ez & Lz). inversion Ez; subst. congruence.
    + rewrite IH. assert (passes q) as Pq by (apply P; exists z; auto). split.
      * intros (a & x & b & -> & Pa & O). exists (q :: a), x, b. split; [reflexivity|]. split; auto.
      * intros (a & x & b & Eq & Pa & O). destruct a as [|y a]; inversion Eq; subst; [contradiction|]. inversion Pa; subst. exists a, x, b. auto.
  - exfalso. eapply rat_sum_noerr; eauto.
  - split; auto. intros _. exists [], q, qs. split; [reflexivity|]. split; [constructor|]. now apply S.
Qed.

(** ** Weight texts *)
Lemma slashes_split s : len (split_on x2f s) = slashes s + 1.
Proof.
  pose proof (len_split_on x2f s) as L. assert (filter (Byte.eqb x2f) s = filter (fun c => Byte.eqb c x2f) s) as E.
  { apply filter_ext. intros c. destruct (Byte.eqb x2f c) eqn:E1, (Byte.eqb c x2f) eqn:E2; auto; [apply byte_eqb_eq in E1|apply byte_eqb_eq in E2]; subst; discriminate. }
  rewrite E in L. unfold slashes. lia.
Qed.
Lemma split_first p r : forallb (fun x => negb (Byte.eqb x x2f)) p = true -> split_on x2f (p ++ x2f :: r) = p :: split_on x2f r.
Proof.
  induction p as [|c p IH]; intros H; cbn [app split_on]. { reflexivity. }
  cbn [forallb] in H. apply andb_prop in H as (H1 & H2). destruct (Byte.eqb c x2f); [discriminate|]. rewrite (IH H2). reflexivity.
Qed.
Lemma reads_rat s q : reads s q -> exists w, weight_rat s = Ok w /\ near w q.
Proof.
  intros [(a & b & n & d & -> & Na & Nb & L & B & ->)|(Hn & p & Hp & Hs)].
  - assert (exists w, weight_rat (a ++ s! "/" ++ b) = Ok w) as (w & W).
    { unfold weight_rat. rewrite (weight_frac_split a b n (Npos d)) by auto. unfold i32_max in *. rewrite (numeral_parse_i32 a n Na), (numeral_parse_i32 b (Npos d) Nb) by (unfold i32_max; change (2 ^ 31) with 2147483648 in B; lia).
      replace ((Z.of_N n <? 0)%Z || (Z.of_N (N.pos d) <? 0)%Z) with false by lia. replace (Z.of_N (N.pos d) <? Z.of_N n)%Z with false by lia. apply rat_reduce_in. lia. }
    exists w. split; auto. split; [eapply weight_rat_wf; eauto|]. eapply weight_rat_exact; eauto. now apply weight_frac.
  - pose proof (slashes_split s) as SL. assert (exists ps, split_on x2f s = p :: ps /\ len ps <> 1) as (ps & E & L).
    { destruct Hs as [->|(r & ->)].
      - exists []. split; [|discriminate]. destruct Hp as [(-> & _)|(-> & _)]; reflexivity.
      - exists (split_on x2f r). assert (split_on x2f (p ++ s! "/" ++ r) = p :: split_on x2f r) as E by (apply split_first; destruct Hp as [(-> & _)|(-> & _)]; reflexivity).
        split; auto. rewrite E, len_cons in SL. lia. }
    assert (weight_rat s = if beq p (s! "0") then Ok (0, 1) else if beq p (s! "1") then Ok (1, 1) else Err EValue) as ->.
    { unfold weight_rat. rewrite E. destruct ps as [|x [|y ps]]; auto. exfalso. now apply L. }
    destruct Hp as [(-> & ->)|(-> & ->)]; eexists; (split; [reflexivity|]); (split; [|reflexivity]); split; try (split; cbn; auto; unfold i32_max; lia); cbn; lia.
Qed.
Lemma rat_reads s w : weight_rat s = Ok w -> exists q, reads s q /\ near w q.
Proof.
  intros H. pose proof (weight_rat_wf s w H) as W. pose proof (split_join x2f s) as J. pose proof (slashes_split s) as SL. unfold weight_rat in H.
  destruct (split_on x2f s) as [|a [|b [|c l]]]; [discriminate| | |].
  - destruct (beq a (s! "0")) eqn:E0; [|destruct (beq a (s! "1")) eqn:E1; [|discriminate]]; inversion H; subst w; [apply beq_eq in E0|apply beq_eq in E1]; subst a; rewrite !len_cons in SL; change (len (@nil bytes)) with 0 in SL.
    + exists 0%Q. split; [|split; [auto|reflexivity]]. right. split; [lia|]. exists (s! "0"). split; [left; auto|left; symmetry; exact J].
    + exists 1%Q. split; [|split; [auto|reflexivity]]. right. split; [lia|]. exists (s! "1"). split; [right; auto|left; symmetry; exact J].
  - destruct (parse_i32 a) as [n|] eqn:En; [|discriminate]. destruct (parse_i32 b) as [d|] eqn:Ed; [|discriminate]. destruct (_ || _) eqn:E1; [discriminate|]. destruct (d <? n)%Z eqn:E2; [discriminate|].
    assert (Z.to_N d <> 0) as Dn by (intros Q; unfold rat_reduce in H; rewrite Q in H; discriminate).
    pose proof (signed_range _ _ _ _ _ Ed) as Rd. apply parse_numeral in En; [|lia]. apply parse_numeral in Ed; [|lia]. destruct (Z.to_N d) as [|p] eqn:Ep; [lia|].
    exists (Z.of_N (Z.to_N n) # p). split.
    + left. exists a, b, (Z.to_N n), p. split; [symmetry; exact J|]. split; [exact En|]. split; [exact Ed|]. split; [clear - E1 E2 Ep; lia|]. split; [|reflexivity]. change (2 ^ 31) with 2147483648. clear - Rd Ep. lia.
    + split; auto. apply rat_reduce_ok in H as (_ & _ & E & _); [exact E|clear - Rd E2 E1 Ep; unfold i32_max; lia|clear - Rd Ep; unfold i32_max; lia].
  - assert (2 <= slashes s) as S2 by (rewrite !len_cons in SL; lia). assert (exists r, s = a ++ s! "/" ++ r) as (r & Er).
    { exists (join [x2f] (b :: c :: l)). rewrite <- J. reflexivity. }
    destruct (beq a (s! "0")) eqn:E0; [|destruct (beq a (s! "1")) eqn:E1; [|discriminate]]; inversion H; subst w; [apply beq_eq in E0|apply beq_eq in E1]; subst a.
    + exists 0%Q. split; [|split; [auto|reflexivity]]. right. split; [lia|]. exists (s! "0"). split; [left; auto|right; eauto].
    + exists 1%Q. split; [|split; [auto|reflexivity]]. right. split; [lia|]. exists (s! "1"). split; [right; auto|right; eauto].
Qed.
Lemma weight_panic_iff s : weight_rat s = Panic <-> zero_over_zero s.
Proof.
  split; [apply weight_rat_panic|]. intros (a & b & Na & Nb & ->). unfold weight_rat. rewrite (weight_frac_split a b 0 0) by auto.
  rewrite (numeral_parse_i32 a 0 Na), (numeral_parse_i32 b 0 Nb) by (unfold i32_max; lia). reflexivity.
Qed.

(** ** Values *)
Lemma reads_list t q : Forall2 reads t q -> exists c, mapR (fun w => let* s := to_string w in weight_rat s) (map VStr t) = Ok c /\ Forall2 near c q.
Proof.
  induction 1 as [|s q t qs Hs F (c & E & G)]; [exists []; auto|]. destruct (reads_rat s q Hs) as (w & W & Nw). exists (w :: c). cbn [map mapR to_string]. rewrite bind_Ok, W, bind_Ok, E, bind_Ok. auto.
Qed.
Lemma reads_clause t q : Forall2 reads t q -> exists c, clause_rats (VArr (map VStr t)) = Ok c /\ Forall2 near c q.
Proof. intros F. destruct (reads_list t q F) as (c & E & G). exists c. split; auto. Qed.
Lemma reads_clauses ts qs : Forall2 (Forall2 reads) ts qs -> exists cs, mapR clause_rats (map (fun c => VArr (map VStr c)) ts) = Ok cs /\ Forall2 (Forall2 near) cs qs.
Proof.
  induction 1 as [|t q ts qs Ht F (cs & E & G)]; [exists []; auto|]. destruct (reads_clause t q Ht) as (c & C & Nc). exists (c :: cs). cbn [map mapR]. rewrite C, bind_Ok, E, bind_Ok. auto.
Qed.
Lemma mapR_app {A B} (f : A -> R B) l m : mapR f (l ++ m) = (let* x := mapR f l in let* y := mapR f m in Ok (x ++ y)).
Proof.
  induction l as [|a l IH]; cbn [app mapR]. { cbn [bind]. destruct (mapR f m); reflexivity. } destruct (f a); cbn [bind]; auto. rewrite IH. destruct (mapR f l); cbn [bind]; auto. destruct (mapR f m); reflexivity.
Qed.
(** A list read from the left stops at the first entry that cannot be read. *)
Lemma mapR_first {A B} (f : A -> R B) l : mapR f l = Panic <-> exists a ys x b, l = a ++ x :: b /\ mapR f a = Ok ys /\ f x = Panic.
Proof.
  split.
  - induction l as [|x l IH]; [discriminate|]. cbn [mapR]. destruct (f x) as [y|e|] eqn:E; cbn [bind]; [|discriminate|intros _; exists [], [], x, l; auto].
    destruct (mapR f l); cbn [bind]; try discriminate. intros _. destruct IH as (a & ys & z & b & -> & M & P); auto. exists (x :: a), (y :: ys), z, b. cbn [mapR]. rewrite E, bind_Ok, M, bind_Ok. auto.
  - intros (a & ys & x & b & -> & M & P). rewrite mapR_app, M, bind_Ok. cbn [mapR]. rewrite P. reflexivity.
Qed.
Lemma list_reads ws c : mapR (fun w => let* s := to_string w in weight_rat s) ws = Ok c -> exists t q, ws = map VStr t /\ Forall2 reads t q /\ Forall2 near c q.
Proof.
  intros M. apply mapR_ok in M. induction M as [|x w ws c Hx M (t & q & -> & Ft & Fc)]; [exists [], []; auto|]. apply bind_ok in Hx as (s & Es & Hx). destruct x; try discriminate. inversion Es; subst.
  destruct (rat_reads s w Hx) as (q0 & R0 & N0). exists (s :: t), (q0 :: q). auto.
Qed.
Lemma clauses_reads l cs : mapR clause_rats l = Ok cs -> exists ts qs, l = map (fun c => VArr (map VStr c)) ts /\ Forall2 (Forall2 reads) ts qs /\ Forall2 (Forall2 near) cs qs.
Proof.
  intros M. apply mapR_ok in M. induction M as [|x c l cs Hx M (ts & qs & -> & Ft & Fc)]; [exists [], []; auto|]. unfold clause_rats in Hx. apply bind_ok in Hx as (ws & Ew & Hx). destruct x; try discriminate. inversion Ew; subst.
  apply list_reads in Hx as (t & q & -> & R & N). exists (t :: ts), (q :: qs). auto.
Qed.
Lemma forall2_near_eq c q q' : Forall2 near c q -> Forall2 near c q' -> Forall2 Qeq q q'.
Proof. intros F; revert q'; induction F as [|w x c q (_ & E) F IH]; intros q' G; inversion G as [|? x' ? r (_ & E') G']; subst; constructor; auto. now rewrite <- E, E'. Qed.

Lemma v2r_panic_iff v : values_to_rationals v = Panic <-> breaks v.
Proof.
  unfold values_to_rationals, breaks. split.
  - destruct v as [| | | | |l|]; try discriminate. cbn [to_vec]. rewrite bind_Ok. destruct (mapR clause_rats l) as [cs|e|] eqn:M; cbn [bind]; [|discriminate|intros _; left].
    + intros H. destruct (check_clauses cs) as [[]|e|] eqn:C; cbn [bind] in H; try discriminate. right. apply clauses_reads in M as (ts & qs & -> & Ft & Fc).
      apply (check_panic_iff cs qs Fc) in C as (a & c & b & -> & Pa & O). exists ts, a, c, b. split; [reflexivity|]. auto.
    + apply mapR_first in M as (a & ys & x & b & -> & Ma & P). apply clauses_reads in Ma as (ts & qs & -> & Ft & _). unfold clause_rats in P. destruct x as [| | | | |ws|]; try discriminate.
      cbn [to_vec] in P. rewrite bind_Ok in P. apply mapR_first in P as (t & c & y & r & -> & Mt & P). apply list_reads in Mt as (t' & q & -> & Fq & _). destruct y; try discriminate. cbn [to_string] in P. rewrite bind_Ok in P.
      apply weight_panic_iff in P. exists ts, qs, t', q, s, r, b. auto.
  - intros [(ts & qs & t & q & s & rest & more & -> & Fts & Ft & Z)|(ts & qs & c & more & -> & F & P & O)].
    + cbn [to_vec]. rewrite bind_Ok. replace (mapR clause_rats _) with (@Panic (list (list rat))); [reflexivity|]. symmetry. apply mapR_first. destruct (reads_clauses ts qs Fts) as (cs & M & _).
      exists (map (fun c => VArr (map VStr c)) ts), cs, (VArr (map VStr t ++ VStr s :: rest)), more. split; auto. split; auto. unfold clause_rats. cbn [to_vec]. rewrite bind_Ok. apply mapR_first.
      destruct (reads_list t q Ft) as (c & Mc & _). exists (map VStr t), c, (VStr s), rest. split; auto. split; auto. cbn [to_string]. rewrite bind_Ok. now apply weight_panic_iff.
    + unfold texts. cbn [to_vec]. rewrite bind_Ok. destruct (reads_clauses ts _ F) as (cs & M & Fc). rewrite M, bind_Ok. replace (check_clauses cs) with (@Panic unit); [reflexivity|]. symmetry. apply (check_panic_iff cs _ Fc). exists qs, c, more. auto.
Qed.
Lemma v2r_ok_iff v : (exists cs, values_to_rationals v = Ok cs) <-> exists ts qs, texts v ts /\ Forall2 (Forall2 reads) ts qs /\ Forall passes qs.
Proof.
  split.
  - intros (cs & H). unfold values_to_rationals in H. apply bind_ok in H as (l & E & H). destruct v; try discriminate. inversion E; subst. apply bind_ok in H as (rs & M & H). apply bind_ok in H as ([] & C & H).
    inversion H; subst rs. apply clauses_reads in M as (ts & qs & -> & Ft & Fc). exists ts, qs. split; [reflexivity|]. split; auto. apply check_clauses_ok in C. clear - Fc C.
    induction Fc as [|c q cs qs F Fc IH]; auto. inversion C; subst. constructor; auto. now apply (clause_passes c q F).
  - intros (ts & qs & -> & F & P). unfold values_to_rationals. cbn [to_vec]. rewrite bind_Ok. destruct (reads_clauses ts qs F) as (cs & M & Fc). rewrite M, bind_Ok. exists cs.
    replace (check_clauses cs) with (Ok tt); [reflexivity|]. symmetry. apply check_clauses_ok. clear - Fc P. induction Fc as [|c q cs qs F Fc IH]; auto. inversion P; subst. constructor; auto. now apply (clause_passes c q F).
Qed.
(** The text form of the accepted weights can be made. *)
Lemma weighted_after v cs : values_to_rationals v = Ok cs ->
  (keys v < 2 ^ 27 -> process_weighted v <> Panic) /\ (keys v < 2 ^ 21 -> exists t, process_weighted v = Ok t).
Proof.
  intros V. destruct (v2r_wf _ _ V) as (W & C). assert (len (concat cs) = keys v) as E.
  { apply v2r_ok in V as (ts & -> & F & _). rewrite keys_vals. clear - F. induction F as [|s c ts cs Fc F IH]; auto. cbn [concat]. rewrite !len_app, IH. f_equal. clear - Fc. induction Fc; auto. rewrite !len_cons. lia. }
  unfold process_weighted. rewrite V, bind_Ok. change (2 ^ 27) with 134217728. change (2 ^ 21) with 2097152. pose proof (bext_len cs W C) as HL. rewrite E in HL.
  assert (keys v < 134217728 -> exists n, size_sum 0 cs = Ok n) as K.
  { intros L. pose proof (size_sum_np cs 0) as Q. change (2 ^ 32) with 4294967296 in Q. specialize (Q ltac:(lia)).
    assert (forall acc e, size_sum acc cs <> Err e) as NE. { clear. induction cs as [|c cs IH]; intros acc e; cbn [size_sum]; [discriminate|]. unfold u32_add. destruct (_ <=? _); cbn [bind]; auto; discriminate. }
    destruct (size_sum 0 cs) eqn:S; [eauto|exfalso; eapply NE; eauto|congruence]. }
  split; intros L; (destruct K as (n & ->); [lia|]); rewrite bind_Ok; cbv zeta; destruct (C39_l (rationals_to_bext cs)) as (X0 & X); try (change (2 ^ 32) with 4294967296; lia).
  - destruct (bexter_new _ _ _ _ _ _); cbn [bind]; congruence.
  - destruct X0 as (_ & X0). destruct X0 as (b & B); [|rewrite B, bind_Ok; eauto]. split; [|lia]. rewrite over_b64. now apply bext_b64.
Qed.
Lemma weighted_panic_iff v : keys v < 2 ^ 27 -> process_weighted v = Panic <-> breaks v.
Proof.
  intros L. rewrite <- v2r_panic_iff. destruct (values_to_rationals v) as [cs|e|] eqn:V.
  - pose proof (weighted_after v cs V) as (Q & _). specialize (Q L). split; [intros; contradiction|discriminate].
  - unfold process_weighted. rewrite V. split; discriminate.
  - unfold process_weighted. rewrite V. split; auto.
Qed.
Lemma breaks_arr v : breaks v -> exists l, v = VArr l.
Proof. intros [(ts & qs & t & q & s & rest & more & -> & _)|(ts & qs & c & more & -> & _)]; eexists; reflexivity. Qed.
Lemma thold_panic_iff v : keys v < 2 ^ 27 -> process_thold v = Panic <-> breaks v.
Proof.
  intros L. unfold process_thold. destruct (to_i64 v) as [z|e|] eqn:E; try (now apply weighted_panic_iff). split.
  - intros H. now apply process_unweighted_np in H.
  - intros H. apply breaks_arr in H as (l & ->). discriminate.
Qed.
Lemma all_strings ws : forallb (fun w => is_ok (to_string w)) ws = true <-> exists t, ws = map VStr t.
Proof.
  induction ws as [|w ws IH]; cbn [forallb]; [split; auto; intros _; exists []; reflexivity|]. rewrite andb_true_iff, IH. split.
  - intros (H & t & ->). destruct w; try discriminate. exists (s :: t). reflexivity.
  - intros (t & E). destruct t as [|s t]; inversion E; subst. split; eauto.
Qed.
Lemma all_clauses cs : mapR (fun c => let* ws := to_vec c in if forallb (fun w => is_ok (to_string w)) ws then Ok tt else Err EValue) cs <> Panic /\
  ((exists us, mapR (fun c => let* ws := to_vec c in if forallb (fun w => is_ok (to_string w)) ws then Ok tt else Err EValue) cs = Ok us) <-> exists ts, cs = map (fun c => VArr (map VStr c)) ts).
Proof.
  set (f := fun c => let* ws := to_vec c in if forallb (fun w => is_ok (to_string w)) ws then Ok tt else Err EValue).
  assert (forall c, f c <> Panic) as NP. { intros c. unfold f. destruct c; try discriminate. cbn [to_vec]. rewrite bind_Ok. destruct (forallb _ _); discriminate. }
  split. { intros Q. apply mapR_panic in Q as (y & _ & Q). now apply NP in Q. }
  split.
  - intros (us & M). apply mapR_ok in M. induction M as [|c u cs us Hc M (ts & ->)]; [exists []; reflexivity|]. unfold f in Hc. destruct c as [| | | | |ws|]; try discriminate. cbn [to_vec] in Hc. rewrite bind_Ok in Hc.
    destruct (forallb _ ws) eqn:E; [|discriminate]. apply all_strings in E as (t & ->). exists (t :: ts). reflexivity.
  - intros (ts & ->). induction ts as [|t ts (us & IH)]; [exists []; reflexivity|]. cbn [map mapR]. rewrite IH. exists (tt :: us). unfold f at 1. cbn [to_vec]. rewrite bind_Ok.
    replace (forallb _ _) with true; [reflexivity|]. symmetry. apply all_strings. eauto.
Qed.
Lemma sith_array_eq v : (exists ts, sith_clauses v ts /\ sith_array v = process_weighted (vals ts)) \/ (exists e, sith_array v = Err e) /\ ~ exists ts, sith_clauses v ts.
Proof.
  unfold sith_array. destruct v as [| | | | |l|]; try (right; split; [eexists; reflexivity|]; intros (ts & [(_ & Q)|(c & _ & _ & Q)]); discriminate). cbn [to_vec]. rewrite bind_Ok.
  destruct l as [|x l]. { right. split; [eexists; reflexivity|]. intros (ts & [(N & Q)|(c & N & _ & Q)]); [destruct ts; [congruence|discriminate]|destruct c; [congruence|discriminate]]. }
  cbv zeta. remember (x :: l) as l0 eqn:El. destruct (forallb (fun c => is_ok (to_vec c)) l0) eqn:F.
  - cbn [to_vec]. rewrite bind_Ok. destruct (all_clauses l0) as (NP & OK). destruct (mapR _ l0) as [us|e|]; cbn [bind]; [|right|congruence].
    + left. destruct OK as (OK & _). destruct OK as (ts & Ets); [eauto|]. exists ts. split; [|rewrite Ets; reflexivity]. left. split; [intros ->; subst l0; discriminate|]. unfold vals. now rewrite Ets.
    + split; [eauto|]. intros (ts & [(N & Q)|(c & N & _ & Q)]).
      * inversion Q as [Q']. destruct OK as (_ & OK). destruct OK as (us & OK); [eauto|discriminate].
      * inversion Q as [Q']. rewrite Q' in F. destruct c; [congruence|discriminate].
  - cbn [to_vec]. rewrite bind_Ok. destruct (all_clauses [VArr l0]) as (NP & OK). destruct (mapR _ [VArr l0]) as [us|e|]; cbn [bind]; [|right|congruence].
    + left. destruct OK as (OK & _). destruct OK as (ts & Ets); [eauto|]. destruct ts as [|c [|]]; inversion Ets; subst l0. exists [c]. split; [|reflexivity]. right. exists c. split; [|auto]. intros ->. discriminate.
    + split; [eauto|]. intros (ts & [(N & Q)|(c & N & _ & Q)]).
      * inversion Q as [Q']. rewrite Q' in F. clear - F. induction ts as [|c ts IH]; [discriminate|]. cbn in F. auto.
      * inversion Q as [Q']. destruct OK as (_ & OK). destruct OK as (us & OK); [exists [c]; cbn [map]; now rewrite Q'|discriminate].
Qed.

(** ** Evaluation *)
Lemma near_len c q : Forall2 near c q -> len q = len c.
Proof. induction 1; auto. rewrite !len_cons. lia. Qed.
Lemma wlist_near idx c q : Forall2 near c q -> forall pos, Forall2 near (wlist idx pos c) (signed_by idx pos q).
Proof. induction 1 as [|w x c q Hw F IH]; intros pos; cbn [wlist signed_by]; auto. destruct (in_dec N.eq_dec pos idx); auto. Qed.
Lemma sat_w_outcome idx cs qs : Forall2 (Forall2 near) cs qs -> forall pos,
  (sat_w idx pos cs = Panic <-> exists a c b, signed_clauses idx pos qs = a ++ c :: b /\ Forall passes a /\ overflows c) /\
  (sat_w idx pos cs = Ok true <-> Forall passes (signed_clauses idx pos qs)) /\
  (sat_w idx pos cs = Ok false <-> exists a c b, signed_clauses idx pos qs = a ++ c :: b /\ Forall passes a /\ ~ overflows c /\ (total c < 1)%Q).
Proof.
  induction 1 as [|c q cs qs Fc F IH]; intros pos; cbn [sat_w signed_clauses].
  { split; [|split]; [split; [discriminate|]|split; auto|split; [discriminate|]]; intros (a & x & b & E & _); destruct a; discriminate. }
  pose proof (wlist_near idx c q Fc pos) as Nw. rewrite (near_len c q Fc). specialize (IH (pos + len c)). destruct IH as (I1 & I2 & I3).
  pose proof (sum_panic _ _ Nw) as S. pose proof (clause_passes _ _ Nw) as P. unfold clause_ok in P.
  set (x := signed_by idx pos q) in *. set (r := signed_clauses idx (pos + len c) qs) in *. clearbody r.
  assert (forall z, rat_sum (wlist idx pos c) = Ok z -> rat_lt1 z = false <-> (1 <= total x)%Q) as L by (intros z; now apply sum_ok).
  destruct (rat_sum (wlist idx pos c)) as [z|e|] eqn:E; cbn [bind].
  - assert (~ overflows x) as NO by (intros Q; apply S in Q; discriminate). specialize (L z eq_refl). destruct (rat_lt1 z) eqn:Ez.
    + assert (~ passes x) as NP by (intros Q; apply P in Q as (z' & Q & Lz); inversion Q; subst; congruence). assert (total x < 1)%Q as Lt. { apply Qnot_le_lt. intros Q. apply L in Q. discriminate. }
      split; [|split].
      * split; [discriminate|]. intros (a & y & b & Eq & Pa & O). destruct a as [|y' a]; inversion Eq; subst; [contradiction|]. inversion Pa; subst. contradiction.
      * split; [discriminate|]. intros Q. inversion Q; subst. contradiction.
      * split; auto. intros _. exists [], x, r. auto.
    + assert (passes x) as Px by (split; auto; now apply L). split; [|split].
      * rewrite I1. split.
        -- intros (a & y & b & -> & Pa & O). exists (x :: a), y, b. auto.
        -- intros (a & y & b & Eq & Pa & O). destruct a as [|y' a]; inversion Eq; subst; [contradiction|]. inversion Pa; subst. exists a, y, b. auto.
      * rewrite I2. split; intros Q; [auto|now inversion Q].
      * rewrite I3. split.
        -- intros (a & y & b & -> & Pa & O). exists (x :: a), y, b. auto.
        -- intros (a & y & b & Eq & Pa & O1 & O2). destruct a as [|y' a]; inversion Eq; subst; [exfalso; destruct Px as (_ & Px); apply (Qlt_not_le _ _ O2 Px)|]. inversion Pa; subst. exists a, y, b. auto.
  - exfalso. eapply rat_sum_noerr; eauto.
  - assert (overflows x) as O by (now apply S). split; [|split].
    + split; auto. intros _. exists [], x, r. auto.
    + split; [discriminate|]. intros Q. inversion Q as [|? ? (Q1 & _) _]; subst. contradiction.
    + split; [discriminate|]. intros (a & y & b & Eq & Pa & O1 & _). destruct a as [|y' a]; inversion Eq; subst; [contradiction|]. inversion Pa as [|? ? (Q1 & _) _]; subst. contradiction.
Qed.

(** ** The theorems *)
Lemma texts_near v ts qs cs : texts v ts -> Forall2 (Forall2 reads) ts qs -> values_to_rationals v = Ok cs -> Forall2 (Forall2 near) cs qs.
Proof.
  intros -> F V. destruct (reads_clauses ts qs F) as (cs' & M & N). unfold values_to_rationals in V. cbn [to_vec] in V. rewrite bind_Ok, M, bind_Ok in V.
  apply bind_ok in V as (u & _ & V). inversion V; subst. exact N.
Qed.
(*# C42_evaluation_exactly
   The outcome of evaluating an accepted weighted threshold with fewer than 2^32 weights, on every list of indices, from the exact rational values of the
   weights it was given (as a value, as sith, or those it reports however it was made): it panics exactly when an index is not below the number of
   weights, or when in the first clause that does not earn one the sum of the signed weights needs more than 31 bits at some step; otherwise it is true exactly
   when every clause earns one, and false exactly when some clause does not.
##
Example C42_exact_case : exists t, let v := VArr [VArr [VStr (s! "1"); VStr (s! "1/65537"); VStr (s! "1/x/y"); VStr (s! "0/65539")]] in
  tholder_new (fun _ => None) (Some v) None None = Ok t /\ satisfy t [0; 1] = Ok true /\ satisfy t [1; 3] = Ok false /\ satisfy t [4] = Panic /\
  reads (s! "1/x/y") 1 /\ ~ overflows [1; 1 # 65537]%Q /\ overflows [1 # 65537; 1 # 65539]%Q.
Proof.
  eexists. cbv zeta. split; [vm_compute; reflexivity|]. split; [vm_compute; reflexivity|]. split; [vm_compute; reflexivity|]. split; [vm_compute; reflexivity|]. split; [|split].
  - right. split; [vm_compute; discriminate|]. exists (s! "1"). split; [right; auto|]. right. exists (s! "x/y"). reflexivity.
  - intros (a & w & b & E & H). destruct a as [|a1 [|a2 a]]; inversion E; subst.
    + destruct H as [H|H]; vm_compute in H; congruence.
    + destruct H as [H|H]; vm_compute in H; congruence.
    + destruct a; discriminate.
  - exists [1 # 65537]%Q, (1 # 65539)%Q, []. split; [reflexivity|]. left. vm_compute. discriminate.
Qed.
#*)
Lemma C42_exact_l (canon : bytes -> option bytes) (v : value) (ts : list (list bytes)) (ws : list (list Q)) (t : tholder) (idx : list N) :
  texts v ts -> Forall2 (Forall2 reads) ts ws -> keys v < 2 ^ 32 ->
  tholder_new canon (Some v) None None = Ok t \/ (exists u, sith_clauses u ts /\ tholder_new canon None None (Some u) = Ok t) \/
  (exists a b c, tholder_new canon a b c = Ok t /\ t_weighted t = true /\ t_thold t = v) ->
  (satisfy t idx = Panic <-> (exists i, In i idx /\ keys v <= i) \/ exists a c b, signed_clauses idx 0 ws = a ++ c :: b /\ Forall passes a /\ overflows c) /\
  (satisfy t idx = Ok true <-> (forall i, In i idx -> i < keys v) /\ Forall passes (signed_clauses idx 0 ws)) /\
  (satisfy t idx = Ok false <-> (forall i, In i idx -> i < keys v) /\
    exists a c b, signed_clauses idx 0 ws = a ++ c :: b /\ Forall passes a /\ ~ overflows c /\ (total c < 1)%Q).
Proof.
  intros T F L H. assert (exists cs, values_to_rationals v = Ok cs /\ weighted_t cs t) as (cs & V & W).
  { apply process_weighted_ok. destruct H as [H|[(u & Hu & H)|(a & b & c & H & Hw & E)]].
    - apply new_thold in H. rewrite T in *. exact H.
    - apply new_sith in H. rewrite T. change (process_weighted (vals ts) = Ok t). destruct Hu as [(N & ->)|(c & N & -> & ->)].
      + now apply sith_vals in H.
      + rewrite flat_sith in H; auto.
    - apply accepted in H as [(k & Q)|(cs & Q)]. { destruct Q as [_ (n & _ & ->)]. discriminate. } rewrite <- E. now apply (process_weighted_again cs). }
  pose proof (texts_near v ts ws cs T F V) as N. pose proof (weighted_keys cs t v W V) as K. rewrite <- K in *.
  destruct (sat_w_outcome idx cs ws N 0) as (I1 & I2 & I3). rewrite (satisfy_weighted_eq cs t idx W), (size_keys cs t W L), N.ltb_irrefl.
  destruct (existsb _ idx) eqn:E.
  - apply existsb_exists in E as (i & Hi & Ei). apply N.leb_le in Ei. split; [|split].
    + split; auto. intros _. left. eauto.
    + split; [discriminate|]. intros (Q & _). apply Q in Hi. lia.
    + split; [discriminate|]. intros (Q & _). apply Q in Hi. lia.
  - assert (forall i, In i idx -> i < len (concat cs)) as B. { intros i Hi. apply N.lt_nge. intros Q. rewrite <- not_true_iff_false in E. apply E. apply existsb_exists. exists i. split; auto. now apply N.leb_le. }
    rewrite I1, I2, I3. split; [|split].
    + split; [now right|]. intros [(i & Hi & Q)|Q]; auto. apply B in Hi. lia.
    + tauto.
    + tauto.
Qed.

(*# C82_accepted_exactly
   Which values are accepted as a weighted threshold. Given as threshold value: an integer from 0 to 2^32 - 1, or a list of clauses, each a list of texts
   read as weights whose sum can be formed in 32-bit arithmetic and is at least one. Given as sith: such an integer, or a non-empty list of such clauses,
   or one non-empty clause. (For fewer than 2^21 weights; the text form of the threshold must fit a Bexter.)
##
Example C82_exact_case : exists t, tholder_new (fun _ => None) None None (Some (VArr [VStr (s! "+1/2"); VStr (s! "1/2")])) = Ok t /\
  sith_clauses (VArr [VStr (s! "+1/2"); VStr (s! "1/2")]) [[s! "+1/2"; s! "1/2"]] /\ tholder_new (fun _ => None) None None (Some (VArr [VStr (s! "1/2"); VStr (s! "1/3")])) = Err EValue.
Proof. eexists. split; [vm_compute; reflexivity|]. split; [|vm_compute; reflexivity]. right. exists [s! "+1/2"; s! "1/2"]. split; [discriminate|]. auto. Qed.
#*)
Lemma C82_exact_l (canon : bytes -> option bytes) (v : value) :
  (keys v < 2 ^ 21 ->
    ((exists t, tholder_new canon (Some v) None None = Ok t) <->
      (exists z, v = VInt z /\ (0 <= z < 2 ^ 32)%Z) \/ exists ts ws, texts v ts /\ Forall2 (Forall2 reads) ts ws /\ Forall passes ws)) /\
  ((forall s, v <> VStr s) -> (forall ts, sith_clauses v ts -> len (concat ts) < 2 ^ 21) ->
    ((exists t, tholder_new canon None None (Some v) = Ok t) <->
      (exists z, v = VInt z /\ (0 <= z < 2 ^ 32)%Z) \/ exists ts ws, sith_clauses v ts /\ Forall2 (Forall2 reads) ts ws /\ Forall passes ws)).
Proof.
  assert (forall z, (exists t, process_unweighted z = Ok t) <-> (0 <= z < 2 ^ 32)%Z) as U.
  { intros z. change (2 ^ 32)%Z with 4294967296%Z. unfold process_unweighted. destruct (z <? 0)%Z eqn:E; [split; [intros (t & Q); discriminate|lia]|]. destruct (_ <? z)%Z eqn:E2; [split; [intros (t & Q); discriminate|unfold u32_max in E2; lia]|].
    split; [unfold u32_max in E2; lia|]. intros _. destruct (number_new_spec (Z.to_N z)) as (c & w & _ & _ & _ & _ & H & _); [unfold u32_max, u128_max in *; lia|]. rewrite H, bind_Ok. eauto. }
  assert (forall u, keys u < 2 ^ 21 -> (exists t, process_weighted u = Ok t) <-> exists ts ws, texts u ts /\ Forall2 (Forall2 reads) ts ws /\ Forall passes ws) as W.
  { intros u L. rewrite <- v2r_ok_iff. split.
    - intros (t & H). apply process_weighted_ok in H as (cs & V & _). eauto.
    - intros (cs & V). destruct (weighted_after u cs V) as (_ & Q). auto. }
  rewrite thold_new, sith_new. split.
  - intros L. unfold process_thold. destruct v as [| |z| | | |]; cbn [to_i64]; try (rewrite (W _ L); split; [intros Q; right; exact Q|intros [(z & Q & _)|Q]; [discriminate|exact Q]]).
    rewrite U. split; [intros Q; left; eauto|]. intros [(z' & Q & B)|(ts & ws & Q & _)]; [inversion Q; subst; auto|discriminate].
  - intros Ns L. destruct v as [| |z| |s|l|]; try (split; [intros (t & Q); discriminate|intros [(z' & Q & B)|(ts & ws & [(_ & Q)|(c & _ & _ & Q)] & _)]; discriminate]).
    + unfold process_sith. cbn [to_i64]. rewrite U. split; [intros Q; left; eauto|]. intros [(z' & Q & B)|(ts & ws & [(_ & Q)|(c & _ & _ & Q)] & _)]; [inversion Q; subst; auto|discriminate|discriminate].
    + exfalso. now apply (Ns s).
    + unfold process_sith. cbn [to_i64 to_string]. destruct (sith_array_eq (VArr l)) as [(ts & Hs & ->)|((e & ->) & Hn)].
      * rewrite W by (rewrite keys_vals; now apply L). assert (forall ts', sith_clauses (VArr l) ts' -> ts' = ts) as Un.
        { intros ts' [(N1 & E1)|(c1 & N1 & -> & E1)]; destruct Hs as [(N2 & E2)|(c2 & N2 & -> & E2)].
          - apply vals_inj. unfold texts, vals in *. congruence.
          - exfalso. unfold texts in E1. rewrite E1 in E2. destruct ts', c2; try congruence; discriminate.
          - exfalso. unfold texts in E2. rewrite E2 in E1. destruct ts, c1; try congruence; discriminate.
          - f_equal. rewrite E1 in E2. inversion E2 as [E]. clear - E. revert c2 E. induction c1 as [|x c IH]; intros [|y d] E; try discriminate; auto. inversion E. f_equal; auto. }
        split.
        -- intros (ts' & ws & Q & R). apply vals_inj in Q. subst ts'. right. exists ts, ws. auto.
        -- intros [(z & Q & _)|(ts' & ws & Q & R)]; [discriminate|]. apply Un in Q. subst ts'. exists ts, ws. split; [reflexivity|auto].
      * split; [intros (t & Q); discriminate|]. intros [(z & Q & _)|(ts' & ws & Q & R)]; [discriminate|]. exfalso. eauto.
Qed.

(*# C43_monotone_exactly
   Exactly what more signatures do to a satisfied weighted threshold: it stays satisfied, unless an index is not below the number of weights or the weights that
   signed in some clause cannot be added up in 32-bit arithmetic; then checking it panics.
##
Example C43_exact_case : exists t, let v := VArr [VArr (map VStr [s! "1"; s! "1/65537"; s! "65536/65537"; s! "1/65539"])] in
  tholder_new (fun _ => None) (Some v) None None = Ok t /\ satisfy t [0] = Ok true /\ satisfy t [0; 1] = Ok true /\ satisfy t [0; 1; 3] = Panic /\ satisfy t [0; 1; 2; 3] = Ok true /\
  signed_clauses [0; 1; 3] 0 [[1; 1 # 65537; 65536 # 65537; 1 # 65539]%Q] = [[1; 1 # 65537; 1 # 65539]%Q] /\ overflows [1; 1 # 65537; 1 # 65539]%Q.
Proof.
  eexists. cbv zeta. do 5 (split; [vm_compute; reflexivity|]). split; [vm_compute; reflexivity|].
  exists [1; 1 # 65537]%Q, (1 # 65539)%Q, []. split; [reflexivity|]. left. vm_compute. discriminate.
Qed.
#*)
Lemma C43_exact_l (canon : bytes -> option bytes) (v : value) (ts : list (list bytes)) (ws : list (list Q)) (t : tholder) (idx more : list N) :
  texts v ts -> Forall2 (Forall2 reads) ts ws -> keys v < 2 ^ 32 ->
  tholder_new canon (Some v) None None = Ok t \/ (exists u, sith_clauses u ts /\ tholder_new canon None None (Some u) = Ok t) \/
  (exists a b c, tholder_new canon a b c = Ok t /\ t_weighted t = true /\ t_thold t = v) ->
  satisfy t idx = Ok true ->
  (satisfy t (idx ++ more) = Ok true <-> (forall i, In i more -> i < keys v) /\ forall c, In c (signed_clauses (idx ++ more) 0 ws) -> ~ overflows c) /\
  (satisfy t (idx ++ more) <> Ok true -> satisfy t (idx ++ more) = Panic).
Proof.
  intros T F K H S. destruct (C42_exact_l canon v ts ws t (idx ++ more) T F K H) as (P & Y & _). destruct (C42_exact_l canon v ts ws t idx T F K H) as (_ & Y' & _).
  assert (satisfy t (idx ++ more) = Ok true \/ satisfy t (idx ++ more) = Panic) as D.
  { assert (exists a b c, tholder_new canon a b c = Ok t) as (a & b & c & N) by (destruct H as [H|[(u & _ & H)|(a & b & c & H & _)]]; eauto). destruct (C43_partial_l canon a c b t idx more N) as (M & _). destruct (M S) as [M'|(_ & M')]; auto. }
  split; [|destruct D; tauto]. split.
  - intros O. apply Y in O as (I & C). split; [intros i J; apply I; apply in_or_app; now right|]. intros c J. rewrite Forall_forall in C. apply (C c J).
  - intros (I & C). destruct D as [D|D]; auto. exfalso. apply P in D as [(i & J & L)|(a & c & b & E & _ & O)].
    + apply Y' in S as (S & _). apply in_app_or in J as [J|J]; [specialize (S i J)|specialize (I i J)]; lia.
    + apply (C c); auto. rewrite E. apply in_or_app. right. now left.
Qed.
