(** Proofs of the properties of signing thresholds. *)
From Coq Require Import String.
From Coq Require Import NArith ZArith QArith Bool List FinFun Lia ZifyBool ZifyNat ZifyN Lqa.
From Verif Require Import Base BaseFacts B64 B64Facts Util Tables Matter MatterFacts MatterBin MatterText MatterMore Counter CounterThms Spec MatterThms SpecPrims Prims PrimsFacts PrimsThms Json JsonFacts Tholder SpecCounter SpecTholder TholderFacts.
Import ListNotations.
Open Scope N_scope.
Ltac Zify.zify_post_hook ::= Z.div_mod_to_equations.

(** ** Sizes *)
Lemma keys_vals ts : keys (vals ts) = len (concat ts).
Proof.
  unfold vals, keys. induction ts as [|t ts IH]; auto. cbn [map fold_right concat]. rewrite IH, len_app, len_map. reflexivity.
Qed.
Lemma keys_canon cs : keys (vals (canon_texts cs)) = len (concat cs).
Proof. rewrite keys_vals. unfold canon_texts. induction cs as [|c cs IH]; auto. cbn [map concat]. rewrite !len_app, IH, len_map. reflexivity. Qed.
Lemma keys_thold cs t : weighted_t cs t -> keys (t_thold t) = len (concat cs).
Proof. intros T. rewrite (wt_thold _ _ T). apply keys_canon. Qed.
Lemma size_keys cs t : weighted_t cs t -> len (concat cs) < 2 ^ 32 -> t_size t = len (concat cs).
Proof. intros T H. pose proof (wt_size _ _ T) as S. apply size_sum_spec in S; auto. Qed.
Lemma satisfy_in_range cs t idx : weighted_t cs t -> len (concat cs) < 2 ^ 32 -> (forall i, In i idx -> i < len (concat cs)) -> satisfy t idx = sat_w idx 0 cs.
Proof.
  intros T L B. rewrite (satisfy_weighted_eq cs t idx T), (size_keys cs t T L). destruct (existsb _ idx) eqn:E.
  - apply existsb_exists in E as (i & Hi & Ei). apply B in Hi. lia.
  - replace (len (concat cs) <? len (concat cs)) with false by lia. reflexivity.
Qed.
Lemma satisfy_cases cs t idx : weighted_t cs t -> satisfy t idx = Panic \/ satisfy t idx = sat_w idx 0 cs.
Proof. intros T. rewrite (satisfy_weighted_eq cs t idx T). destruct (existsb _ _); auto. destruct (_ <? _); auto. Qed.

(** ** Exact weights of an accepted threshold *)
Definition same_weights (cs : list (list rat)) (qs : list (list Q)) : Prop :=
  Forall2 (Forall2 (fun w q => (rq w == q)%Q /\ (Z.of_N (snd w) | Z.pos (Qden q))%Z)) cs qs.
Lemma same_weights_eq cs qs : same_weights cs qs -> Forall2 (Forall2 (fun w q => rq w == q)%Q) cs qs.
Proof. induction 1 as [|c q cs qs H HH IH]; constructor; auto. clear - H. induction H as [|w q c qs (A & _) B IH]; constructor; auto. Qed.
Lemma vals_inj ts us : vals ts = vals us -> ts = us.
Proof.
  unfold vals. intros H. inversion H as [E]. clear H. revert us E. induction ts as [|t ts IH]; intros [|u us] E; try discriminate; auto. inversion E as [[E1 E2]]. f_equal; auto.
  clear - E1. revert u E1. induction t as [|x t IH]; intros [|y u] E; try discriminate; auto. inversion E. f_equal; auto.
Qed.
Lemma v2r_weights v cs ws : values_to_rationals v = Ok cs -> weights v ws -> same_weights cs ws.
Proof.
  intros H (ts & E & F). apply v2r_ok in H as (us & -> & G & _). apply vals_inj in E. subst us. unfold same_weights.
  revert cs G. induction F as [|t q ts qs Ft F IH]; intros cs G; inversion G as [|? c ? cs' Gt G']; subst; constructor; auto.
  clear - Ft Gt. revert c Gt. induction Ft as [|s q t qs Hs Ft IH]; intros c Gt; inversion Gt as [|? w ? c' Gs Gt']; subst; constructor; auto. eapply weight_rat_exact; eauto.
Qed.
Lemma canon_weights cs : Forall (Forall wfw) cs -> weights (vals (canon_texts cs)) (map (map rq) cs).
Proof.
  intros W. exists (canon_texts cs). split; [reflexivity|]. unfold canon_texts. induction W as [|c cs Wc W IH]; cbn [map]; constructor; auto.
  clear - Wc. induction Wc; cbn [map]; constructor; auto using rat_text_weight.
Qed.
Lemma small_sums cs qs idx : Forall (Forall wfw) cs -> same_weights cs qs -> small qs -> forall pos, sat_w idx pos cs <> Panic.
Proof.
  intros W F. induction F as [|c q cs qs Fc F IH]; intros S pos; cbn [sat_w]; [discriminate|]. inversion W as [|? ? Wc Wcs]; subst.
  destruct (S q) as (m & Hm & Dm & Bm); [now left|].
  assert (Forall wfr c) as Wr by (revert Wc; apply Forall_impl; intros a Ha; apply Ha).
  assert (len q = len c) as Lq. { clear - Fc. induction Fc; auto. rewrite !len_cons. lia. }
  assert (forall w, In w c -> N.divide (snd w) m) as D.
  { clear - Fc Dm. induction Fc as [|w x c q (_ & Hd) Fc IH]; intros w' Hw; [destruct Hw|]. destruct Hw as [<-|Hw]; [|apply IH; auto; intros; apply Dm; now right].
    destruct (Z.divide_trans _ _ _ Hd (Dm x (or_introl eq_refl))) as (k & Hk). destruct (N.eq_dec (snd w) 0) as [E0|E0]. { rewrite E0 in Hk. exists 0. lia. }
    assert (0 <= k)%Z by nia. exists (Z.to_N k). lia. }
  destruct (rat_sum_in (wlist idx pos c) m Hm) as (s & ->).
  - now apply wlist_Forall.
  - intros w Hw. apply wlist_In in Hw. split; auto. rewrite Forall_forall in Wc. now apply Wc.
  - pose proof (wlist_len idx pos c). change (2 ^ 31) with 2147483648 in Bm. unfold i32_max. rewrite <- Lq in H. nia.
  - cbn [bind]. destruct (rat_lt1 s); [discriminate|]. apply IH; auto. intros c' Hc'. apply S. now right.
Qed.

(** The inputs a threshold was made from. *)
Lemma new_thold canon v t : tholder_new canon (Some v) None None = Ok t -> process_thold v = Ok t.
Proof. unfold tholder_new. destruct (process_thold v); cbn [bind]; congruence. Qed.
Lemma new_sith canon v t : tholder_new canon None None (Some v) = Ok t -> process_sith canon v = Ok t.
Proof. unfold tholder_new. cbn [bind]. destruct (process_sith canon v); cbn [bind]; congruence. Qed.
Lemma new_limen canon l t : tholder_new canon None (Some l) None = Ok t -> process_limen l = Ok (Some t).
Proof. unfold tholder_new. cbn [bind]. destruct (process_limen l) as [[x|]|e|]; cbn [bind]; congruence. Qed.
Lemma thold_new canon v : tholder_new canon (Some v) None None = process_thold v.
Proof. unfold tholder_new. destruct (process_thold v); reflexivity. Qed.
Lemma sith_new canon v : tholder_new canon None None (Some v) = process_sith canon v.
Proof. unfold tholder_new. cbn [bind]. destruct (process_sith canon v); reflexivity. Qed.
Lemma sith_vals canon ts t : process_sith canon (vals ts) = Ok t -> ts <> [] /\ process_weighted (vals ts) = Ok t.
Proof.
  unfold process_sith, vals. cbn [to_i64 to_string sith_array to_vec]. unfold sith_array. cbn [to_vec]. rewrite bind_Ok. destruct ts as [|c ts]; [discriminate|]. cbn [map].
  replace (forallb (fun c0 => is_ok (to_vec c0)) _) with true. 2:{ symmetry. apply forallb_forall. intros x [<-|Hx]; [reflexivity|]. apply in_map_iff in Hx as (y & <- & _). reflexivity. }
  cbv zeta. cbn [to_vec]. rewrite bind_Ok. intros H. apply bind_ok in H as (u & _ & H). split; [discriminate|exact H].
Qed.
Lemma vals_sith canon ts t : ts <> [] -> process_weighted (vals ts) = Ok t -> process_sith canon (vals ts) = Ok t.
Proof.
  intros N H. unfold process_sith, vals. cbn [to_i64 to_string]. unfold sith_array. cbn [to_vec]. rewrite bind_Ok. destruct ts as [|c ts]; [congruence|]. cbn [map].
  replace (forallb (fun c0 => is_ok (to_vec c0)) _) with true. 2:{ symmetry. apply forallb_forall. intros x [<-|Hx]; [reflexivity|]. apply in_map_iff in Hx as (y & <- & _). reflexivity. }
  cbv zeta. cbn [to_vec]. rewrite bind_Ok.
  match goal with |- bind (mapR ?f ?l) _ = _ => assert (mapR f l = Ok (map (fun _ => tt) l)) as -> end; [|exact H].
  apply mapR_ok. change (VArr (map VStr c) :: map (fun c0 => VArr (map VStr c0)) ts) with (map (fun c0 => VArr (map VStr c0)) (c :: ts)). generalize (c :: ts). clear.
  intros ts. induction ts as [|c ts IH]; cbn [map]; constructor; auto. cbn [to_vec]. rewrite bind_Ok. replace (forallb _ _) with true; auto. symmetry. apply forallb_forall.
  intros x Hx. apply in_map_iff in Hx as (y & <- & _). reflexivity.
Qed.
Lemma flat_sith canon c : c <> [] -> process_sith canon (VArr (map VStr c)) = process_weighted (vals [c]).
Proof.
  intros N. unfold process_sith. cbn [to_i64 to_string]. unfold sith_array. cbn [to_vec]. rewrite bind_Ok. destruct c as [|x c]; [congruence|]. cbn [map forallb is_ok to_vec andb]. cbv zeta.
  cbn [to_vec]. rewrite bind_Ok. cbn [mapR to_vec]. rewrite bind_Ok. replace (forallb (fun w => is_ok (to_string w)) _) with true; [reflexivity|]. symmetry. apply forallb_forall.
  intros y [<-|Hy]; [reflexivity|]. apply in_map_iff in Hy as (z & <- & _). reflexivity.
Qed.

(** ** C41 *)
(*# C41_numeric_threshold_refuted
   The threshold "2" is satisfied by one key signing twice, and the threshold "0" is satisfied by nobody at all.
#*)
Lemma C41_refuted_l (canon : bytes -> option bytes) :
  (exists t, tholder_new canon None None (Some (VStr (s! "2"))) = Ok t /\ tholder_num t = Ok (Some 2) /\ satisfy t [0; 0] = Ok true) /\
  (exists t, tholder_new canon None None (Some (VStr (s! "0"))) = Ok t /\ tholder_num t = Ok (Some 0) /\ forall idx, satisfy t idx = Ok false).
Proof.
  split.
  - exists (Th (VInt 2) false 2 (Some (Mt (s! "M") 0 [x00; x02])) None). repeat split; vm_compute; reflexivity.
  - exists (Th (VInt 0) false 0 (Some (Mt (s! "M") 0 [x00; x00])) None). repeat split; vm_compute; reflexivity.
Qed.
Lemma num_numeric canon a b c t k : tholder_new canon a b c = Ok t -> tholder_num t = Ok (Some k) -> numeric_t k t.
Proof.
  intros H Hk. apply accepted in H as [(k' & T)|(cs & T)].
  - destruct T as [B (n & Hn & ->)]. unfold tholder_num in Hk. cbn [t_weighted t_thold to_i64] in Hk. rewrite bind_Ok in Hk. destruct (_ || _); [discriminate|]. inversion Hk. subst k.
    rewrite N2Z.id. split; auto. exists n. auto.
  - unfold tholder_num in Hk. rewrite (wt_weighted _ _ T) in Hk. discriminate.
Qed.
(*# C41_numeric_threshold_partial
   A numeric threshold of k, at least one, gives on every list of indices a definite answer: satisfied exactly when the list has at least k entries.
   So on a list without repetitions it is exact, and a list with at least k distinct indices always satisfies it.
   Missing for the full statement: a list with repetitions can satisfy it with fewer than k distinct indices.
##
Example C41_case : exists t, tholder_new (fun _ => None) None (Some (s! "MAAC")) None = Ok t /\ tholder_num t = Ok (Some 2) /\ satisfy t [5; 1] = Ok true /\
  satisfy t [7] = Ok false.
Proof. exists (Th (VInt 2) false 2 (Some (Mt (s! "M") 0 [x00; x02])) None). repeat split; vm_compute; reflexivity. Qed.
#*)
Lemma C41_partial_l (canon : bytes -> option bytes) (thold sith : option value) (limen : option bytes) (t : tholder) (k : N) (idx : list N) :
  tholder_new canon thold limen sith = Ok t -> tholder_num t = Ok (Some k) -> 1 <= k ->
  (k <= len idx /\ satisfy t idx = Ok true \/ len idx < k /\ satisfy t idx = Ok false) /\
  (forall distinct, NoDup distinct -> (forall i, In i distinct -> In i idx) -> k <= len distinct -> satisfy t idx = Ok true).
Proof.
  intros H Hk K. pose proof (num_numeric _ _ _ _ _ _ H Hk) as T. rewrite (satisfy_numeric_eq k t idx T). split.
  - assert (k <= len idx \/ len idx < k) as [L|L] by lia; [left|right]; (split; auto; f_equal; lia).
  - intros d N I L. pose proof (NoDup_incl_length N I) as Q. unfold len in *. f_equal. lia.
Qed.

(*# C41_numeric_threshold_exactly
   A numeric threshold of any size is always evaluated, and its answer is right, that is, yes exactly when at least k different keys signed, on every list
   of indices except in two cases: the threshold is zero, or the list reaches k entries only by repeating some of them.
##
Example C41_exactly_case : exists t, tholder_new (fun _ => None) None (Some (s! "MAAC")) None = Ok t /\ tholder_num t = Ok (Some 2) /\ satisfy t [5; 5] = Ok true /\
  len (nodup N.eq_dec [5; 5]) = 1.
Proof. exists (Th (VInt 2) false 2 (Some (Mt (s! "M") 0 [x00; x02])) None). repeat split; vm_compute; reflexivity. Qed.
#*)
Lemma C41_exact_l (canon : bytes -> option bytes) (thold sith : option value) (limen : option bytes) (t : tholder) (k : N) (idx : list N) :
  tholder_new canon thold limen sith = Ok t -> tholder_num t = Ok (Some k) ->
  exists yes, satisfy t idx = Ok yes /\
    ((yes = true <-> k <= len (nodup N.eq_dec idx)) <-> ~ (k = 0 \/ len (nodup N.eq_dec idx) < k /\ k <= len idx)).
Proof.
  intros H Hk. pose proof (num_numeric _ _ _ _ _ _ H Hk) as T. rewrite (satisfy_numeric_eq k t idx T). eexists. split; [reflexivity|].
  assert (len (nodup N.eq_dec idx) <= len idx) as L.
  { pose proof (NoDup_incl_length (NoDup_nodup N.eq_dec idx) (fun x Hx => proj1 (nodup_In N.eq_dec idx x) Hx)) as Q. unfold len. lia. }
  clear - L. generalize dependent (len (nodup N.eq_dec idx)). generalize (len idx). intros n d L. rewrite andb_true_iff, N.ltb_lt, N.leb_le. lia.
Qed.

(** ** C42 *)
(*# C42_weighted_threshold_refuted
   Three weights are accepted for which a subset of the keys cannot be evaluated: adding 1/65537 and 1/65539 overflows 32-bit arithmetic and panics.
#*)
Lemma C42_refuted_l (canon : bytes -> option bytes) :
  exists t, tholder_new canon None None (Some (VArr (map VStr [s! "1/65537"; s! "65536/65537"; s! "1/65539"]))) = Ok t /\ satisfy t [0; 1] = Ok true /\ satisfy t [0; 2] = Panic.
Proof.
  eexists. split; [rewrite sith_new, flat_sith by discriminate; vm_compute; reflexivity|]. split; vm_compute; reflexivity.
Qed.

Lemma exact_w cs ws t idx : weighted_t cs t -> same_weights cs ws -> len (concat cs) < 2 ^ 32 -> (forall i, In i idx -> i < len (concat cs)) ->
  (satisfy t idx = Panic \/ satisfy t idx = Ok true /\ meets idx 0 ws \/ satisfy t idx = Ok false /\ ~ meets idx 0 ws) /\ (small ws -> satisfy t idx <> Panic).
Proof.
  intros T S L B. rewrite (satisfy_in_range cs t idx T L B). pose proof (sat_w_exact idx cs ws (wt_wf _ _ T) (same_weights_eq _ _ S) 0) as E. split.
  - destruct (sat_w idx 0 cs) as [[]|e|]; [right; left|right; right|destruct E|now left]; (split; [reflexivity|]).
    + now apply E. + intros Q. apply E in Q. discriminate.
  - intros Q. now apply (small_sums cs ws idx (wt_wf _ _ T) S Q).
Qed.
Lemma weighted_keys cs t v : weighted_t cs t -> values_to_rationals v = Ok cs -> len (concat cs) = keys v.
Proof.
  intros T H. apply v2r_ok in H as (ts & -> & F & _). rewrite keys_vals. clear T. induction F as [|s c ts cs Fc F IH]; auto. cbn [concat]. rewrite !len_app, IH. f_equal.
  clear - Fc. induction Fc; auto. rewrite !len_cons. lia.
Qed.
(*# C42_weighted_threshold_partial
   A weighted threshold built from a value (nested lists of weights, or one flat list given as sith) is evaluated exactly on indices within its size:
   satisfied if and only if in every clause the exact rational sum of the given weights at the signed positions is at least one, or else the evaluation
   panics. It does not panic when the weights have a small common denominator.
   Missing for the full statement: it can panic by overflow of 32-bit arithmetic (exactly when: C42_evaluation_exactly).
##
Example C42_case : exists t ws, let v := VArr [VArr [VStr (s! "1/2"); VStr (s! "2/4"); VStr (s! "1/4")]; VArr [VStr (s! "1"); VStr (s! "1")]] in
  tholder_new (fun _ => None) (Some v) None None = Ok t /\ weights v ws /\ small ws /\ satisfy t [0; 1; 4] = Ok true /\ satisfy t [0; 2; 4] = Ok false.
Proof.
  eexists. exists [[1 # 2; 2 # 4; 1 # 4]; [1 # 1; 1 # 1]]%Q. cbv zeta. split; [vm_compute; reflexivity|]. split.
  { exists [[s! "1/2"; s! "2/4"; s! "1/4"]; [s! "1"; s! "1"]]. split; [reflexivity|].
    assert (forall b n, decimal b n -> numeral b n) as K by (intros b n Hd; exists b; auto).
    assert (forall c, 48 <= b2n c <= 57 -> decimal [c] (b2n c - 48)) as D by (intros c Hc; split; [discriminate|]; split; [repeat constructor; apply Hc|reflexivity]).
    assert (forall c, 48 <= b2n c <= 57 -> numeral [c] (b2n c - 48)) as M by auto.
    assert (weight_text (s! "1/2") (1 # 2)) as W1 by (apply (weight_frac [x31] [x32] 1 2); [apply (M x31)|apply (M x32)]; split; discriminate).
    assert (weight_text (s! "2/4") (2 # 4)) as W2 by (apply (weight_frac [x32] [x34] 2 4); [apply (M x32)|apply (M x34)]; split; discriminate).
    assert (weight_text (s! "1/4") (1 # 4)) as W3 by (apply (weight_frac [x31] [x34] 1 4); [apply (M x31)|apply (M x34)]; split; discriminate).
    assert (weight_text (s! "1") (1 # 1)) as W4 by (apply (weight_int [x31] 1); apply (D x31); split; discriminate).
    constructor; [|constructor; [|constructor]]; repeat (constructor; [assumption|]); constructor. }
  split. { intros c Hc. exists 4. split; [reflexivity|]. split; [|destruct Hc as [<-|[<-|[]]]; reflexivity].
    intros w Hw. destruct Hc as [<-|[<-|[]]]; repeat (destruct Hw as [<-|Hw]; [first [exists 1%Z; reflexivity|exists 2%Z; reflexivity|exists 4%Z; reflexivity]|]); destruct Hw. }
  split; vm_compute; reflexivity.
Qed.
#*)
Lemma C42_partial_l (canon : bytes -> option bytes) (v : value) (ws : list (list Q)) (t : tholder) (idx : list N) :
  weights v ws ->
  tholder_new canon (Some v) None None = Ok t \/ tholder_new canon None None (Some v) = Ok t \/
  (exists c, v = VArr [c] /\ keys v > 0 /\ tholder_new canon None None (Some c) = Ok t) ->
  keys v < 2 ^ 32 -> (forall i, In i idx -> i < keys v) ->
  (satisfy t idx = Panic \/ satisfy t idx = Ok true /\ meets idx 0 ws \/ satisfy t idx = Ok false /\ ~ meets idx 0 ws) /\ (small ws -> satisfy t idx <> Panic).
Proof.
  intros W H L B. assert (exists cs, values_to_rationals v = Ok cs /\ weighted_t cs t) as (cs & V & T).
  { destruct W as (ts & E & _). change (v = vals ts) in E. subst v. apply process_weighted_ok. destruct H as [H|[H|(c & Ec & K & H)]].
    - apply new_thold in H. exact H.
    - apply new_sith, sith_vals in H. apply H.
    - destruct ts as [|c' [|]]; try discriminate. inversion Ec. subst c. apply new_sith in H. rewrite flat_sith in H; auto. intros ->. vm_compute in K. discriminate. }
  pose proof (weighted_keys cs t v T V) as E. rewrite <- E in *. apply (exact_w cs ws t idx T); auto. now apply v2r_weights with v.
Qed.
(*# C42_accepted_threshold_partial
   The same with respect to the weights a threshold reports, however it was built (in particular from its limen form).
#*)
Lemma C42_accepted_l (canon : bytes -> option bytes) (thold sith : option value) (limen : option bytes) (t : tholder) (idx : list N) :
  tholder_new canon thold limen sith = Ok t -> t_weighted t = true -> keys (t_thold t) < 2 ^ 32 -> (forall i, In i idx -> i < keys (t_thold t)) ->
  exists ws, weights (t_thold t) ws /\ t_size t = keys (t_thold t) /\
  (satisfy t idx = Panic \/ satisfy t idx = Ok true /\ meets idx 0 ws \/ satisfy t idx = Ok false /\ ~ meets idx 0 ws) /\ (small ws -> satisfy t idx <> Panic).
Proof.
  intros H W L B. apply accepted in H as [(k & T)|(cs & T)]. { destruct T as [_ (n & _ & ->)]. discriminate. }
  exists (map (map rq) cs). pose proof (canon_weights cs (wt_wf _ _ T)) as C. rewrite (keys_thold _ _ T) in *. split; [rewrite (wt_thold _ _ T); exact C|]. split; [now apply (size_keys cs)|].
  apply (exact_w cs _ t idx T); auto. eapply v2r_weights; [|exact C]. apply v2r_canon; apply T.
Qed.

(** ** C43 *)
Lemma wfw_nonneg w : wfw w -> (0 <= rq w)%Q.
Proof. intros _. unfold rq. destruct (snd w); [apply Qle_refl|]. unfold Qle. cbn [Qnum Qden]. lia. Qed.
Lemma earned_mono idx idx' c pos : Forall (fun q => 0 <= q)%Q c -> (forall i, In i idx -> In i idx') -> (earned idx pos c <= earned idx' pos c)%Q.
Proof.
  intros W I. revert pos. induction W as [|w c Hw W IH]; intros pos; cbn [earned]; [apply Qle_refl|]. specialize (IH (pos + 1)).
  destruct (in_dec N.eq_dec pos idx) as [A|A], (in_dec N.eq_dec pos idx') as [A'|A']; [lra|exfalso; auto|lra|lra].
Qed.
Lemma meets_mono idx idx' cs pos : Forall (Forall (fun q => 0 <= q)%Q) cs -> (forall i, In i idx -> In i idx') -> meets idx pos cs -> meets idx' pos cs.
Proof.
  intros W I. revert pos. induction W as [|c cs Wc W IH]; intros pos; cbn [meets]; auto. intros (A & B). split; auto. pose proof (earned_mono idx idx' c pos Wc I). lra.
Qed.
Lemma sat_w_ext idx idx' cs : (forall i, In i idx <-> In i idx') -> forall pos, sat_w idx pos cs = sat_w idx' pos cs.
Proof.
  intros I. induction cs as [|c cs IH]; intros pos; cbn [sat_w]; auto. assert (wlist idx pos c = wlist idx' pos c) as ->.
  { revert pos. induction c as [|w c IHc]; intros pos; cbn [wlist]; auto. rewrite IHc. destruct (in_dec N.eq_dec pos idx) as [A|A], (in_dec N.eq_dec pos idx') as [A'|A']; auto; exfalso; [apply A'|apply A]; now apply I. }
  destruct (rat_sum _); cbn [bind]; auto. now rewrite IH.
Qed.
(*# C43_monotone_refuted
   A threshold satisfied by its first key cannot be evaluated (panic) when two more keys have signed.
#*)
Lemma C43_refuted_l (canon : bytes -> option bytes) :
  exists t, tholder_new canon None None (Some (VArr (map VStr [s! "1"; s! "1/65537"; s! "65536/65537"; s! "1/65539"]))) = Ok t /\ satisfy t [0] = Ok true /\ satisfy t [0; 1; 3] = Panic.
Proof.
  eexists. split; [rewrite sith_new, flat_sith by discriminate; vm_compute; reflexivity|]. split; vm_compute; reflexivity.
Qed.
(*# C43_monotone_partial
   More signatures never turn the answer "satisfied" into "not satisfied". For a weighted threshold the answer depends only on the set of indices, and
   with weights of a small common denominator more signatures within the size keep it satisfied; a numeric threshold always stays satisfied.
   Missing for the full statement: with other weights the larger list can panic.
##
Example C43_case : exists t, tholder_new (fun _ => None) (Some (VArr [VArr [VStr (s! "1/2"); VStr (s! "1/2"); VStr (s! "1/4")]])) None None = Ok t /\ satisfy t [1; 0] = Ok true /\ satisfy t [1; 0; 2; 1] = Ok true.
Proof. eexists. split; [vm_compute; reflexivity|]. split; vm_compute; reflexivity. Qed.
#*)
Lemma C43_partial_l (canon : bytes -> option bytes) (thold sith : option value) (limen : option bytes) (t : tholder) (idx more : list N) :
  tholder_new canon thold limen sith = Ok t ->
  (satisfy t idx = Ok true -> satisfy t (idx ++ more) = Ok true \/ t_weighted t = true /\ satisfy t (idx ++ more) = Panic) /\
  (t_weighted t = true -> forall idx', (forall i, In i idx <-> In i idx') -> satisfy t idx = satisfy t idx') /\
  (t_weighted t = true -> keys (t_thold t) < 2 ^ 32 -> (forall i, In i more -> i < keys (t_thold t)) -> (exists ws, weights (t_thold t) ws /\ small ws) ->
   satisfy t idx = Ok true -> satisfy t (idx ++ more) = Ok true).
Proof.
  intros H. apply accepted in H as [(k & T)|(cs & T)].
  - assert (t_weighted t = false) as N by (destruct T as [_ (n & _ & ->)]; reflexivity). rewrite N. split; [|split; discriminate]. rewrite !(satisfy_numeric_eq k t _ T), len_app.
    intros Q. left. f_equal. inversion Q. lia.
  - assert (forall idx, satisfy t idx = Panic \/ satisfy t idx = Ok true /\ meets idx 0 (map (map rq) cs) \/ satisfy t idx = Ok false /\ ~ meets idx 0 (map (map rq) cs)) as E.
    { intros i. destruct (satisfy_cases cs t i T) as [E|E]; auto. rewrite E. 
      pose proof (sat_w_exact i cs (map (map rq) cs) (wt_wf _ _ T)) as X. specialize (X ltac:(clear; induction cs as [|c cs IH]; constructor; auto; induction c; constructor; auto; reflexivity) 0).
      destruct (sat_w i 0 cs) as [[]|e|]; [right; left|right; right|destruct X|now left]; (split; [reflexivity|]); [now apply X|].
      intros Q. apply X in Q. discriminate. }
    assert (Forall (Forall (fun q => 0 <= q)%Q) (map (map rq) cs)) as P.
    { pose proof (wt_wf _ _ T) as W. clear - W. induction W as [|c cs Wc W IH]; constructor; auto. clear - Wc. induction Wc; constructor; auto using wfw_nonneg. }
    assert (satisfy t idx = Ok true -> satisfy t (idx ++ more) = Ok true \/ satisfy t (idx ++ more) = Panic) as M.
    { intros S. destruct (E idx) as [A|[(_ & A)|(A & _)]]; try congruence. destruct (E (idx ++ more)) as [B|[(B & _)|(_ & B)]]; auto. exfalso. apply B. revert A. apply meets_mono; auto.
      intros i Hi. apply in_or_app. now left. }
    split. { intros S. destruct (M S); [now left|right]. split; auto. apply (wt_weighted _ _ T). }
    split.
    + intros _ idx' I. rewrite !(satisfy_weighted_eq cs t _ T). replace (existsb (fun i => t_size t <=? i) idx') with (existsb (fun i => t_size t <=? i) idx).
      { now rewrite (sat_w_ext idx idx' cs I). }
      apply eq_true_iff_eq. rewrite !existsb_exists. split; intros (i & Hi & Li); exists i; (split; [now apply I|exact Li]).
    + intros _ L B (ws & Ww & Sm) S. destruct (M S) as [Q|Q]; auto. exfalso. rewrite (keys_thold _ _ T) in *.
      assert (forall i, In i (idx ++ more) -> i < len (concat cs)) as B'.
      { intros i Hi. apply in_app_or in Hi as [Hi|Hi]; auto. rewrite (satisfy_weighted_eq cs t idx T), (size_keys cs t T L) in S. destruct (existsb _ idx) eqn:X; [discriminate|].
        destruct (N.lt_ge_cases i (len (concat cs))) as [|G]; auto. exfalso. rewrite <- not_true_iff_false in X. apply X. apply existsb_exists. exists i. split; auto. lia. }
      revert Q. apply (exact_w cs ws t (idx ++ more) T); auto. eapply v2r_weights; [|rewrite (wt_thold _ _ T) in Ww; exact Ww]. apply v2r_canon; apply T.
Qed.

(** ** C44 *)
Lemma sat_w_nil cs pos : cs <> [] -> sat_w [] pos cs = Ok false.
Proof. destruct cs as [|c cs]; [congruence|]. intros _. cbn [sat_w]. replace (wlist [] pos c) with (@nil rat); [reflexivity|]. revert pos. induction c as [|w c IH]; intros pos; cbn [wlist]; auto. destruct (in_dec N.eq_dec pos []) as [[]|_]. apply IH. Qed.
Lemma process_weighted_nonempty v t : process_weighted v = Ok t -> v <> VArr [] -> satisfy t [] <> Ok true.
Proof.
  intros H N. apply process_weighted_ok in H as (cs & V & T). assert (cs <> []) as Nc. { intros ->. apply v2r_ok in V as (ts & -> & F & _). inversion F; subst. now apply N. }
  destruct (satisfy_cases cs t [] T) as [E|E]; rewrite E; [discriminate|]. rewrite (sat_w_nil cs 0 Nc). discriminate.
Qed.
Lemma process_unweighted_nobody z t : process_unweighted z = Ok t -> satisfy t [] <> Ok true.
Proof. intros H. apply process_unweighted_ok in H as (_ & T). rewrite (satisfy_numeric_eq _ t [] T). change (len (@nil N)) with 0. intros Q. inversion Q. lia. Qed.
Lemma process_thold_nobody v t : process_thold v = Ok t -> v <> VArr [] -> satisfy t [] <> Ok true.
Proof. unfold process_thold. destruct (to_i64 v); eauto using process_weighted_nonempty, process_unweighted_nobody. Qed.
Lemma split_on_ne sep s : split_on sep s <> [].
Proof. destruct s as [|c s]; cbn [split_on]; [discriminate|]. destruct (Byte.eqb c sep); [discriminate|]. destruct (split_on sep s); discriminate. Qed.
Lemma process_limen_nobody l t : process_limen l = Ok (Some t) -> satisfy t [] <> Ok true.
Proof.
  intros H2. unfold process_limen in H2. destruct l as [|f l]; [discriminate|]. apply bind_ok in H2 as (li & _ & H2). apply bind_ok in H2 as (h & _ & H2). apply bind_ok in H2 as (code & _ & H2).
  destruct (has_code number_codes code).
  - apply bind_ok in H2 as (n & _ & H2). apply bind_ok in H2 as (k & _ & H2). destruct (_ <? k); [discriminate|]. apply bind_ok in H2 as (y & H2 & E). inversion E; subst. eauto using process_unweighted_nobody.
  - destruct (has_code bexter_codes code); [|discriminate]. apply bind_ok in H2 as (n & _ & H2). apply bind_ok in H2 as (k & _ & H2). cbv zeta in H2. apply bind_ok in H2 as (y & H2 & E). inversion E; subst.
    eapply process_weighted_nonempty; [exact H2|]. pose proof (split_on_ne x61 (replace1 x73 x2f k)) as N. destruct (split_on x61 _); [congruence|discriminate].
Qed.
Lemma sith_array_nobody v t : sith_array v = Ok t -> satisfy t [] <> Ok true.
Proof.
  unfold sith_array. intros H. apply bind_ok in H as (a & H1 & H). destruct a; [discriminate|]. cbv zeta in H. apply bind_ok in H as (c & _ & H). apply bind_ok in H as (u & _ & H).
  eapply process_weighted_nonempty; eauto. destruct (forallb _ _); [|discriminate]. intros ->. discriminate.
Qed.
Lemma process_sith_nobody canon v t : process_sith canon v = Ok t -> satisfy t [] <> Ok true.
Proof.
  intros H3. unfold process_sith in H3. destruct (to_i64 v); eauto using process_unweighted_nobody. all: destruct (to_string v) as [s|e'|]; eauto using sith_array_nobody.
  all: assert ((exists v', sith_array v' = Ok t) \/ (exists z, process_unweighted z = Ok t)) as [(v' & Q)|(z & Q)]; eauto using process_unweighted_nobody, sith_array_nobody.
  all: destruct s as [|ch s]; [discriminate H3|]; destruct (Byte.byte_eq_dec ch x5b) as [->|N];
    [apply bind_ok in H3 as (v' & _ & H3); left; eauto|]; right.
  all: assert (match parse_i64_hex (ch :: s) with Some z => process_unweighted z | None => Err EForeign end = Ok t) as H4 by (destruct ch; congruence || exact H3).
  all: destruct (parse_i64_hex (ch :: s)); [eauto|discriminate].
Qed.
(*# C44_nobody_refuted
   The empty list of clauses, given as thold, is an accepted threshold satisfied by no signature at all.
#*)
Lemma C44_refuted_l (canon : bytes -> option bytes) : exists t, tholder_new canon (Some (VArr [])) None None = Ok t /\ satisfy t [] = Ok true.
Proof. eexists. split; [rewrite thold_new; vm_compute; reflexivity|]. vm_compute. reflexivity. Qed.
(*# C44_nobody_partial
   The empty list of clauses given as thold is the only accepted input whose threshold is satisfied by the empty list of signatures. In particular no sith
   and no limen gives such a threshold.
##
Example C44_case : exists t, tholder_new (fun _ => None) None (Some (s! "4AACA1s2c1s2")) None = Ok t /\ satisfy t [] = Ok false.
Proof. eexists. split; [vm_compute; reflexivity|]. vm_compute. reflexivity. Qed.
#*)
Lemma C44_partial_l (canon : bytes -> option bytes) (thold sith : option value) (limen : option bytes) (t : tholder) :
  tholder_new canon thold limen sith = Ok t -> satisfy t [] = Ok true ->
  thold = Some (VArr []) /\ (limen = None \/ limen = Some []) /\ sith = None.
Proof.
  intros H S. unfold tholder_new in H. apply bind_ok in H as (t1 & H1 & H). apply bind_ok in H as (t2 & H2 & H). apply bind_ok in H as (t3 & H3 & H). destruct t3 as [t'|]; [|discriminate]. inversion H; subst t'. clear H.
  destruct sith as [v|]. { apply bind_ok in H3 as (y & H3 & E). inversion E; subst. now apply process_sith_nobody in H3. } inversion H3; subst t2. clear H3.
  assert ((limen = None \/ limen = Some []) /\ t1 = Some t) as (Hl & ->).
  { destruct limen as [l|]; [|inversion H2; subst; auto]. apply bind_ok in H2 as (o & H2 & E). destruct o as [y|]; [inversion E; subst; now apply process_limen_nobody in H2|]. inversion E; subst.
    split; auto. right. destruct l as [|f l]; auto. exfalso. unfold process_limen in H2. apply bind_ok in H2 as (li & _ & H2). apply bind_ok in H2 as (h & _ & H2). apply bind_ok in H2 as (code & _ & H2).
    destruct (has_code number_codes code).
    - apply bind_ok in H2 as (n & _ & H2). apply bind_ok in H2 as (k & _ & H2). destruct (_ <? k); [discriminate|]. apply bind_ok in H2 as (y & _ & H2). discriminate.
    - destruct (has_code bexter_codes code); [|discriminate]. apply bind_ok in H2 as (n & _ & H2). apply bind_ok in H2 as (k & _ & H2). cbv zeta in H2. apply bind_ok in H2 as (y & _ & H2). discriminate. }
  destruct thold as [v|]; [|discriminate]. apply bind_ok in H1 as (y & H1 & E). inversion E; subst. split; auto. f_equal.
  assert (v = VArr [] \/ v <> VArr []) as [|N]; auto. { destruct v as [| | | | |[|]|]; auto; right; discriminate. } now apply process_thold_nobody in H1.
Qed.

(** ** C45 *)
Lemma sat_w_all cs pos idx : Forall clause_ok cs -> (forall i, pos <= i -> i < pos + len (concat cs) -> In i idx) -> sat_w idx pos cs = Ok true.
Proof.
  intros C. revert pos. induction C as [|c cs (s & E1 & E2) C IH]; intros pos H; cbn [sat_w]; auto. cbn [concat] in H. rewrite len_app in H.
  rewrite wlist_all by (intros; apply H; lia). rewrite E1, bind_Ok, E2. apply IH. intros i A B. apply H; lia.
Qed.
(*# C45_attainable
   Every threshold accepted by the constructors, numeric zero aside, is satisfied when all of its keys have signed, in whatever order.
##
Example C45_case : exists t, tholder_new (fun _ => None) None None (Some (VStr (s! "[[""1/2"", ""1/3"", ""1/6""], [""1""]]"))) = Ok t /\ t_size t = 4 /\ t_thold t <> VInt 0.
Proof. eexists. split; [vm_compute; reflexivity|]. split; [reflexivity|discriminate]. Qed.
#*)
Lemma C45_l (canon : bytes -> option bytes) (thold sith : option value) (limen : option bytes) (t : tholder) (idx : list N) :
  tholder_new canon thold limen sith = Ok t -> t_thold t <> VInt 0 -> keys (t_thold t) < 2 ^ 32 ->
  (forall i, In i idx <-> i < t_size t) -> satisfy t idx = Ok true.
Proof.
  intros H Z L I. apply accepted in H as [(k & T)|(cs & T)].
  - rewrite (satisfy_numeric_eq k t idx T). destruct T as [_ (n & _ & ->)]. cbn [t_size t_thold] in *. f_equal.
    assert (k <= len idx) as Lk.
    { assert (forall i, In i (map N.of_nat (seq 0 (N.to_nat k))) -> In i idx) as J. { intros i Hi. apply in_map_iff in Hi as (x & <- & Hx). apply in_seq in Hx. apply I. lia. }
      apply NoDup_incl_length in J. { rewrite map_length, seq_length in J. unfold len. lia. }
      apply Injective_map_NoDup; [intros a b; apply Nat2N.inj|apply seq_NoDup]. }
    destruct k; [exfalso; now apply Z|lia].
  - rewrite (keys_thold _ _ T) in L. pose proof (size_keys cs t T L) as E. rewrite E in I. rewrite (satisfy_in_range cs t idx T L) by (intros i Hi; now apply I).
    apply sat_w_all; [apply T|]. intros i _ Hi. apply I. lia.
Qed.

(** ** C46 *)
Lemma replace1_join a b sep l : Byte.eqb sep a = false -> replace1 a b (join [sep] l) = join [sep] (map (replace1 a b) l).
Proof.
  intros H. induction l as [|x [|y l] IH]; auto. change (join [sep] (x :: y :: l)) with (x ++ [sep] ++ join [sep] (y :: l)). unfold replace1 in *. rewrite !map_app, IH. cbn [map]. rewrite H. reflexivity.
Qed.
Lemma split_on_join sep l : l <> [] -> Forall (fun x => forallb (fun c => negb (Byte.eqb c sep)) x = true) l -> split_on sep (join [sep] l) = l.
Proof.
  intros N F. induction F as [|x l Hx F IH]; [congruence|]. destruct l as [|y l]. { cbn [join]. now apply split_on_none. }
  change (join [sep] (x :: y :: l)) with (x ++ sep :: join [sep] (y :: l)). rewrite split_on_app by auto. f_equal. apply IH. discriminate.
Qed.
Lemma join_forallb (f : byte -> bool) sep l : f sep = true -> Forall (fun x => forallb f x = true) l -> forallb f (join [sep] l) = true.
Proof.
  intros S F. induction F as [|x [|y l] Hx F IH]; auto. change (join [sep] (x :: y :: l)) with (x ++ sep :: join [sep] (y :: l)). rewrite forallb_app, Hx. cbn [forallb andb]. now rewrite S.
Qed.
Lemma rat_text_forallb (f : byte -> bool) sep w : wfw w -> f sep = true -> (forall c, 48 <= b2n c <= 57 -> f c = true) -> forallb f (rat_text sep w) = true.
Proof.
  intros (W & _) S D. assert (forall n, n <= i32_max -> forallb f (dec_text n) = true) as K.
  { intros n Hn. destruct (decimal_dec n (i32_10 n Hn)) as (_ & F & _). apply forallb_forall. intros c Hc. rewrite Forall_forall in F. auto. }
  unfold rat_text. destruct (snd w =? 1); [apply K, (wr_n _ W)|]. rewrite forallb_app, K by apply (wr_n _ W). cbn [forallb andb]. rewrite S, K by apply (wr_d _ W). reflexivity.
Qed.
Lemma rat_text_replace w : wfw w -> replace1 x73 x2f (rat_text x73 w) = rat_text x2f w.
Proof.
  intros (W & _). assert (forall n, n <= i32_max -> replace1 x73 x2f (dec_text n) = dec_text n) as K.
  { intros n Hn. destruct (decimal_dec n (i32_10 n Hn)) as (_ & F & _). unfold replace1. rewrite <- (map_id (dec_text n)) at 2. apply map_ext_in. intros c Hc. rewrite Forall_forall in F. specialize (F c Hc).
    destruct (Byte.eqb c x73) eqn:E; auto. apply byte_eqb_eq in E. subst. cbn in F. lia. }
  unfold rat_text. destruct (snd w =? 1); [apply K, (wr_n _ W)|]. unfold replace1 in *. rewrite map_app, K by apply (wr_n _ W). cbn [map]. rewrite K by apply (wr_d _ W). reflexivity.
Qed.
Lemma dec_text_len n : n <= i32_max -> 1 <= len (dec_text n) <= 10.
Proof.
  intros H. pose proof (decimal_dec n (i32_10 n H)) as (D & _). split. { destruct (dec_text n); [congruence|]. rewrite len_cons. lia. }
  unfold dec_text. destruct (n =? 0) eqn:E0; [vm_compute; discriminate|].
  assert (forall f k m acc, m < 10 ^ N.of_nat k -> len (dec_loop f m acc) <= N.of_nat k + len acc) as K.
  { intros f. induction f as [|f IH]; intros k m acc Hm; cbn [dec_loop]. { lia. } destruct (m =? 0) eqn:Em; [lia|]. destruct k as [|k]; [cbn in Hm; lia|]. etransitivity; [apply (IH k)|].
    - rewrite Nat2N.inj_succ, N.pow_succ_r' in Hm. lia.
    - rewrite len_cons. lia. }
  specialize (K 40%nat 10%nat n []). change (len (@nil byte)) with 0 in K. etransitivity; [apply K; unfold i32_max in H; change (10 ^ N.of_nat 10) with 10000000000; lia|]. lia.
Qed.
Lemma rat_text_len sep w : wfw w -> 1 <= len (rat_text sep w) <= 21.
Proof.
  intros (W & _). pose proof (dec_text_len _ (wr_n _ W)). pose proof (dec_text_len _ (wr_d _ W)). unfold rat_text. destruct (snd w =? 1); [lia|]. rewrite len_app, len_cons. lia.
Qed.
Lemma join_len sep l : len (join [sep] l) <= len (concat l) + len l.
Proof.
  induction l as [|x [|y l] IH]; [vm_compute; discriminate| |].
  - cbn [join concat]. rewrite len_app. change (len [x]) with 1. lia.
  - change (join [sep] (x :: y :: l)) with (x ++ sep :: join [sep] (y :: l)). rewrite len_app, len_cons. remember (y :: l) as r. cbn [concat]. rewrite len_app, len_cons. lia.
Qed.
Definition clause_text (c : list rat) : bytes := join [x63] (map (rat_text x73) c).
Lemma clause_text_len c : Forall wfw c -> len (clause_text c) <= 22 * len c.
Proof.
  intros W. unfold clause_text. etransitivity; [apply join_len|]. rewrite len_map. assert (len (concat (map (rat_text x73) c)) <= 21 * len c) as K; [|lia].
  induction W as [|w c Hw W IH]; [vm_compute; discriminate|]. cbn [map concat]. rewrite len_app, len_cons. pose proof (rat_text_len x73 w Hw). lia.
Qed.
Lemma clause_ne c : clause_ok c -> c <> [].
Proof. intros (s & E & L) ->. vm_compute in E. inversion E; subst. discriminate. Qed.
Lemma bext_len cs : Forall (Forall wfw) cs -> Forall clause_ok cs -> len (rationals_to_bext cs) <= 23 * len (concat cs).
Proof.
  intros W C. unfold rationals_to_bext. fold clause_text. etransitivity; [apply join_len|]. rewrite len_map. revert C. induction W as [|c cs Wc W IH]; intros C; [vm_compute; discriminate|].
  inversion C as [|? ? Cc C']; subst. specialize (IH C'). cbn [map concat]. rewrite !len_app, len_cons. pose proof (clause_text_len c Wc). apply clause_ne in Cc. destruct c as [|w c]; [congruence|].
  rewrite len_cons in *. lia.
Qed.
Lemma bext_first cs : cs <> [] -> Forall (Forall wfw) cs -> Forall clause_ok cs -> exists c r, rationals_to_bext cs = c :: r /\ 48 <= b2n c <= 57.
Proof.
  intros N W C. destruct cs as [|c cs]; [congruence|]. inversion W as [|? ? Wc _]; subst. inversion C as [|? ? Cc _]; subst. apply clause_ne in Cc. destruct c as [|w c]; [congruence|]. inversion Wc as [|? ? Ww _]; subst.
  assert (exists h t, rat_text x73 w = h :: t /\ 48 <= b2n h <= 57) as (h & t & E & Hh).
  { destruct Ww as (Ww & _). destruct (decimal_dec _ (i32_10 _ (wr_n _ Ww))) as (D1 & D2 & _). unfold rat_text. destruct (dec_text (fst w)) as [|h t]; [congruence|]. inversion D2; subst.
    destruct (snd w =? 1); [exists h, t|exists h, (t ++ x73 :: dec_text (snd w))]; auto. }
  assert (forall sep x l, exists r, join [sep] ((h :: x) :: l) = h :: r) as J. { intros sep x [|y l]; [exists x; reflexivity|]. exists (x ++ [sep] ++ join [sep] (y :: l)). reflexivity. }
  unfold rationals_to_bext. cbn [map]. rewrite E. destruct (J x63 t (map (rat_text x73) c)) as (r & ->). destruct (J x61 r (map (fun c => join [x63] (map (rat_text x73) c)) cs)) as (r' & ->). eauto.
Qed.
Lemma digit_b64 c : 48 <= b2n c <= 57 -> is_b64 c = true.
Proof. intros H. assert (forallb (fun c => negb ((48 <=? b2n c) && (b2n c <=? 57)) || is_b64 c) all_bytes = true) as K by (vm_compute; reflexivity).
  rewrite forallb_forall in K. specialize (K c (all_bytes_complete c)). cbv beta in K. destruct (is_b64 c); auto. lia. Qed.
Lemma bext_b64 cs : Forall (Forall wfw) cs -> is_b64s (rationals_to_bext cs) = true.
Proof.
  intros W. unfold rationals_to_bext, is_b64s. apply join_forallb; [reflexivity|]. apply Forall_map. revert W. apply Forall_impl. intros c Wc. apply join_forallb; [reflexivity|]. apply Forall_map.
  revert Wc. apply Forall_impl. intros w Ww. apply rat_text_forallb; auto using digit_b64.
Qed.
Lemma bext_clauses cs : cs <> [] -> Forall (Forall wfw) cs -> Forall clause_ok cs ->
  VArr (map (fun c => VArr (map VStr (split_on x63 c))) (split_on x61 (replace1 x73 x2f (rationals_to_bext cs)))) = vals (canon_texts cs).
Proof.
  intros N W C. unfold rationals_to_bext. rewrite replace1_join by reflexivity. rewrite map_map.
  assert (map (fun c => replace1 x73 x2f (join [x63] (map (rat_text x73) c))) cs = map (fun c => join [x63] (map (rat_text x2f) c)) cs) as ->.
  { apply map_ext_in. intros c Hc. rewrite replace1_join by reflexivity. f_equal. rewrite map_map. apply map_ext_in. intros w Hw. apply rat_text_replace. rewrite Forall_forall in W. specialize (W c Hc).
    rewrite Forall_forall in W. auto. }
  assert (forall sep, (sep = x61 \/ sep = x63) -> forall c, 48 <= b2n c <= 57 -> negb (Byte.eqb c sep) = true) as Hd.
  { intros sep Hs c Hc. destruct (Byte.eqb c sep) eqn:E; auto. apply byte_eqb_eq in E. subst. destruct Hs as [->| ->]; cbn in Hc; lia. }
  rewrite split_on_join.
  - unfold vals, canon_texts. f_equal. rewrite !map_map. apply map_ext_in. intros c Hc. f_equal. f_equal. rewrite Forall_forall in W, C. apply split_on_join.
    + pose proof (clause_ne c (C c Hc)). destruct c; [congruence|discriminate].
    + apply Forall_map. specialize (W c Hc). revert W. apply Forall_impl. intros w Ww. apply rat_text_forallb; auto.
  - destruct cs; [congruence|discriminate].
  - apply Forall_map. revert W. apply Forall_impl. intros c Wc. apply join_forallb; [reflexivity|]. apply Forall_map. revert Wc. apply Forall_impl. intros w Ww. apply rat_text_forallb; auto.
Qed.
(** The text of a primitive starts with its code. *)
Lemma limen_code m t : wf_matter m -> infil m = Ok t -> exists f r h, t = f :: r /\ ascii t = true /\ hardage f = Ok h /\ slice_str t 0 h = Ok (m_code m).
Proof.
  intros W I. destruct (wf_forms m W) as (z & Hz & Wr & I' & _). assert (t = mtext m z) as -> by congruence. pose proof (lookup_facts _ _ Hz) as F. destruct (tf_first _ _ F) as (f & r & i & E & Hh & _).
  pose proof (mtext_ascii m z Hz Wr) as A. pose proof (tf_len _ _ F) as Hl.
  assert (exists x, mtext m z = m_code m ++ x) as (x & Ex) by (unfold mtext, mboth; rewrite <- app_assoc; eauto).
  exists f, (r ++ x), (hs z). split; [rewrite Ex, E; reflexivity|]. split; auto. split; auto. rewrite slice_str_ascii; auto; [|lia|rewrite Ex, len_app; lia].
  rewrite drop_0, N.sub_0_r, Ex, take_app_exact by auto. reflexivity.
Qed.
Lemma limen_number k n t : k <= u32_max -> number_new (Some k) None None None None None None = Ok n -> infil n = Ok t -> process_limen t = (let* x := process_unweighted (Z.of_N k) in Ok (Some x)).
Proof.
  intros Hk Hn I. destruct (number_new_spec k) as (code & w & H1 & H2 & H3 & H4 & H5 & H6 & H7). { unfold u32_max, u128_max in *. lia. }
  assert (n = Mt code 0 (be_bytes (N.to_nat w) k)) as -> by congruence. destruct (limen_code _ _ H6 I) as (f & r & h & E & A & Hh & Hs). unfold process_limen. rewrite E. rewrite <- E. clear E.
  unfold from_utf8. rewrite utf8_ascii, bind_Ok, Hh, bind_Ok, Hs, bind_Ok by auto. cbn [m_code]. assert (has_code number_codes code = true) as ->.
  { unfold number_sizes in H1. repeat (destruct H1 as [H1|H1]; [inversion H1; subst; reflexivity|]). destruct H1. }
  destruct (wf_round _ H6) as (t' & b & I' & _ & X & _). assert (t' = t) by congruence. subst t'. rewrite number_parse by reflexivity. cbn [matter_new]. rewrite X, bind_Ok.
  rewrite H7, len_be_bytes, N2Nat.id, N.eqb_refl, bind_Ok. rewrite be_val_be_bytes by now rewrite N2Nat.id. unfold u32_max, i64_max in *. destruct (_ <? k) eqn:Q; [lia|]. reflexivity.
Qed.
Lemma limen_bext cs b t : cs <> [] -> Forall (Forall wfw) cs -> Forall clause_ok cs -> len (concat cs) < 2 ^ 27 ->
  bexter_new (Some (rationals_to_bext cs)) None None None None None = Ok b -> infil b = Ok t -> process_limen t = (let* x := process_weighted (vals (canon_texts cs)) in Ok (Some x)).
Proof.
  intros N W C L B I. pose proof (bext_b64 cs W) as H64. pose proof (bext_len cs W C) as HL. change (2 ^ 27) with 134217728 in L.
  assert (len (rationals_to_bext cs) <= 67108860) as L2.
  { destruct (C39_l (rationals_to_bext cs)) as (X & _); [change (2 ^ 32) with 4294967296; lia|]. apply X. eauto. }
  destruct (bexter_ok _ H64 L2) as (b' & B' & Hc & Wb & Hb). assert (b' = b) by congruence. subst b'.
  destruct (bext_first cs N W C) as (c & r & Ec & Hcd). assert (bext_of b = Ok (rationals_to_bext cs)) as Hb'.
  { rewrite Hb, Ec. destruct (Byte.byte_eq_dec c x41) as [->|Nc]; [cbn in Hcd; lia|]. destruct c; congruence. }
  destruct (limen_code _ _ Wb I) as (f & q & h & E & A & Hh & Hs). unfold process_limen. rewrite E. rewrite <- E. clear E.
  unfold from_utf8. rewrite utf8_ascii, bind_Ok, Hh, bind_Ok, Hs, bind_Ok by auto.
  assert (has_code number_codes (m_code b) = false /\ has_code bexter_codes (m_code b) = true) as (-> & ->).
  { unfold bexter_codes in Hc. repeat (destruct Hc as [<-|Hc]; [split; reflexivity|]). destruct Hc. }
  assert (bexter_new None None None None (Some t) None = Ok b) as ->.
  { destruct (wf_round _ Wb) as (t' & b2 & I' & _ & X & _). assert (t' = t) by congruence. subst t'. unfold bexter_new. cbn [is_none andb]. cbn [matter_new]. rewrite X. cbn [bind].
    unfold validate. replace (has_code bexter_codes (m_code b)) with true; auto. symmetry. unfold bexter_codes in Hc. repeat (destruct Hc as [<-|Hc]; [reflexivity|]). destruct Hc. }
  rewrite bind_Ok, Hb', bind_Ok. cbv zeta. rewrite (bext_clauses cs N W C). reflexivity.
Qed.
Lemma parse_hex k : k <= i64_max -> parse_i64_hex (to_hex k) = Some (Z.of_N k) /\ exists c r, to_hex k = c :: r /\ c <> x5b.
Proof.
  intros H. destruct (to_hex_spec k) as (Hne & T). { unfold i64_max, u128_max in *. lia. } pose proof (ht_val _ _ T 0) as V.
  destruct (to_hex k) as [|c d] eqn:E; [congruence|]. destruct (ht_low _ _ T c) as (Hl & Hc); [now left|].
  assert (c <> x2b /\ c <> x2d /\ c <> x5b) as (N1 & N2 & N3) by (repeat split; intros ->; vm_compute in Hl; intuition discriminate).
  split; [|eauto]. unfold parse_i64_hex. rewrite signed_cons. cbv zeta. destruct (Byte.eqb c x2b) eqn:E1; [apply byte_eqb_eq in E1; congruence|]. destruct (Byte.eqb c x2d) eqn:E2; [apply byte_eqb_eq in E2; congruence|].
  rewrite V. replace (0 * 16 ^ len (c :: d) + k) with k by lia. unfold i64_max in H. destruct (k <=? _) eqn:Q; auto. lia.
Qed.
Lemma vals_wfv cs : Forall (Forall wfw) cs -> wfv (vals (canon_texts cs)) /\ Forall (fun c => wfv (VArr (map VStr c))) (canon_texts cs).
Proof.
  intros W. assert (Forall (fun c => wfv (VArr (map VStr c))) (canon_texts cs)) as K; [|split; auto].
  - apply Forall_map. revert W. apply Forall_impl. intros c Wc. apply wfv_arr. apply Forall_map. apply Forall_map. revert Wc. apply Forall_impl. intros w Ww. cbn [wfv].
    apply utf8_ascii. unfold ascii. apply rat_text_forallb; auto. intros x Hx. unfold is_ascii. lia.
  - unfold vals. apply wfv_arr. apply Forall_map. exact K.
Qed.
Lemma arr_depth l n : Forall (fun v => (depth v <= n)%nat) l -> (depth (VArr l) <= S n)%nat.
Proof. intros H. cbn [depth]. apply le_n_S. induction H; cbn [fold_right]; lia. Qed.
(*# C46_serialisations_round_trip
   Every accepted threshold, other than the empty list of clauses, has a limen (text) and a sith (JSON) form. Building from the limen, from the sith, or
   from the reported value gives an equal threshold. For a weighted threshold so does building from the JSON text of the sith.
##
Example C46_case : exists t, tholder_new (fun _ => None) None None (Some (VArr [VStr (s! "1/2"); VStr (s! "2/4"); VStr (s! "1")])) = Ok t /\ tholder_limen t = Ok (s! "6AADAAA1s2c1s2c1") /\
  tholder_sith t = Ok (VArr [VStr (s! "1/2"); VStr (s! "1/2"); VStr (s! "1")]) /\ keys (t_thold t) = 3.
Proof. eexists. split; [vm_compute; reflexivity|]. split; [vm_compute; reflexivity|]. split; vm_compute; reflexivity. Qed.
#*)
Lemma C46_l (canon : bytes -> option bytes) (thold sith : option value) (limen : option bytes) (t : tholder) :
  tholder_new canon thold limen sith = Ok t -> t_thold t <> VArr [] -> keys (t_thold t) < 2 ^ 27 ->
  exists l s j, tholder_limen t = Ok l /\ tholder_sith t = Ok s /\ tholder_to_json t = Ok j /\
    tholder_new canon None (Some l) None = Ok t /\ tholder_new canon None None (Some s) = Ok t /\ tholder_new canon (Some (t_thold t)) None None = Ok t /\
    (t_weighted t = true -> tholder_new canon None None (Some (VStr j)) = Ok t).
Proof.
  intros H N L. apply accepted in H as [(k & T)|(cs & T)].
  - assert (process_unweighted (Z.of_N k) = Ok t) as P. { apply process_unweighted_ok. rewrite N2Z.id. split; [lia|exact T]. }
    destruct T as [Hk (n & Hn & ->)]. destruct (number_new_spec k) as (code & w & _ & _ & _ & _ & H5 & H6 & _). { unfold u32_max, u128_max in *. lia. }
    assert (n = Mt code 0 (be_bytes (N.to_nat w) k)) as E by congruence. rewrite <- E in H6. destruct (wf_round _ H6) as (l & b & I & _). clear E H5.
    exists l, (VStr (to_hex k)), (to_json (VStr (to_hex k))). unfold tholder_limen, tholder_to_json, tholder_sith. cbn [t_weighted t_number t_thold to_i64]. rewrite bind_Ok.
    assert (i64_hex (Z.of_N k) = to_hex k) as ->. { unfold i64_hex. f_equal. unfold u32_max in Hk. rewrite Z.mod_small; lia. }
    split; auto. split; auto. split; auto. split. { unfold tholder_new. cbn [bind]. rewrite (limen_number k n l Hk Hn I), P. reflexivity. }
    split. { rewrite sith_new. unfold process_sith. cbn [to_i64 to_string]. destruct (parse_hex k) as (Hh & c & r & Ec & Nc). { unfold u32_max, i64_max in *. lia. }
      rewrite Ec in *. transitivity (match parse_i64_hex (c :: r) with Some z => process_unweighted z | None => Err EForeign end); [destruct c; congruence || reflexivity|]. now rewrite Hh. }
    split; [|discriminate]. rewrite thold_new. exact P.
  - rewrite (keys_thold _ _ T) in L. pose proof (process_weighted_again cs t T) as P. rewrite (wt_thold _ _ T) in P, N. assert (cs <> []) as Nc by (intros ->; now apply N).
    destruct (wt_bexter _ _ T) as (b & Eb & B).
    assert (wf_matter b) as Wb.
    { pose proof (bext_len cs (wt_wf _ _ T) (wt_ok _ _ T)) as HL. change (2 ^ 27) with 134217728 in L. destruct (C39_l (rationals_to_bext cs)) as (X & _); [change (2 ^ 32) with 4294967296; lia|].
      destruct (bexter_ok (rationals_to_bext cs) (bext_b64 cs (wt_wf _ _ T))) as (b' & B' & _ & Wb & _); [apply X; eauto|]. congruence. }
    destruct (wf_round _ Wb) as (l & b2 & I & _).
    set (s := match canon_texts cs with [c] => VArr (map VStr c) | _ => vals (canon_texts cs) end).
    assert (process_sith canon s = Ok t) as PS.
    { unfold s. assert (canon_texts cs <> []) as Nt by (unfold canon_texts; destruct cs; [congruence|discriminate]). pose proof (vals_sith canon _ t Nt P) as V. destruct (canon_texts cs) as [|c [|]] eqn:E; auto.
      rewrite flat_sith; auto. intros ->. vm_compute in P. discriminate. }
    assert (tholder_sith t = Ok s) as Es.
    { unfold tholder_sith. rewrite (wt_weighted _ _ T), (wt_thold _ _ T). unfold s, vals. cbn [to_vec]. rewrite bind_Ok. destruct (canon_texts cs) as [|c [|c' r]]; reflexivity. }
    exists l, s, (to_json s). unfold tholder_limen, tholder_to_json. rewrite Es, (wt_weighted _ _ T), Eb. split; auto. split; auto. split; auto.
    split. { unfold tholder_new. cbn [bind]. rewrite (limen_bext cs b l) by (auto; apply T). rewrite P. reflexivity. }
    split; [rewrite sith_new; exact PS|]. split. { rewrite thold_new, (wt_thold _ _ T). exact P. }
    intros _. rewrite sith_new. assert (wfv s /\ (depth s < 128)%nat /\ exists r, to_json s = x5b :: r) as (Ws & Ds & r & Er).
    { destruct (vals_wfv cs (wt_wf _ _ T)) as (W1 & W2).
      assert (forall c : list bytes, (depth (VArr (map VStr c)) <= 1)%nat) as D1 by (intros c; apply arr_depth; apply Forall_map; apply Forall_forall; intros; cbn [depth]; lia).
      unfold s. destruct (canon_texts cs) as [|c [|c' r]] eqn:E.
      - split; auto. split; [vm_compute; lia|]. eexists. reflexivity.
      - split; [now inversion W2|]. split; [specialize (D1 c); lia|]. eexists. reflexivity.
      - split; auto. split; [|eexists; reflexivity]. assert (depth (vals (c :: c' :: r)) <= 2)%nat; [|lia]. apply arr_depth. apply Forall_map. apply Forall_forall. intros; apply D1. }
    unfold process_sith. cbn [to_i64 to_string]. rewrite Er. rewrite <- Er, value_of_text_print, bind_Ok by auto. unfold process_sith in PS.
    assert (sith_array s = Ok t) as Q; [|exact Q]. unfold s in *. destruct (canon_texts cs) as [|c [|]]; exact PS.
Qed.

(** ** C47 and C82 *)
Lemma split_join sep s : join [sep] (split_on sep s) = s.
Proof.
  induction s as [|c s IH]; auto. cbn [split_on]. destruct (Byte.eqb c sep) eqn:E.
  - apply byte_eqb_eq in E. subst. pose proof (split_on_ne sep s). destruct (split_on sep s) as [|p ps]; [congruence|]. change (join [sep] ([] :: p :: ps)) with (sep :: join [sep] (p :: ps)). now rewrite IH.
  - pose proof (split_on_ne sep s). destruct (split_on sep s) as [|p ps]; [congruence|]. destruct ps as [|p' ps]; cbn [join] in *; subst; reflexivity.
Qed.
Lemma one_slash_split s : one_slash s -> (exists a, split_on x2f s = [a] /\ s = a) \/ (exists a b, split_on x2f s = [a; b] /\ s = a ++ x2f :: b).
Proof.
  intros H. pose proof (len_split_on x2f s) as L. pose proof (split_join x2f s) as J.
  assert (filter (Byte.eqb x2f) s = filter (fun c => Byte.eqb c x2f) s) as E.
  { apply filter_ext. intros c. destruct (Byte.eqb x2f c) eqn:E1, (Byte.eqb c x2f) eqn:E2; auto; [apply byte_eqb_eq in E1|apply byte_eqb_eq in E2]; subst; discriminate. }
  rewrite E in L. unfold one_slash in H. destruct (split_on x2f s) as [|a [|b [|c l]]]; [change (len (@nil bytes)) with 0 in L; clear - L; lia|left; exists a; auto|right; exists a, b; auto|]. exfalso. rewrite !len_cons in L. lia.
Qed.
Lemma weight_rat_panic s : weight_rat s = Panic -> zero_over_zero s.
Proof.
  intros H. pose proof (split_join x2f s) as J. pose proof (split_on_ne x2f s) as Ne. unfold weight_rat in H. destruct (split_on x2f s) as [|a [|b [|c l]]]; [congruence| | |].
  1, 3: destruct (beq a (s! "0")); [discriminate|]; destruct (beq a (s! "1")); discriminate.
  destruct (parse_i32 a) as [n|] eqn:En; [|discriminate]. destruct (parse_i32 b) as [d|] eqn:Ed; [|discriminate].
  destruct (_ || _) eqn:E1; [discriminate|]. destruct (d <? n)%Z eqn:E2; [discriminate|]. unfold rat_reduce in H. destruct (Z.to_N d =? 0) eqn:E3.
  - apply parse_numeral in En; [|lia]. apply parse_numeral in Ed; [|lia]. replace (Z.to_N n) with 0 in En by lia. replace (Z.to_N d) with 0 in Ed by lia. exists a, b. auto.
  - destruct (Z.to_N n =? 0); [discriminate|]. destruct (Z.to_N n =? Z.to_N d); discriminate.
Qed.
Lemma weight_rat_text_of s w : weight_rat s = Ok w -> one_slash s -> exists q, weight_text s q /\ (0 <= q <= 1)%Q.
Proof.
  intros H O. destruct (one_slash_split s O) as [(a & E & <-)|(a & b & E & ->)]; unfold weight_rat in H; rewrite E in H.
  - destruct (beq s (s! "0")) eqn:E0. { apply beq_eq in E0. subst. exists (inject_Z 0). split; [|split; discriminate]. apply (weight_int _ 0). split; [discriminate|]. split; [repeat constructor; discriminate|reflexivity]. }
    destruct (beq s (s! "1")) eqn:E1; [|discriminate]. apply beq_eq in E1. subst. exists (inject_Z 1). split; [|split; discriminate]. apply (weight_int _ 1). split; [discriminate|]. split; [repeat constructor; discriminate|reflexivity].
  - destruct (parse_i32 a) as [n|] eqn:En; [|discriminate]. destruct (parse_i32 b) as [d|] eqn:Ed; [|discriminate].
    destruct (_ || _) eqn:E1; [discriminate|]. destruct (d <? n)%Z eqn:E2; [discriminate|]. unfold rat_reduce in H. destruct (Z.to_N d =? 0) eqn:E3; [discriminate|].
    apply parse_numeral in En; [|lia]. apply parse_numeral in Ed; [|lia]. destruct (Z.to_N d) as [|p] eqn:Ep; [discriminate|]. exists (Z.of_N (Z.to_N n) # p). split; [now apply weight_frac|].
    unfold Qle. cbn [Qnum Qden]. lia.
Qed.
Lemma mapR_panic {A B} (f : A -> R B) l : mapR f l = Panic -> exists x, In x l /\ f x = Panic.
Proof.
  induction l as [|x l IH]; [discriminate|]. cbn [mapR]. destruct (f x) as [y|e|] eqn:E; cbn [bind]; [|discriminate|intros _; exists x; split; [now left|auto]].
  destruct (mapR f l); cbn [bind]; try discriminate. intros _. destruct IH as (z & Hz & Ez); auto. exists z. split; [now right|auto].
Qed.
Lemma check_panic cs : check_clauses cs = Panic -> exists c, In c cs /\ rat_sum c = Panic.
Proof.
  induction cs as [|c cs IH]; [discriminate|]. cbn [check_clauses]. destruct (rat_sum c) as [s|e|] eqn:E; cbn [bind]; [|discriminate|intros _; exists c; split; [now left|auto]].
  destruct (rat_lt1 s); [discriminate|]. intros H. destruct (IH H) as (x & Hx & Ex). exists x. split; [now right|auto].
Qed.
Lemma v2r_np v : safe v -> values_to_rationals v <> Panic.
Proof.
  intros (S1 & S2 & _) H. unfold values_to_rationals in H. destruct v as [| | | | |l|]; try discriminate. cbn [to_vec] in H. rewrite bind_Ok in H.
  assert (forall s, weight_in (VArr l) s -> weight_rat s <> Panic) as Nz. { intros s Hs Q. apply weight_rat_panic in Q. now apply S1 in Hs. }
  destruct (mapR clause_rats l) as [cs|e|] eqn:M; cbn [bind] in H; [|discriminate|].
  - destruct (check_clauses cs) as [[]|e|] eqn:C; cbn [bind] in H; try discriminate. clear H. apply check_panic in C as (c & Hc & Pc).
    assert (exists ts qs, VArr l = vals ts /\ Forall2 (Forall2 weight_text) ts qs /\ same_weights cs qs /\ Forall (Forall wfw) cs) as (ts & qs & E & F & W & Wc).
    { apply mapR_ok in M. clear S2 Hc. assert (forall s, weight_in (VArr l) s -> one_slash s) as S by (intros s Hs; now apply S1). clear S1 Nz. induction M as [|x y l cs Hx Hl IH].
      - exists [], []. repeat split; constructor.
      - destruct IH as (ts & qs & E & F & W & Wc). { intros s (l' & c' & El & A & B). inversion El; subst l'. apply S. exists (x :: l), c'. repeat split; auto. now right. }
        unfold clause_rats in Hx. apply bind_ok in Hx as (ws & Ew & Hx). destruct x as [| | | | |ws'|]; try discriminate. inversion Ew; subst ws'. apply mapR_ok in Hx.
        assert (exists t q, ws = map VStr t /\ Forall2 weight_text t q /\ Forall2 (fun w q => (rq w == q)%Q /\ (Z.of_N (snd w) | Z.pos (Qden q))%Z) y q /\ Forall wfw y) as (t & q & Et & Ft & Wt & Wy).
        { assert (forall s, In (VStr s) ws -> one_slash s) as Sw. { intros s Hs. apply S. exists (VArr ws :: l), ws. repeat split; auto. now left. }
          clear - Hx Sw. induction Hx as [|x w ws c Hx Hl IH]; [exists [], []; repeat split; constructor|]. destruct IH as (t & q & E & F & W & Wy); [intros; apply Sw; now right|].
          apply bind_ok in Hx as (s & Es & Hx). destruct x; try discriminate. inversion Es; subst. destruct (weight_rat_text_of s w Hx) as (q0 & Hq & _); [apply Sw; now left|].
          exists (s :: t), (q0 :: q). split; [reflexivity|]. split; [constructor; auto|]. split; [constructor; auto; eapply weight_rat_exact; eauto|]. constructor; auto. eapply weight_rat_wf; eauto. }
        exists (t :: ts), (q :: qs). split. { unfold vals in *. inversion E. cbn [map]. now rewrite Et. } split; [constructor; auto|]. split; constructor; auto. }
    assert (small qs) as Sm by (apply S2; exists ts; split; auto).
    destruct (in_split _ _ Hc) as (c1 & c2 & ->). clear Hc.
    assert (exists q, In q qs /\ Forall2 (fun w q => (rq w == q)%Q /\ (Z.of_N (snd w) | Z.pos (Qden q))%Z) c q) as (q & Hq & Fq).
    { clear - W. revert qs W. induction c1 as [|x c1 IH]; intros qs W; inversion W as [|? q ? qs' Hq Hqs]; subst; [exists q; split; [now left|auto]|]. destruct (IH _ Hqs) as (q' & A & B). exists q'. split; [now right|auto]. }
    apply Forall_app in Wc as (_ & Wc). inversion Wc as [|? ? Wcc _]; subst.
    pose proof (small_sums [c] [q] (map N.of_nat (seq 0 (length c))) ltac:(constructor; auto) ltac:(constructor; [auto|constructor])) as P.
    specialize (P ltac:(intros q' [<-|[]]; now apply Sm) 0). cbn [sat_w] in P. rewrite wlist_all, Pc in P; [now apply P|]. intros i _ Hi. apply in_map_iff. exists (N.to_nat i). split; [lia|]. apply in_seq. unfold len in Hi. lia.
  - apply mapR_panic in M as (x & Hx & Px). unfold clause_rats in Px. destruct x as [| | | | |ws|]; try discriminate. cbn [to_vec] in Px. rewrite bind_Ok in Px. apply mapR_panic in Px as (y & Hy & Py).
    destruct y; try discriminate. cbn [to_string bind] in Py. revert Py. apply Nz. exists l, ws. auto.
Qed.
Lemma size_sum_np cs acc : acc + len (concat cs) < 2 ^ 32 -> size_sum acc cs <> Panic.
Proof.
  change (2 ^ 32) with 4294967296. revert acc; induction cs as [|c cs IH]; intros acc H; cbn [size_sum concat] in *; [discriminate|]. rewrite len_app in H. unfold u32_add, as_u32, u32_max. rewrite N.mod_small by lia.
  destruct (_ <=? _) eqn:E; [|lia]. cbn [bind]. apply IH. lia.
Qed.
Lemma process_weighted_np v : safe v -> process_weighted v <> Panic.
Proof.
  intros S. pose proof (v2r_np v S) as N. destruct S as (_ & _ & L). unfold process_weighted. destruct (values_to_rationals v) as [cs|e|] eqn:V; cbn [bind]; [|discriminate|congruence].
  destruct (v2r_wf _ _ V) as (W & C). assert (len (concat cs) = keys v) as E.
  { apply v2r_ok in V as (ts & -> & F & _). rewrite keys_vals. clear - F. induction F as [|s c ts cs Fc F IH]; auto. cbn [concat]. rewrite !len_app, IH. f_equal. clear - Fc. induction Fc; auto. rewrite !len_cons. lia. }
  change (2 ^ 27) with 134217728 in L. pose proof (size_sum_np cs 0) as Q. change (2 ^ 32) with 4294967296 in Q. specialize (Q ltac:(lia)). destruct (size_sum 0 cs); cbn [bind]; [|discriminate|congruence]. cbv zeta.
  pose proof (bext_len cs W C) as HL. destruct (C39_l (rationals_to_bext cs)) as (_ & X); [change (2 ^ 32) with 4294967296; lia|]. destruct (bexter_new _ _ _ _ _ _); cbn [bind]; congruence.
Qed.
Lemma process_unweighted_np z : process_unweighted z <> Panic.
Proof.
  unfold process_unweighted. destruct (z <? 0)%Z; [discriminate|]. destruct (_ <? z)%Z eqn:E; [discriminate|]. destruct (number_new_spec (Z.to_N z)) as (c & w & _ & _ & _ & _ & H & _); [unfold u32_max, u128_max in *; lia|].
  rewrite H. discriminate.
Qed.
Lemma sith_array_np v : safe v -> safe (VArr [v]) -> sith_array v <> Panic.
Proof.
  intros S1 S2. unfold sith_array. destruct v as [| | | | |l|]; try discriminate. cbn [to_vec]. rewrite bind_Ok. destruct l as [|x l]; [discriminate|]. cbv zeta.
  assert (forall cs : list value, mapR (fun c => let* ws := to_vec c in if forallb (fun w => is_ok (to_string w)) ws then Ok tt else Err EValue) cs <> Panic) as M.
  { intros cs Q. apply mapR_panic in Q as (y & _ & Q). destruct y; try discriminate. cbn [to_vec] in Q. rewrite bind_Ok in Q. destruct (forallb _ _); discriminate. }
  destruct (forallb _ _); cbn [to_vec]; rewrite bind_Ok; match goal with |- bind (mapR ?f ?l) _ <> _ => specialize (M l); destruct (mapR f l) end; cbn [bind]; try congruence; now apply process_weighted_np.
Qed.
(*# C47_no_panic_refuted
   Constructing a threshold panics on the weight 0/0, on weights whose sum overflows 32-bit arithmetic, on a limen with a padding character, and on JSON
   text with an integer outside the signed 64-bit range. Evaluating an accepted weighted threshold panics on an index outside its size.
#*)
Lemma C47_refuted_l (canon : bytes -> option bytes) :
  tholder_new canon (Some (VArr [VArr [VStr (s! "0/0")]])) None None = Panic /\
  tholder_new canon (Some (VArr [VArr [VStr (s! "1"); VStr (s! "1/65537"); VStr (s! "1/65539")]])) None None = Panic /\
  tholder_new canon None (Some (s! "MAA=")) None = Panic /\
  tholder_new canon None None (Some (VStr (s! "[9223372036854775808]"))) = Panic /\
  exists t, tholder_new canon (Some (VArr [VArr [VStr (s! "1")]])) None None = Ok t /\ satisfy t [1] = Panic.
Proof.
  do 4 (split; [vm_compute; reflexivity|]). eexists. split; [rewrite thold_new; vm_compute; reflexivity|]. vm_compute. reflexivity.
Qed.
(*# C47_no_panic_partial
   Constructing a threshold from an integer, from a hexadecimal string, or from a value without zero-over-zero weights, several division signs or large
   denominators does not panic, also when the value is given as JSON text that can be read. Evaluating a numeric threshold never panics. (Evaluating a
   weighted threshold with small denominators on indices within its size does not panic by C42.)
   Missing for the full statement: the inputs of the refutation. C47_panics_exactly says exactly which inputs, limen included, make the constructor panic.
##
Example C47_case : safe (VArr [VArr [VStr (s! "1/0"); VNull]; VBool true]) /\ tholder_new (fun _ => None) (Some (VArr [VArr [VStr (s! "1/0"); VNull]; VBool true])) None None = Err EValue.
Proof.
  split; [|vm_compute; reflexivity]. split; [|split; [|reflexivity]].
  - intros s (l & c & E & A & B). inversion E; subst l. destruct A as [A|[A|[]]]; inversion A; subst c. destruct B as [B|[B|[]]]; inversion B; subst s. split; [vm_compute; discriminate|].
    intros (a & b & (d & (D & F & V) & Ha) & _ & E'). destruct Ha as [->|[->|(_ & ->)]]; [|discriminate|discriminate]. destruct d as [|x d]; [congruence|]. inversion E' as [[Ex Er]]. subst x.
    destruct d as [|y d]; [vm_compute in V; discriminate|]. injection Er. intros _ <-. inversion F as [|? ? _ F']; subst. inversion F' as [|? ? Q _]; subst. destruct Q as [Q _]. vm_compute in Q. now apply Q.
  - intros ws (ts & E & _). unfold texts in E. destruct ts as [|t [|t' ts]]; discriminate.
Qed.
#*)
Lemma C47_partial_l (canon : bytes -> option bytes) (v : value) (z : Z) (s : bytes) :
  (safe v -> tholder_new canon (Some v) None None <> Panic) /\
  (safe v -> safe (VArr [v]) -> (forall s, v <> VStr s) -> tholder_new canon None None (Some v) <> Panic) /\
  (value_of_text canon s = Ok v -> safe v -> safe (VArr [v]) -> tholder_new canon None None (Some (VStr s)) <> Panic) /\
  (~ prefix (s! "[") s -> tholder_new canon None None (Some (VStr s)) <> Panic) /\
  tholder_new canon (Some (VInt z)) None None <> Panic /\ tholder_new canon None None (Some (VInt z)) <> Panic /\
  (forall thold limen sith t idx, tholder_new canon thold limen sith = Ok t -> t_weighted t = false -> exists b, satisfy t idx = Ok b).
Proof.
  assert (forall s, (exists r, s = x5b :: r /\ process_sith canon (VStr s) = (let* v := value_of_text canon s in sith_array v)) \/
    (~ prefix (s! "[") s /\ process_sith canon (VStr s) = match parse_i64_hex s with Some z => process_unweighted z | None => Err EForeign end)) as K.
  { intros x. unfold process_sith. cbn [to_i64 to_string]. destruct x as [|c r]; [right; split; [intros (q & Q); discriminate|reflexivity]|]. destruct (Byte.byte_eq_dec c x5b) as [->|N]; [left; eauto|]. right. split.
    - intros (q & Q). inversion Q. congruence. - destruct c; congruence || reflexivity. }
  assert (forall s, match parse_i64_hex s with Some z => process_unweighted z | None => Err EForeign end <> Panic) as Kz by (intros x; destruct (parse_i64_hex x); [apply process_unweighted_np|discriminate]).
  rewrite !thold_new, !sith_new. split; [|split; [|split; [|split; [|split; [|split]]]]].
  - intros S. unfold process_thold. destruct (to_i64 v); auto using process_unweighted_np, process_weighted_np.
  - intros S1 S2 N. unfold process_sith. destruct (to_i64 v); auto using process_unweighted_np. all: destruct (to_string v) eqn:E; try (now apply sith_array_np). all: destruct v; try discriminate; congruence.
  - intros V S1 S2. destruct (K s) as [(r & _ & ->)|(_ & ->)]; auto. rewrite V, bind_Ok. now apply sith_array_np.
  - intros N. destruct (K s) as [(r & -> & _)|(_ & ->)]; auto. exfalso. apply N. exists r. reflexivity.
  - apply process_unweighted_np.
  - apply process_unweighted_np.
  - intros thold limen sith t idx H W. apply accepted in H as [(k & T)|(cs & T)]. { rewrite (satisfy_numeric_eq k t idx T). eauto. } rewrite (wt_weighted _ _ T) in W. discriminate.
Qed.

(*# C82_weight_texts_refuted
   The text 1/x/y is accepted as a weight and counts as one.
#*)
Lemma C82_refuted_l (canon : bytes -> option bytes) : exists t, tholder_new canon (Some (VArr [VArr [VStr (s! "1/x/y")]])) None None = Ok t /\ satisfy t [0] = Ok true.
Proof. eexists. split; [rewrite thold_new; vm_compute; reflexivity|]. vm_compute. reflexivity. Qed.
(*# C82_weight_texts_partial
   A weight text with at most one division sign occurring in an accepted threshold is an integer or a fraction of integers with a value from zero to one.
   Conversely every fraction from zero to one with numerator and denominator below 2^30 is accepted as a weight.
   Missing for the full statement: texts with several division signs, of which only the first part is looked at (see C82_accepted_exactly).
##
Example C82_case : exists t, tholder_new (fun _ => None) (Some (VArr [VArr [VStr (s! "+3/4"); VStr (s! "2/8")]])) None None = Ok t /\ t_thold t = VArr [VArr [VStr (s! "3/4"); VStr (s! "1/4")]] /\
  tholder_new (fun _ => None) (Some (VArr [VArr [VStr (s! "5/4")]])) None None = Err EValue.
Proof. eexists. split; [vm_compute; reflexivity|]. split; vm_compute; reflexivity. Qed.
#*)
Lemma C82_partial_l (canon : bytes -> option bytes) (v : value) (s a b : bytes) (n d : N) :
  (forall t, tholder_new canon (Some v) None None = Ok t \/ (exists c, v = VArr [VArr (map VStr c)] /\ c <> [] /\ tholder_new canon None None (Some (VArr (map VStr c))) = Ok t) ->
    weight_in v s -> one_slash s -> exists q, weight_text s q /\ (0 <= q <= 1)%Q) /\
  (numeral a n -> numeral b d -> 1 <= d -> n <= d -> d < 2 ^ 30 ->
    exists t, tholder_new canon (Some (VArr [VArr [VStr (a ++ s! "/" ++ b); VStr (s! "1")]])) None None = Ok t /\ t_size t = 2).
Proof.
  split.
  - intros t H (l & c & -> & Hc & Hs) O. assert (exists cs, values_to_rationals (VArr l) = Ok cs) as (cs & V).
    { destruct H as [H|(c' & E & N & H)]; [apply new_thold in H|apply new_sith in H; rewrite flat_sith in H by auto; rewrite E].
      - unfold process_thold in H. cbn [to_i64] in H. apply process_weighted_ok in H as (cs & V & _). eauto.
      - apply process_weighted_ok in H as (cs & V & _). eauto. }
    apply v2r_ok in V as (ts & E & F & _). inversion E; subst l. clear E. apply in_map_iff in Hc as (t0 & Et & Ht). inversion Et; subst c. apply in_map_iff in Hs as (s' & Es & Hs). inversion Es; subst s'.
    assert (exists w, weight_rat s = Ok w) as (w & W).
    { clear - F Ht Hs. induction F as [|t c ts cs Ft F IH]; [destruct Ht|]. destruct Ht as [->|Ht]; auto. clear - Ft Hs. induction Ft as [|x w t c Hx Ft IH]; [destruct Hs|]. destruct Hs as [->|Hs]; eauto. }
    now apply weight_rat_text_of with w.
  - intros Ha Hb Hd Hn Hl. change (2 ^ 30) with 1073741824 in Hl.
    assert (exists w, weight_rat (a ++ s! "/" ++ b) = Ok w) as (w & W).
    { unfold weight_rat. rewrite (weight_frac_split a b n d Ha Hb). rewrite (numeral_parse_i32 a n Ha), (numeral_parse_i32 b d Hb) by (unfold i32_max; lia).
      destruct (_ || _) eqn:E1; [lia|]. destruct (Z.of_N d <? Z.of_N n)%Z eqn:E2; [lia|]. rewrite !N2Z.id. apply rat_reduce_in. lia. }
    assert (snd w <= d) as Ld.
    { unfold weight_rat in W. rewrite (weight_frac_split a b n d Ha Hb), (numeral_parse_i32 a n Ha), (numeral_parse_i32 b d Hb) in W by (unfold i32_max; lia).
      destruct (_ || _) eqn:E1; [lia|]. destruct (Z.of_N d <? Z.of_N n)%Z eqn:E2; [lia|]. rewrite !N2Z.id in W. apply rat_reduce_ok in W as (_ & _ & _ & D & _); [|unfold i32_max; lia|unfold i32_max; lia]. apply N.divide_pos_le; auto. lia. }
    destruct (weight_rat_wf _ _ W) as (Ww & Bw).
    assert (wfw (1, 1)) as W1 by (split; [split; cbn; auto; unfold i32_max; lia|cbn; lia]).
    assert (Forall (Forall wfw) [[w; (1, 1)]]) as Wf by (constructor; [constructor; [split; assumption|constructor; [exact W1|constructor]]|constructor]).
    assert (Forall wfr [w; (1, 1)]) as Wr by (constructor; [exact Ww|constructor; [apply W1|constructor]]).
    assert (Forall clause_ok [[w; (1, 1)]]) as Wok.
    { constructor; [|constructor]. destruct (rat_sum_in [w; (1, 1)] (snd w)) as (z & Hz).
      - apply (wr_pos _ Ww). - exact Wr. - intros x [<-|[<-|[]]]; cbn [fst snd]; split; auto using N.divide_refl, N.divide_1_l; lia. - change (len [w; (1, 1)]) with 2. unfold i32_max. lia.
      - exists z. split; auto. apply rat_sum_ok in Hz as (Wz & Qz); [|exact Wr]. apply rat_lt1_spec; auto. rewrite Qz. cbn [map qsum fold_right]. pose proof (wfw_nonneg w (conj Ww Bw)).
        change (rq (1, 1)) with 1%Q. lra. }
    assert (values_to_rationals (vals [[a ++ s! "/" ++ b; s! "1"]]) = Ok [[w; (1, 1)]]) as V. { apply v2r_ok. exists [[a ++ s! "/" ++ b; s! "1"]]. split; auto. }
    rewrite thold_new. change (VArr [VArr [VStr (a ++ s! "/" ++ b); VStr (s! "1")]]) with (vals [[a ++ s! "/" ++ b; s! "1"]]). unfold process_thold. cbn [vals to_i64]. unfold process_weighted. change (VArr (map (fun c => VArr (map VStr c)) [[a ++ s! "/" ++ b; s! "1"]])) with (vals [[a ++ s! "/" ++ b; s! "1"]]).
    rewrite V, bind_Ok. cbn [size_sum]. change (u32_add 0 (as_u32 (len [w; (1, 1)]))) with (@Ok N 2). rewrite !bind_Ok. cbv zeta.
    destruct (bexter_ok (rationals_to_bext [[w; (1, 1)]]) (bext_b64 _ Wf)) as (m & -> & _). { pose proof (bext_len _ Wf Wok) as L. change (len (concat [[w; (1, 1)]])) with 2 in L. lia. }
    rewrite bind_Ok. eexists. split; reflexivity.
Qed.
