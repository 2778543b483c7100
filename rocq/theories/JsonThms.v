(** Proofs of the properties of data values and JSON. *)
From Coq Require Import String.
From Coq Require Import NArith ZArith Bool List Lia ZifyBool ZifyNat ZifyN.
From Verif Require Import Base BaseFacts Util Prims Json JsonFacts SpecJson.
Import ListNotations.
Open Scope N_scope.
Ltac Zify.zify_post_hook ::= Z.div_mod_to_equations.

Fixpoint data_wfv (v : value) (H : data v) {struct H} : wfv v.
Proof.
  destruct H as [|b|z H|s H|l H|m H1 H2 H3].
  - exact I.
  - exact I.
  - cbn [wfv]. unfold is_i64. change (2 ^ 63)%Z with 9223372036854775808%Z in H. lia.
  - exact H.
  - apply wfv_arr. revert l H. fix go 2. intros l H. destruct H as [|x l Hx Hl]; constructor; [exact (data_wfv x Hx)|exact (go l Hl)].
  - apply wfv_obj. split; [exact H1|]. clear H1. revert m H2 H3.
    assert (forall vs ks (m : list (bytes * value)), vs = map snd m -> ks = map fst m -> Forall (fun k => utf8 k = true) ks -> Forall data vs ->
      Forall (fun kv => utf8 (fst kv) = true /\ wfv (snd kv)) m) as G; [|intros m H2 H3; exact (G _ _ m eq_refl eq_refl H2 H3)].
    fix go 7. intros vs ks m Ev Ek Hk Hv. destruct Hv as [|x vs Hx Hvs].
    + destruct m; [constructor|discriminate].
    + destruct m as [|(k, y) m]; [discriminate|]. subst ks. cbn [map fst snd] in *. injection Ev as E1 E2. pose proof (data_wfv x Hx) as Wx. inversion Hk as [|? ? K1 K2]; subst.
      constructor; [split; auto|]. exact (go _ _ m eq_refl eq_refl K2 Hvs).
Qed.
Lemma wfv_data v : wfv v -> data v.
Proof.
  induction v as [|b|z|t|s|l IH|m IH] using value_ind'; intros W; try (constructor; fail).
  - constructor. cbn [wfv] in W. unfold is_i64 in W. change (2 ^ 63)%Z with 9223372036854775808%Z. lia.
  - destruct W.
  - constructor. exact W.
  - apply wfv_arr in W. constructor. induction IH; inversion W; subst; constructor; auto.
  - apply wfv_obj in W as (W1 & W2). constructor; auto.
    + clear - W2. induction W2 as [|kv m (W & _) _ IH]; constructor; auto.
    + clear W1. induction IH; inversion W2 as [|? ? (W3 & W4) W5]; subst; constructor; auto.
Qed.
Lemma nests_depth n v : nests n v -> (depth v <= n)%nat.
Proof.
  revert n; induction v as [|b|z|t|s|l IH|m IH] using value_ind'; intros n H; cbn [depth]; try lia; inversion H; subst; clear H.
  - apply le_n_S. match goal with H : Forall _ l |- _ => revert H end. clear - IH. induction IH as [|x l Hx Hl IHl]; intros H; [cbn; lia|]. inversion H; subst.
    cbn [fold_right]. apply Nat.max_lub; auto.
  - apply le_n_S. match goal with H : Forall _ (map snd m) |- _ => revert H end. clear - IH. induction IH as [|x l Hx Hl IHl]; intros H; [cbn; lia|]. inversion H; subst.
    cbn [fold_right]. apply Nat.max_lub; auto.
Qed.

(*# C48_json_output_injective
   Two data values without floats that print to the same JSON text are equal, in the order of keys too. More: the text of one is never a proper
   prefix of the text of another followed by a character that ends a value.
##
Definition doc1 : value := VObj [(s! "v", VStr (s! "KERI10JSON000000_")); (s! "a", VArr [VInt (-5); VBool true; VNull; VObj []; VStr [x22; x5c; x0a; xc3; xa9]])].
Example C48_case : data doc1 /\ to_json doc1 = s! "{""v"":""KERI10JSON000000_"",""a"":[-5,true,null,{},""" ++ [x5c; x22; x5c; x5c; x5c; x6e; xc3; xa9] ++ s! """]}".
Proof.
  split; [|vm_compute; reflexivity]. apply data_obj.
  - repeat constructor; cbn; intuition discriminate.
  - repeat constructor.
  - repeat (constructor; try (vm_compute; intuition discriminate)).
Qed.
#*)
Lemma C48_l (v w : value) (r : bytes) : data v -> data w ->
  (to_json v = to_json w -> v = w) /\
  (forall c r', r = c :: r' -> In c (s! ",]} ") -> to_json w <> to_json v ++ r).
Proof.
  intros Dv Dw. apply data_wfv in Dv, Dw. split.
  - intros E. apply (to_json_prefix (fun _ => None) v w [] Dv Dw I). now rewrite app_nil_r.
  - intros c r' -> Hc E. assert (stop (c :: r')) as Hs. { destruct Hc as [<-|[<-|[<-|[<-|[]]]]]; cbn; repeat split; discriminate. }
    destruct (to_json_prefix (fun _ => None) v w _ Dv Dw Hs E) as (_ & Q). discriminate.
Qed.

(*# C49_json_round_trip
   Reading back the JSON text of a data value without floats nested at most 127 deep gives exactly that value, key order included, whatever the
   treatment of floats.
##
Example C49_case : data doc1 /\ nests 127 doc1 /\ value_of_text (fun _ => None) (to_json doc1) = Ok doc1.
Proof.
  split; [apply C48_case|]. split; [|vm_compute; reflexivity].
  repeat (constructor; cbn [map snd]).
Qed.
#*)
Lemma C49_l (canon : bytes -> option bytes) (v : value) : data v -> nests 127 v -> value_of_text canon (to_json v) = Ok v.
Proof. intros D N. apply value_of_text_print; [now apply data_wfv|]. apply nests_depth in N. lia. Qed.

(** ** When loading panics *)
Section JInd.
Variable P : jval -> Prop.
Hypotheses (H0 : P JNull) (H1 : forall b, P (JBool b)) (H2 : forall n, P (JPos n)) (H2' : forall n, P (JNeg n)) (H3 : forall t, P (JFloat t)) (H4 : forall s, P (JStr s))
  (H5 : forall l, Forall P l -> P (JArr l)) (H6 : forall l, Forall (fun kv => P (snd kv)) l -> P (JObj l)).
Fixpoint jval_ind' (v : jval) : P v :=
  match v with
  | JNull => H0
  | JBool b => H1 b
  | JPos z => H2 z
  | JNeg z => H2' z
  | JFloat t => H3 t
  | JStr s => H4 s
  | JArr l => H5 l ((fix go l : Forall P l := match l with [] => Forall_nil _ | x :: r => Forall_cons x (jval_ind' x) (go r) end) l)
  | JObj l => H6 l ((fix go l : Forall (fun kv => P (snd kv)) l :=
      match l with [] => Forall_nil _ | x :: r => Forall_cons x (jval_ind' (snd x)) (go r) end) l)
  end.
End JInd.

Definition ogo_arr := fix go (l : list jval) : R (list value) :=
                  match l with [] => Ok [] | j :: r => let* v := of_json j in let* vs := go r in Ok (v :: vs) end.
Definition ogo_obj := fix go (l : list (bytes * jval)) (acc : list (bytes * value)) : R (list (bytes * value)) :=
                 match l with [] => Ok acc | (k, j) :: r => let* v := of_json j in go r (insert k v acc) end.
Lemma of_json_arr l : of_json (JArr l) = let* vs := ogo_arr l in Ok (VArr vs). Proof. reflexivity. Qed.
Lemma of_json_obj l : of_json (JObj l) = let* m := ogo_obj l [] in Ok (VObj m). Proof. reflexivity. Qed.

Lemma of_json_panic j : of_json j = Panic <-> unloadable j.
Proof.
  assert (forall j, (exists v, of_json j = Ok v) \/ of_json j = Panic) as Tot.
  { clear j. induction j as [|b|n|n|t|s|l IH|m IH] using jval_ind'; try (left; eexists; reflexivity).
    - cbn [of_json]. destruct (_ <=? _); eauto.
    - cbn [of_json]. destruct (existsb _ _); eauto.
    - rewrite of_json_arr. assert ((exists v, ogo_arr l = Ok v) \/ ogo_arr l = Panic) as [(v & Q)|Q]; [|rewrite Q, bind_Ok; eauto|rewrite Q; auto].
      induction IH as [|x l [(v & Hx)|Hx] Hl [(vs & IHl)|IHl]]; cbn [ogo_arr]; fold ogo_arr; eauto; rewrite Hx; cbn [bind]; try rewrite IHl; cbn [bind]; eauto.
    - rewrite of_json_obj. assert (forall acc, (exists v, ogo_obj m acc = Ok v) \/ ogo_obj m acc = Panic) as Q;
        [|destruct (Q []) as [(v & Q1)|Q1]; rewrite Q1; cbn [bind]; eauto].
      induction IH as [|(k, x) l [(v & Hx)|Hx] Hl IHl]; intros acc; cbn [ogo_obj]; fold ogo_obj; eauto; cbn [snd] in Hx; rewrite Hx; cbn [bind]; eauto. }
  assert (forall l, ogo_arr l = Panic <-> exists j, In j l /\ of_json j = Panic) as TA.
  { induction l as [|x l IH]; cbn [ogo_arr]; fold ogo_arr. { split; [discriminate|]. intros (j0 & [] & _). }
    destruct (Tot x) as [(v & Hx)|Hx]; rewrite Hx; cbn [bind].
    - transitivity (ogo_arr l = Panic). { destruct (ogo_arr l); cbn [bind]; split; congruence. }
      rewrite IH. split; intros (j0 & H1 & H2); exists j0; (split; [|auto]); [now right|]. destruct H1 as [->|H1]; [congruence|auto].
    - split; auto. intros _. exists x. split; [now left|auto]. }
  assert (forall l acc, ogo_obj l acc = Panic <-> exists k j, In (k, j) l /\ of_json j = Panic) as TO.
  { induction l as [|(k, x) l IH]; intros acc; cbn [ogo_obj]; fold ogo_obj. { split; [discriminate|]. intros (k0 & j0 & [] & _). }
    destruct (Tot x) as [(v & Hx)|Hx]; rewrite Hx; cbn [bind].
    - rewrite IH. split; intros (k0 & j0 & H1 & H2); exists k0, j0; (split; [|auto]); [now right|]. destruct H1 as [H1|H1]; [congruence|auto].
    - split; auto. intros _. exists k, x. split; [now left|auto]. }
  induction j as [|b|n|n|t|s|l IH|m IH] using jval_ind'; try (split; [discriminate|intros H; inversion H]; fail).
  - cbn [of_json]. unfold i64_max. split.
    + destruct (_ <=? _) eqn:E; [discriminate|]. intros _. constructor. change (2 ^ 63) with 9223372036854775808. lia.
    + intros H. inversion H; subst. change (2 ^ 63) with 9223372036854775808 in *. destruct (_ <=? _) eqn:E; [lia|auto].
  - cbn [of_json]. split.
    + destruct (existsb _ _) eqn:E; [discriminate|]. intros _. constructor. intros Hin. assert (existsb (Byte.eqb x2e) t = true) as Q; [|congruence].
      apply existsb_exists. exists x2e. split; auto.
    + intros H. inversion H as [|? Hn| |]; subst. destruct (existsb _ _) eqn:E; auto. apply existsb_exists in E as (y & Hy & Ey). apply byte_eqb_eq in Ey. subst. contradiction.
  - rewrite of_json_arr. transitivity (ogo_arr l = Panic). { destruct (ogo_arr l); cbn [bind]; split; congruence. } rewrite TA. rewrite Forall_forall in IH. split.
    + intros (j0 & H1 & H2). apply (un_arr l j0); auto. now apply IH.
    + intros H. inversion H; subst. eexists. split; [eassumption|]. now apply IH.
  - rewrite of_json_obj. transitivity (ogo_obj m [] = Panic). { destruct (ogo_obj m []); cbn [bind]; split; congruence. } rewrite TO. rewrite Forall_forall in IH. split.
    + intros (k & j0 & H1 & H2). apply (un_obj m k j0); auto. now apply (IH (k, j0)).
    + intros H. inversion H as [| | |? k j0 H1 H2]; subst. exists k, j0. split; auto. now apply (IH (k, j0)).
Qed.

(*# C50_loading_json_never_panics_refuted
   Loading JSON can panic: the integer 9223372036854775808 (2^63) does, however floats are treated.
##
Example C50_refuted_case : value_of_text (fun _ => None) (s! "{""a"":9223372036854775807}") = Ok (VObj [(s! "a", VInt 9223372036854775807)]).
Proof. vm_compute. reflexivity. Qed.
#*)
Lemma C50_refuted_l : exists s, forall canon, value_of_text canon s = Panic.
Proof. exists (s! "9223372036854775808"). intros canon. vm_compute. reflexivity. Qed.

(*# C50_loading_json_partial
   Loading panics on no other account: a text makes the loader panic exactly when it is a JSON document holding an integer of 2^63 or more or a
   float whose shortest text has no decimal point. Every other text loads or is an error.
##
Example C50_case : value_of_text Some (s! "[1e300]") = Panic /\ pjson Some (s! "[1e300]") = Ok (JArr [JFloat (s! "1e300")]) /\ unloadable (JArr [JFloat (s! "1e300")])
  /\ value_of_text Some (s! "[1.5e3]") = Ok (VArr [VFloat (s! "1.5e3")]) /\ value_of_text Some (s! "[1,]") = Err EForeign.
Proof.
  split; [vm_compute; reflexivity|]. split; [vm_compute; reflexivity|]. split; [|split; vm_compute; reflexivity].
  apply (un_arr _ (JFloat (s! "1e300"))); [now left|]. constructor. vm_compute. intuition discriminate.
Qed.
#*)
Lemma C50_partial_l (canon : bytes -> option bytes) (s : bytes) :
  value_of_text canon s = Panic <-> exists j, pjson canon s = Ok j /\ unloadable j.
Proof.
  unfold value_of_text. pose proof (pjson_np canon s) as N. destruct (pjson canon s) as [j|e|]; cbn [bind].
  - rewrite of_json_panic. split; [intros H; exists j; auto|]. intros (j' & E & H). congruence.
  - split; [discriminate|]. intros (j' & E & _). discriminate.
  - congruence.
Qed.

(** ** What is read is a data value *)
Fixpoint jdepth (v : jval) : nat :=
  match v with
  | JArr l => S (fold_right (fun x n => Nat.max (jdepth x) n) O l)
  | JObj l => S (fold_right (fun kv n => Nat.max (jdepth (snd kv)) n) O l)
  | _ => O
  end.
Inductive jwf : jval -> Prop :=
| jwf_null : jwf JNull
| jwf_bool b : jwf (JBool b)
| jwf_pos n : jwf (JPos n)
| jwf_neg n : n <= i64_min_abs -> jwf (JNeg n)
| jwf_float t : jwf (JFloat t)
| jwf_str s : utf8 s = true -> jwf (JStr s)
| jwf_arr l : Forall jwf l -> jwf (JArr l)
| jwf_obj m : NoDup (map fst m) -> Forall (fun kv => utf8 (fst kv) = true /\ jwf (snd kv)) m -> jwf (JObj m).

Section Sound.
Variable canon : bytes -> option bytes.
Lemma insert_Forall {A} (P : bytes * A -> Prop) k v m : Forall P m -> P (k, v) -> (forall k' v', P (k', v') -> k' = k -> P (k', v)) -> Forall P (insert k v m).
Proof.
  intros H Hk Hr. induction H as [|(k', v') m Hx Hm IH]; cbn [insert]; [auto|]. destruct (beq k' k) eqn:E; constructor; auto. apply beq_eq in E. subst. eauto.
Qed.
Lemma pnum_sound neg s j r : pnum canon neg s = Ok (j, r) -> jwf j /\ jdepth j = O.
Proof.
  unfold pnum. destruct (digits s) as (d, r0). destruct (bad_lead d); [discriminate|]. destruct (pfrac r0) as [(fr, r1)|]; [|discriminate].
  destruct (pexp r1) as [(ex, r2)|]; [|discriminate].
  assert (forall t q, pfloat canon t q = Ok (j, r) -> jwf j /\ jdepth j = O) as Hf. { unfold pfloat. intros t q. destruct (canon t); [|discriminate]. intros H; inversion H; subst. split; constructor. }
  destruct fr; [destruct ex|]; cbv zeta; eauto. destruct (_ <? _); eauto. destruct neg.
  - destruct ((_ =? 0) || _) eqn:E; eauto. intros H; inversion H; subst. split; auto. constructor. apply orb_false_iff in E as [_ E]. lia.
  - intros H; inversion H; subst. split; constructor.
Qed.
Lemma psound f : (forall d s j r, pval canon f d s = Ok (j, r) -> jwf j /\ (jdepth j < Nat.max 1 d)%nat) /\
  (forall d s l r, parr canon f d s = Ok (l, r) -> Forall jwf l /\ Forall (fun j => jdepth j < Nat.max 1 d)%nat l) /\
  (forall d acc s l r, pobj canon f d acc s = Ok (l, r) -> NoDup (map fst acc) ->
    Forall (fun kv => (utf8 (fst kv) = true /\ jwf (snd kv)) /\ (jdepth (snd kv) < Nat.max 1 d)%nat) acc ->
    NoDup (map fst l) /\ Forall (fun kv => (utf8 (fst kv) = true /\ jwf (snd kv)) /\ (jdepth (snd kv) < Nat.max 1 d)%nat) l).
Proof.
  induction f as [|f (IH1 & IH2 & IH3)]; [repeat split; intros; discriminate|]. split; [|split].
  - intros d s j r. rewrite pval_step. destruct (skip_ws s) as [|c q]; [discriminate|].
    assert (forall lit x, jwf x -> jdepth x = O -> plit lit x q = Ok (j, r) -> jwf j /\ (jdepth j < Nat.max 1 d)%nat) as Hl.
    { intros lit x Hx Hd. unfold plit. destruct (beq _ _); [|discriminate]. intros H; inversion H; subst. split; auto. lia. }
    assert (forall neg q, pnum canon neg q = Ok (j, r) -> jwf j /\ (jdepth j < Nat.max 1 d)%nat) as Hn.
    { intros neg q' H. apply pnum_sound in H as (A & B). split; auto. lia. }
    destruct (Byte.eqb c x6e); [apply Hl; constructor|]. destruct (Byte.eqb c x74); [apply Hl; constructor|]. destruct (Byte.eqb c x66); [apply Hl; constructor|].
    destruct (Byte.eqb c x2d); [apply Hn|]. destruct (is_digit c); [apply Hn|]. destruct (Byte.eqb c x22).
    { unfold pstring. destruct (pstr _ q) as [(t, q')|]; [|discriminate]. destruct (utf8 t) eqn:Eu; [|discriminate]. rewrite bind_Ok. intros H; inversion H; subst. split; [now constructor|]. cbn [jdepth fst fold_right]. lia. }
    destruct (Byte.eqb c x5b).
    { destruct d as [|[|d]]; try discriminate. destruct (eat x5d (skip_ws q)). { intros H; inversion H; subst. split; [constructor; constructor|]. cbn [jdepth fst fold_right]. lia. }
      intros H. apply bind_ok in H as ((l & q') & H1 & H). apply IH2 in H1 as (A & B). inversion H; subst. split; [now constructor|].
      cbn [jdepth fst]. replace (Nat.max 1 (S d)) with (S d) in B by lia. assert (fold_right (fun x n => Nat.max (jdepth x) n) 0%nat l <= d)%nat; [|lia]. clear - B. induction B; cbn [fold_right]; lia. }
    destruct (Byte.eqb c x7b); [|discriminate].
    destruct d as [|[|d]]; try discriminate. destruct (eat x7d (skip_ws q)). { intros H; inversion H; subst. split; [constructor; constructor|]. cbn [jdepth fst fold_right]. lia. }
    intros H. apply bind_ok in H as ((l & q') & H1 & H). apply IH3 in H1 as (A & B); [|constructor|constructor]. inversion H; subst. split.
    + constructor; [exact A|]. revert B. cbn [fst]. apply Forall_impl. intros kv (Q & _). exact Q.
    + cbn [jdepth fst]. replace (Nat.max 1 (S d)) with (S d) in B by lia. assert (fold_right (fun (x : bytes * jval) n => Nat.max (jdepth (snd x)) n) 0%nat l <= d)%nat; [|lia].
      clear - B. induction B as [|x l (_ & B) _ IH]; cbn [fold_right]; [lia|]. apply Nat.max_lub; [apply Nat.lt_succ_r; exact B|exact IH].
  - intros d s l r H. rewrite parr_step in H. apply bind_ok in H as ((j & q) & H1 & H). apply IH1 in H1 as (A & B). cbn [fst snd] in H.
    destruct (eat x5d (skip_ws q)); [inversion H; subst; auto|].
    destruct (eat x2c (skip_ws q)); [|discriminate]. apply bind_ok in H as ((l' & q2) & H2 & H). apply IH2 in H2 as (C & D). inversion H; subst. cbn [fst]. auto.
  - intros d acc s l r H Hn Ha. rewrite pobj_step in H. destruct (eat x22 (skip_ws s)) as [q0|]; [|discriminate].
    apply bind_ok in H as ((k & q) & H1 & H). assert (utf8 k = true) as Hk. { unfold pstring in H1. destruct (pstr _ q0) as [(t, q')|]; [|discriminate]. destruct (utf8 t) eqn:Eu; [|discriminate]. inversion H1; subst; auto. }
    cbn [fst snd] in H. destruct (eat x3a (skip_ws q)); [|discriminate]. apply bind_ok in H as ((j & q2) & H2 & H). apply IH1 in H2 as (A & B). cbn [fst snd] in H.
    assert (NoDup (map fst (insert k j acc))) as Hn' by now apply insert_NoDup.
    assert (Forall (fun kv => (utf8 (fst kv) = true /\ jwf (snd kv)) /\ (jdepth (snd kv) < Nat.max 1 d)%nat) (insert k j acc)) as Ha'.
    { apply insert_Forall; cbn [fst snd]; auto. intros k' v' _ ->. auto. }
    destruct (eat x7d (skip_ws q2)); [inversion H; subst; auto|].
    destruct (eat x2c (skip_ws q2)); [|discriminate]. eapply IH3; eauto.
Qed.
End Sound.

Lemma of_json_data j : jwf j -> forall v, of_json j = Ok v -> float_free v -> wfv v /\ (depth v <= jdepth j)%nat.
Proof.
  induction j as [|b|n|n|t|s|l IH|m IH] using jval_ind'; intros W v H F.
  - inversion H; subst. cbn. auto.
  - inversion H; subst. cbn. auto.
  - cbn [of_json] in H. destruct (_ <=? _) eqn:E; [|discriminate]. inversion H; subst. cbn [wfv depth]. split; auto. unfold is_i64, i64_max in *. lia.
  - inversion H; subst. cbn [wfv depth]. split; auto. inversion W; subst. unfold is_i64, i64_min_abs in *. lia.
  - cbn [of_json] in H. destruct (existsb _ _); [|discriminate]. inversion H; subst. inversion F.
  - inversion H; subst. inversion W; subst. cbn. auto.
  - rewrite of_json_arr in H. apply bind_ok in H as (vs & H & E). inversion E; subst. inversion F as [| | | |? Ff|]; subst. inversion W as [| | | | | |? Wf|]; subst.
    assert (Forall wfv vs /\ (fold_right (fun x n => Nat.max (depth x) n) O vs <= fold_right (fun x n => Nat.max (jdepth x) n) O l)%nat) as (A & B).
    { clear - IH H Ff Wf. revert vs H Ff. induction IH as [|x l Hx Hl IHl]; intros vs H Ff; cbn [ogo_arr] in H; fold ogo_arr in H.
      - inversion H; subst. split; [constructor|cbn; lia].
      - apply bind_ok in H as (v & H1 & H). apply bind_ok in H as (vs' & H2 & H). inversion H; subst. inversion Ff; subst. inversion Wf; subst.
        destruct (Hx ltac:(auto) v H1 ltac:(auto)) as (A1 & A2). destruct (IHl ltac:(auto) vs' H2 ltac:(auto)) as (B1 & B2). split; [constructor; auto|]. cbn [fold_right]. lia. }
    split; [now apply wfv_arr|]. cbn [depth jdepth]. lia.
  - rewrite of_json_obj in H. apply bind_ok in H as (vs & H & E). inversion E; subst. inversion F as [| | | | |? Ff]; subst. inversion W as [| | | | | | |? Wn Wf]; subst.
    assert (forall acc vs, ogo_obj m acc = Ok vs -> (forall k, In k (map fst acc) -> ~ In k (map fst m)) ->
      exists vs', vs = acc ++ vs' /\ map fst vs' = map fst m /\ (Forall float_free (map snd vs') -> Forall (fun kv => utf8 (fst kv) = true /\ wfv (snd kv)) vs' /\
       (fold_right (fun (x : bytes * value) n => Nat.max (depth (snd x)) n) O vs' <= fold_right (fun (x : bytes * jval) n => Nat.max (jdepth (snd x)) n) O m)%nat)) as G.
    { clear - IH Wn Wf. induction IH as [|(k, x) m Hx Hm IHm]; intros acc vs H Hd; cbn [ogo_obj] in H; fold ogo_obj in H.
      - inversion H; subst. exists []. rewrite app_nil_r. repeat split; [constructor|cbn; lia].
      - apply bind_ok in H as (v & H1 & H). inversion Wn as [|? ? N1 N2]; subst. inversion Wf as [|? ? (W1 & W2) W3]; subst. cbn [fst snd map] in *.
        rewrite insert_new in H by (intros Hin; apply (Hd k Hin); now left).
        destruct (IHm N2 W3 _ _ H) as (vs' & -> & Ek & G).
        { intros k' Hin. rewrite map_app in Hin. apply in_app_iff in Hin as [Hin|[<-|[]]]; auto. intros Q. apply (Hd k' Hin). now right. }
        exists ((k, v) :: vs'). rewrite <- app_assoc. split; [reflexivity|]. cbn [map fst snd]. split; [now rewrite Ek|]. intros Ff. inversion Ff; subst.
        destruct (G ltac:(auto)) as (G1 & G2). destruct (Hx W2 v H1 ltac:(auto)) as (A1 & A2). split; [constructor; auto|]. cbn [fold_right snd]. lia. }
    destruct (G [] vs H) as (vs' & Ev & Ek & G'); [intros k []|]. cbn [app] in Ev. subst vs'. destruct (G' Ff) as (A & B). split.
    + apply wfv_obj. split; auto. now rewrite Ek.
    + cbn [depth jdepth]. lia.
Qed.

(*# C81_read_values_can_be_written
   Whatever float-free value the loader returns is a data value nested at most 127 deep (64-bit integers, UTF-8 strings, distinct labels), and
   reading its own JSON text returns it unchanged.
##
Example C81_case : value_of_text (fun _ => None) (s! " { ""b"" : [ -0012 ] }") = Err EForeign /\
  value_of_text (fun _ => None) (s! " { ""b"" : [ -12 ] , ""a"" : ""é"", ""b"": null}") = Ok (VObj [(s! "b", VNull); (s! "a", VStr [xc3; xa9])]) /\
  float_free (VObj [(s! "b", VNull); (s! "a", VStr [xc3; xa9])]).
Proof. split; [vm_compute; reflexivity|]. split; [vm_compute; reflexivity|]. repeat constructor. Qed.
#*)
Lemma C81_l (canon : bytes -> option bytes) (s : bytes) (v : value) : value_of_text canon s = Ok v -> float_free v ->
  data v /\ nests 127 v /\ value_of_text canon (to_json v) = Ok v.
Proof.
  intros H F. unfold value_of_text in H. apply bind_ok in H as (j & H1 & H2). unfold pjson in H1. apply bind_ok in H1 as ((j' & r) & H1 & H3).
  cbn [fst snd] in H3. destruct (skip_ws r); [|discriminate]. inversion H3; subst. apply (proj1 (psound canon _)) in H1 as (W & D).
  destruct (of_json_data j W v H2 F) as (Wv & Dv). change (Nat.max 1 128) with 128%nat in D.
  assert (forall n w, (depth w <= n)%nat -> nests n w) as DN.
  { clear. intros n w; revert n; induction w as [|b|z|t|s|l IH|m IH] using value_ind'; intros n H; try constructor; cbn [depth] in H; (destruct n as [|n]; [lia|]); apply le_S_n in H; constructor.
    - induction IH as [|x l Hx Hl IHl]; constructor; cbn [fold_right] in H; [apply Hx|apply IHl]; lia.
    - induction IH as [|x l Hx Hl IHl]; cbn [map]; constructor; cbn [fold_right] in H; [apply Hx|apply IHl]; lia. }
  split; [now apply wfv_data|]. split; [apply DN; lia|]. apply value_of_text_print; auto. lia.
Qed.
