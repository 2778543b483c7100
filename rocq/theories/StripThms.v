(** Proof of the exact statement about stripping paths. *)
From Coq Require Import String.
From Coq Require Import NArith ZArith Lia Bool List.
From Verif Require Import Base BaseFacts B64 B64Facts Tables Matter MatterFacts MatterBin MatterText MatterMore MatterThms Counter CounterThms Prims PrimsFacts PrimsThms
  Json JsonFacts TholderFacts Common SpecSaider CommonFacts Saider SaiderFacts Sadder Pather Spec SpecPrims SpecCounter SpecSadder SadderFacts SpecPather PatherThms SpecStrip.
Import ListNotations.
Open Scope N_scope.

Lemma split_len {A} (u a : list A) e w y b : u ++ e :: w = a ++ y :: b -> len u = len a -> u = a /\ e = y /\ w = b.
Proof.
  revert a. induction u as [|x u IH]; intros [|z a] E L; cbn [app] in E; try (rewrite ?len_cons in L; change (len (@nil A)) with 0 in L; lia).
  - injection E as -> ->. auto.
  - injection E as -> E. rewrite !len_cons in L. destruct (IH a E) as (-> & -> & ->); [lia|]. auto.
Qed.
Lemma strips_inv q x r p : strips q (x :: r) p -> exists a b u e w, strips q r (u ++ e :: w) /\ q = a ++ x :: b /\ ~ In x b /\ len u = len a /\ p = u ++ w.
Proof. intros S. remember (x :: r) as l eqn:E. destruct S as [|r' x' a b u e w S1 S2 S3 S4]; [discriminate|]. injection E as -> ->. exists a, b, u, e, w. auto. Qed.
Lemma strips_nil_inv q p : strips q [] p -> p = q.
Proof. intros S. remember [] as l eqn:E. destruct S; [reflexivity|discriminate]. Qed.
Lemma strips_fun q r : forall x y, strips q r x -> strips q r y -> x = y.
Proof.
  induction r as [|z r IH]; intros x y X Y; [apply strips_nil_inv in X, Y; congruence|]. apply strips_inv in X as (a & b & u & e & w & X1 & X2 & X3 & X4 & ->). apply strips_inv in Y as (a' & b' & u' & e' & w' & Y1 & Y2 & Y3 & Y4 & ->).
  pose proof (IH _ _ X1 Y1) as E. assert (len a = len a') as L.
  { assert (last_index z q = Some (len a)) as A by (apply last_index_spec; eauto). assert (last_index z q = Some (len a')) as B by (apply last_index_spec; eauto). congruence. }
  destruct (split_len _ _ _ _ _ _ E) as (-> & _ & ->); [congruence|]. reflexivity.
Qed.
Lemma cut_at {A} (l : list A) i : i < len l -> exists u e w, l = u ++ e :: w /\ len u = i.
Proof.
  revert i. induction l as [|x l IH]; intros i L; [change (len (@nil A)) with 0 in L; lia|]. rewrite len_cons in L. destruct (N.eq_dec i 0) as [->|N].
  - exists [], x, l. auto.
  - destruct (IH (i - 1)) as (u & e & w & -> & K); [lia|]. exists (x :: u), e, w. split; auto. rewrite len_cons. lia.
Qed.
Lemma remove_strips hm q : (forall t, assoc t hm = last_index t q) -> forall r,
  (exists cur, strips q r cur /\ forall pre, remove_each hm (rev (map VStr (pre ++ r))) (map VStr q) = remove_each hm (rev (map VStr pre)) (map VStr cur)) \/
  ((forall cur, ~ strips q r cur) /\ forall pre, remove_each hm (rev (map VStr (pre ++ r))) (map VStr q) = Panic).
Proof.
  intros H. induction r as [|x r [(cur & S & E)|(N & E)]].
  - left. exists q. split; [constructor|]. intros pre. now rewrite app_nil_r.
  - assert (forall pre, remove_each hm (rev (map VStr (pre ++ x :: r))) (map VStr q) = match last_index x q with Some i => let* path := vec_remove i (map VStr cur) in remove_each hm (rev (map VStr pre)) path | None => Panic end) as F.
    { intros pre. change (pre ++ x :: r) with (pre ++ [x] ++ r). rewrite app_assoc, E, map_app, rev_app_distr. cbn [map rev app remove_each to_string bind]. now rewrite H. }
    destruct (last_index x q) as [i|] eqn:L.
    + assert (len (map VStr cur) = len cur) as LM by (unfold len; now rewrite map_length). pose proof L as L'. apply last_index_spec in L' as (a & b & Q & NI & ->). destruct (len a <? len cur) eqn:C.
      * destruct (cut_at cur (len a)) as (u & e & w & -> & U); [lia|]. left. exists (u ++ w). split; [econstructor; eauto|]. intros pre. rewrite F. unfold vec_remove. rewrite LM, C, bind_Ok, take_map, drop_map.
        rewrite take_app_exact by auto. change (u ++ e :: w) with (u ++ [e] ++ w). rewrite app_assoc, drop_app_exact by (rewrite len_app, U; reflexivity). now rewrite map_app.
      * right. split.
        -- intros c X. apply strips_inv in X as (a' & b' & u & e & w & X1 & X2 & X3 & X4 & ->). pose proof (strips_fun _ _ _ _ S X1) as ->. assert (last_index x q = Some (len a')) as B by (apply last_index_spec; eauto). rewrite L in B. injection B as B.
           rewrite len_app, len_cons in C. lia.
        -- intros pre. rewrite F. unfold vec_remove. rewrite LM, C. reflexivity.
    + right. split; [|intros pre; now rewrite F]. intros c X. apply strips_inv in X as (a' & b' & u & e & w & X1 & X2 & X3 & X4 & ->). assert (last_index x q = Some (len a')) as B by (apply last_index_spec; eauto). congruence.
  - right. split.
    + intros c X. apply strips_inv in X as (a & b & u & e & w & X1 & _). eapply N; eauto.
    + intros pre. change (pre ++ x :: r) with (pre ++ [x] ++ r). rewrite app_assoc. apply E.
Qed.
Lemma strips_in q r p : strips q r p -> len (dashed p) <= len (dashed q) /\ forall e, In e p -> In e q.
Proof.
  induction 1 as [|r x a b u e w S (I1 & I2)]; [split; [lia|auto]|]. split.
  - rewrite dashed_app, dashed_cons, len_app, len_cons, len_app in I1. rewrite dashed_app, len_app. lia.
  - intros z Z. apply I2. apply in_app_or in Z as [Z|Z]; apply in_or_app; [now left|right; now right].
Qed.

(*# C73_strip_exactly
   The outcome of stripping any root from any path: nothing is done if the root is longer; otherwise each element of the root, from the last, takes away what stands
   where it last stood, and the text of what is left is the path made; it has those elements exactly if they can be told apart. If an element of the root is missing, or
   it stood after what is left, stripping panics.
##
Example C73_strip_case : exists p r m, pather_of_bext (s! "-a-b-a") = Ok p /\ pather_of_bext (s! "-a") = Ok r /\ elements p [s! "a"; s! "b"; s! "a"] /\ elements r [s! "a"] /\
  strips [s! "a"; s! "b"; s! "a"] [s! "a"] [s! "a"; s! "b"] /\ path_strip p r = Ok m /\ elements m [s! "a"; s! "b"].
Proof.
  eexists. eexists. eexists. split; [vm_compute; reflexivity|]. split; [vm_compute; reflexivity|]. split; [vm_compute; reflexivity|]. split; [vm_compute; reflexivity|]. split.
  - apply (strips_one _ _ _ [s! "a"; s! "b"] [] [s! "a"; s! "b"] (s! "a") []); [constructor|reflexivity|intros []|reflexivity].
  - split; [vm_compute; reflexivity|]. vm_compute; reflexivity.
Qed.
#*)
Lemma C73_exactly_l (self root : matter) (q r : list bytes) : elements self q -> elements root r -> len (path_text q) <= 67108860 ->
  (len q < len r -> path_strip self root = Ok self) /\
  (len r <= len q -> (forall p, ~ strips q r p) -> path_strip self root = Panic) /\
  (forall p, len r <= len q -> strips q r p ->
     (Forall (over base64url_alphabet) p -> exists m, path_strip self root = Ok m /\ bext_of m = Ok (path_text p) /\ (elements m p <-> separable p)) /\
     (~ Forall (over base64url_alphabet) p -> is_err (path_strip self root) = true)).
Proof.
  intros Q RR LQ. assert (path_strip self root = (let* hashmap := positions 0 (map VStr q) [] in if len (map VStr q) <? len (map VStr r) then Ok self
    else let* path := remove_each hashmap (rev (map VStr r)) (map VStr q) in pather_of_path (VArr path))) as ->.
  { unfold path_strip. rewrite RR, bind_Ok. cbn [to_vec bind]. rewrite Q. reflexivity. }
  destruct (positions_eq q 0 []) as (hm & -> & A). rewrite bind_Ok. assert (forall l : list bytes, len (map VStr l) = len l) as LM by (intros; unfold len; now rewrite map_length). rewrite !LM.
  assert (forall t, assoc t hm = last_index t q) as H by (intros t; rewrite A; destruct (last_index t q); reflexivity).
  split; [intros L; now replace (len q <? len r) with true by lia|]. split.
  - intros L N. replace (len q <? len r) with false by lia. destruct (remove_strips _ _ H r) as [(cur & S & _)|(_ & E)]; [now apply N in S|]. pose proof (E []) as E'. cbn [app] in E'. now rewrite E'.
  - intros p L S. replace (len q <? len r) with false by lia. destruct (remove_strips _ _ H r) as [(cur & S' & E)|(N & _)]; [|now apply N in S]. pose proof (strips_fun _ _ _ _ S S') as <-.
    pose proof (E []) as E'. cbn [app map rev remove_each] in E'. rewrite E', bind_Ok. split.
    + intros O. assert (len (path_text p) <= 67108860) as LP.
      { destruct (strips_in _ _ _ S) as (W & I). destruct p as [|e p]; [vm_compute; discriminate|]. rewrite concat_text by discriminate. fold (dashed (e :: p)). destruct q as [|e' q]; [destruct (I e); now left|]. rewrite concat_text in LQ by discriminate. fold (dashed (e' :: q)) in LQ. lia. }
      rewrite (of_path_eq _ _ (str_texts _ O)). destruct (texts_built _ O LP) as (m & _ & _ & B & _ & X & _). exists m. split; auto. split; auto. rewrite (elements_eq m _ _ X). split; [apply read_separable|apply read_text].
    + intros NO. unfold pather_of_path. destruct (element_texts (map VStr p)) as [els| |] eqn:T.
      * exfalso. destruct (element_texts_inv (map VStr p)) with (els := els) as (F & O); auto.
        { intros z Z. apply in_map_iff in Z as (? & ? & _). discriminate. }
        apply NO. assert (els = p) as ->; auto. clear - F. revert els F. induction p as [|e p IH]; intros els F; inversion F as [|? t ? l N F']; subst; [reflexivity|]. f_equal; [|now apply IH]. destruct N as [[= ->]|(z & Z & _)]; [reflexivity|discriminate].
      * unfold pather_new, bextify. cbn [is_none andb or_else to_vec]. rewrite bind_Ok, T. reflexivity.
      * now apply element_texts_np in T.
Qed.
