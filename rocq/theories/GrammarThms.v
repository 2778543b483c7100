(** Reading JSON: exactly the texts of the grammar are read, as the values they denote (C118). *)
From Coq Require Import String.
From Coq Require Import NArith ZArith Lia Bool List.
From Verif Require Import Base BaseFacts Util Prims PrimsFacts Json JsonFacts JsonThms SpecJson SpecPrims SpecCounter SpecGrammar GrammarFacts.
Import ListNotations.
Open Scope N_scope.

Ltac flat := change (s! """") with [x22]; change (s! ":") with [x3a]; change (s! ",") with [x2c]; repeat rewrite <- app_assoc; cbn [app]; repeat rewrite <- app_assoc; cbn [app]; repeat rewrite <- app_assoc; reflexivity.
Section Canon.
Variable canon : bytes -> option bytes.

(** ** Soundness *)
Lemma plit_split lit j s x r : plit lit j s = Ok (x, r) -> s = lit ++ r /\ x = j.
Proof.
  unfold plit. destruct (beq _ _) eqn:B; [|discriminate]. intros [= <- <-]. split; auto. apply beq_eq in B. rewrite <- B at 1. symmetry. apply firstn_skipn.
Qed.
Lemma blank_app w t : blank w -> blank t -> blank (w ++ t).
Proof. intros X Y c I. apply in_app_iff in I as [I|I]; auto. Qed.
Lemma elements_blank n w t l : blank w -> elements canon n t l -> elements canon n (w ++ t) l.
Proof. intros B E. destruct E as [n w1 t w' j B1 D B'|n w1 t w' j r l B1 D B' E]; rewrite (app_assoc w w1); constructor; auto using blank_app. Qed.
Lemma members_blank n w t l : blank w -> members canon n t l -> members canon n (w ++ t) l.
Proof. intros B E. destruct E as [n w0 b k w1 w2 t w3 j B0 C U B1 B2 D B3|n w0 b k w1 w2 t w3 j r l B0 C U B1 B2 D B3 E]; rewrite (app_assoc w w0); constructor; auto using blank_app. Qed.
Lemma reads f : (forall n s j r, pval canon f (S n) s = Ok (j, r) -> exists w t, s = w ++ t ++ r /\ blank w /\ document canon n t j) /\
  (forall n s l r, parr canon f (S n) s = Ok (l, r) -> exists t, s = t ++ x5d :: r /\ elements canon n t l) /\
  (forall n acc s l r, pobj canon f (S n) acc s = Ok (l, r) -> exists t ms, s = t ++ x7d :: r /\ members canon n t ms /\ l = fold_left put ms acc).
Proof.
  induction f as [|f (IH1 & IH2 & IH3)]; [repeat split; intros; discriminate|]. split; [|split].
  - intros n s j r H. rewrite pval_step in H. destruct (skip_split s) as (w & B & E). destruct (skip_ws s) as [|c q]; [discriminate|]. exists w.
    assert (forall t, c :: q = t ++ r -> document canon n t j -> exists t0, s = w ++ t0 ++ r /\ blank w /\ document canon n t0 j) as G by (intros t T D; exists t; rewrite <- T; auto).
    destruct (Byte.eqb c x6e) eqn:C1; [apply byte_eqb_eq in C1; subst c; apply plit_split in H as (-> & ->); apply (G (s! "null")); [reflexivity|constructor]|].
    destruct (Byte.eqb c x74) eqn:C2; [apply byte_eqb_eq in C2; subst c; apply plit_split in H as (-> & ->); apply (G (s! "true")); [reflexivity|constructor]|].
    destruct (Byte.eqb c x66) eqn:C3; [apply byte_eqb_eq in C3; subst c; apply plit_split in H as (-> & ->); apply (G (s! "false")); [reflexivity|constructor]|].
    destruct (Byte.eqb c x2d) eqn:C4; [apply byte_eqb_eq in C4; subst c; apply pnum_split in H as (t & -> & N); apply (G (x2d :: t)); [reflexivity|]; constructor; exact N|].
    destruct (is_digit c) eqn:C5; [apply pnum_split in H as (t & T & N); apply (G t); [exact T|]; constructor; exact N|].
    destruct (Byte.eqb c x22) eqn:C6.
    { apply byte_eqb_eq in C6; subst c. apply bind_ok in H as ((t & q') & P & H). injection H as <- <-. cbn [fst snd] in *. apply pstring_split in P as (b & -> & CH & U). apply (G (x22 :: b ++ [x22])); [cbn [app]; now rewrite <- app_assoc|now apply doc_string]. }
    destruct (Byte.eqb c x5b) eqn:C7.
    { apply byte_eqb_eq in C7; subst c. destruct n as [|n]; [discriminate|]. destruct (eat x5d (skip_ws q)) as [r'|] eqn:EA.
      - injection H as <- <-. apply eat_skip in EA as (w' & B' & ->). apply (G (x5b :: w' ++ [x5d])); [cbn [app]; now rewrite <- app_assoc|now apply doc_empty].
      - apply bind_ok in H as ((l & q') & P & H). injection H as <- <-. cbn [fst snd] in *. apply IH2 in P as (t & T & EL). destruct (skip_split q) as (w' & B' & E').
        apply (G (x5b :: (w' ++ t) ++ [x5d])); [cbn [app]; rewrite E', T; now rewrite <- !app_assoc|]. apply (doc_array canon n (w' ++ t)). now apply elements_blank. }
    destruct (Byte.eqb c x7b) eqn:C8; [|discriminate].
    apply byte_eqb_eq in C8; subst c. destruct n as [|n]; [discriminate|]. destruct (eat x7d (skip_ws q)) as [r'|] eqn:EA.
    + injection H as <- <-. apply eat_skip in EA as (w' & B' & ->). apply (G (x7b :: w' ++ [x7d])); [cbn [app]; now rewrite <- app_assoc|now apply doc_none].
    + apply bind_ok in H as ((l & q') & P & H). injection H as <- <-. cbn [fst snd] in *. apply IH3 in P as (t & ms & T & EL & ->). destruct (skip_split q) as (w' & B' & E').
      apply (G (x7b :: (w' ++ t) ++ [x7d])); [cbn [app]; rewrite E', T; now rewrite <- !app_assoc|]. apply (doc_object canon n (w' ++ t) ms); [|apply put_merges]. now apply members_blank.
  - intros n s l r H. rewrite parr_step in H. apply bind_ok in H as ((j & q) & P & H). cbn [fst snd] in H. apply IH1 in P as (w & t & -> & B & D).
    destruct (eat x5d (skip_ws q)) as [r'|] eqn:E; [injection H as <- <-; apply eat_skip in E as (w' & B' & ->); exists (w ++ t ++ w'); split; [now rewrite <- !app_assoc|now constructor]|].
    destruct (eat x2c (skip_ws q)) as [r'|] eqn:E2; [|discriminate]. apply eat_skip in E2 as (w' & B' & ->). apply bind_ok in H as ((l' & q') & P & H). injection H as <- <-. cbn [fst snd] in *.
    apply IH2 in P as (t' & -> & EL). exists (w ++ t ++ w' ++ s! "," ++ t'). split; [rewrite <- !app_assoc; reflexivity|now constructor].
  - intros n acc s l r H. rewrite pobj_step in H. destruct (eat x22 (skip_ws s)) as [q0|] eqn:E0; [|discriminate]. apply eat_skip in E0 as (w & B & ->).
    apply bind_ok in H as ((k & q) & P & H). cbn [fst snd] in H. apply pstring_split in P as (b & -> & CH & U). destruct (eat x3a (skip_ws q)) as [q1|] eqn:E1; [|discriminate]. apply eat_skip in E1 as (w1 & B1 & ->).
    apply bind_ok in H as ((j & q2) & P & H). cbn [fst snd] in H. apply IH1 in P as (w2 & t & -> & B2 & D).
    destruct (eat x7d (skip_ws q2)) as [r'|] eqn:E.
    + injection H as <- <-. apply eat_skip in E as (w3 & B3 & ->). exists (w ++ s! """" ++ b ++ s! """" ++ w1 ++ s! ":" ++ w2 ++ t ++ w3), [(k, j)]. split; [flat|]. split; [now constructor|reflexivity].
    + destruct (eat x2c (skip_ws q2)) as [r'|] eqn:E2; [|discriminate]. apply eat_skip in E2 as (w3 & B3 & ->). apply IH3 in H as (t' & ms & -> & EL & ->).
      exists (w ++ s! """" ++ b ++ s! """" ++ w1 ++ s! ":" ++ w2 ++ t ++ w3 ++ s! "," ++ t'), ((k, j) :: ms). split; [flat|]. split; [now constructor|reflexivity].
Qed.

(** ** Completeness *)
Lemma number_first t j : number canon t j -> exists c r, t = c :: r /\ (c = x2d \/ is_digit c = true).
Proof.
  assert (forall t n x, whole t n -> exists c r, t ++ x = c :: r /\ is_digit c = true) as W.
  { intros u n x W. apply whole_digits in W as (F & _ & B). destruct u as [|c u]; [discriminate|]. cbn [forallb] in F. apply andb_true_iff in F as (F & _). exists c, (u ++ x). auto. }
  intros H. destruct H as [t n H _|t n H _|sign t n fr ex x S H _ _ _ _].
  - destruct (W t n [] H) as (c & r & E & D). rewrite app_nil_r in E. exists c, r. auto.
  - exists x2d, t. auto.
  - destruct S as [<-|[<-|[]]]; [|exists x2d, (t ++ fr ++ ex); auto]. destruct (W t n (fr ++ ex) H) as (c & r & E & D). exists c, r. auto.
Qed.
Lemma document_first n t j : document canon n t j -> exists c r, t = c :: r /\ is_ws c = false /\ c <> x5d /\ c <> x7d.
Proof.
  intros H. destruct H as [n|n|n|n t j H|n b s C U|n w B|n t l E|n w B|n t l m M E].
  1-3, 5-9: eexists _, _; split; [reflexivity|repeat split; discriminate].
  apply number_first in H as (c & r & -> & [->|D]); eexists _, _; (split; [reflexivity|]); [repeat split; discriminate|]. split; [now apply digit_nows|]. split; intros ->; discriminate.
Qed.
Lemma elements_first n t l : elements canon n t l -> exists w c r, t = w ++ c :: r /\ blank w /\ is_ws c = false /\ c <> x5d.
Proof.
  intros H. destruct H as [n w t w' j B D B'|n w t w' j r l B D B' E]; destruct (document_first _ _ _ D) as (c & q & -> & W & N & _).
  - exists w, c, (q ++ w'). auto.
  - exists w, c, (q ++ w' ++ s! "," ++ r). auto.
Qed.
Lemma members_first n t l : members canon n t l -> exists w r, t = w ++ x22 :: r /\ blank w.
Proof. intros H. destruct H; eexists w, _; (split; [reflexivity|auto]). Qed.
Lemma blank_stop w c r : blank w -> (c = x2c \/ c = x5d \/ c = x7d) -> stop (w ++ c :: r).
Proof.
  intros B C. destruct w as [|x w]; [destruct C as [->|[->| ->]]; repeat split; discriminate|]. assert (In x [x20; x09; x0a; x0d]) as I by (apply B; now left). cbn [app stop]. destruct I as [<-|[<-|[<-|[<-|[]]]]]; repeat split; discriminate.
Qed.
Lemma blank_end w : blank w -> stop w.
Proof.
  intros B. destruct w as [|x w]; [exact I|]. assert (In x [x20; x09; x0a; x0d]) as I by (apply B; now left). cbn [app stop]. destruct I as [<-|[<-|[<-|[<-|[]]]]]; repeat split; discriminate.
Qed.
Lemma pval_blank f d w s : blank w -> pval canon f d (w ++ s) = pval canon f d s.
Proof. intros B. destruct f as [|f]; [reflexivity|]. rewrite !pval_step. now rewrite skip_blank. Qed.
Lemma parr_skip f d s : parr canon f d (skip_ws s) = parr canon f d s.
Proof. destruct f as [|f]; [reflexivity|]. rewrite !parr_step. assert (pval canon f d (skip_ws s) = pval canon f d s) as ->; auto. destruct f as [|f]; [reflexivity|]. rewrite !pval_step. now rewrite skip_skip. Qed.
Lemma pobj_skip f d acc s : pobj canon f d acc (skip_ws s) = pobj canon f d acc s.
Proof. destruct f as [|f]; [reflexivity|]. rewrite !pobj_step. now rewrite skip_skip. Qed.
Lemma number_read t j : number canon t j -> forall f d rest, stop rest -> pval canon (S f) d (t ++ rest) = Ok (j, rest).
Proof.
  intros H f d rest ST. rewrite pval_step.
  assert (forall neg u n fr ex, whole u n -> match skip_ws (sign_of neg ++ (u ++ fr ++ ex) ++ rest) with
    | [] => Err EForeign
    | c :: r =>
      if Byte.eqb c x6e then plit (s! "ull") JNull r else if Byte.eqb c x74 then plit (s! "rue") (JBool true) r else if Byte.eqb c x66 then plit (s! "alse") (JBool false) r
      else if Byte.eqb c x2d then pnum canon true r else if is_digit c then pnum canon false (c :: r) else Err EForeign end = pnum canon neg (u ++ fr ++ ex ++ rest) /\
      (exists c r, skip_ws (sign_of neg ++ (u ++ fr ++ ex) ++ rest) = c :: r /\ (Byte.eqb c x2d = true \/ is_digit c = true))) as G.
  { intros neg u n fr ex W. rewrite <- !app_assoc. destruct neg.
    - change (sign_of true ++ u ++ fr ++ ex ++ rest) with (x2d :: u ++ fr ++ ex ++ rest). rewrite skip_ws_nows by reflexivity. split; [reflexivity|]. eauto.
    - cbn [sign_of app]. apply whole_digits in W as (F & _ & B). destruct u as [|c u]; [discriminate|]. cbn [forallb] in F. apply andb_true_iff in F as (F & _). cbn [app]. rewrite skip_ws_nows by now apply digit_nows.
      rewrite !(digit_neq _ _ F) by reflexivity. rewrite F. split; eauto. }
  assert (forall neg u n fr ex, whole u n -> forall X, pnum canon neg (u ++ fr ++ ex ++ rest) = X -> match skip_ws (sign_of neg ++ (u ++ fr ++ ex) ++ rest) with
    | [] => Err EForeign
    | c :: r =>
      if Byte.eqb c x6e then plit (s! "ull") JNull r else if Byte.eqb c x74 then plit (s! "rue") (JBool true) r else if Byte.eqb c x66 then plit (s! "alse") (JBool false) r
      else if Byte.eqb c x2d then pnum canon true r else if is_digit c then pnum canon false (c :: r)
      else if Byte.eqb c x22 then let* t := pstring r in Ok (JStr (fst t), snd t)
      else if Byte.eqb c x5b then match d with S (S _ as d) => match eat x5d (skip_ws r) with Some r' => Ok (JArr [], r') | None => let* t := parr canon f d (skip_ws r) in Ok (JArr (fst t), snd t) end | _ => Err EForeign end
      else if Byte.eqb c x7b then match d with S (S _ as d) => match eat x7d (skip_ws r) with Some r' => Ok (JObj [], r') | None => let* t := pobj canon f d [] (skip_ws r) in Ok (JObj (fst t), snd t) end | _ => Err EForeign end
      else Err EForeign end = X) as K.
  { intros neg u n fr ex W X E. destruct (G neg u n fr ex W) as (G1 & (c & r & G2 & G3)). rewrite E in G1. rewrite G2 in *. destruct (Byte.eqb c x6e); auto. destruct (Byte.eqb c x74); auto. destruct (Byte.eqb c x66); auto.
    destruct (Byte.eqb c x2d); auto. destruct G3 as [G3|G3]; [discriminate|]. rewrite G3 in *. auto. }
  change (2 ^ 64) with 18446744073709551616 in *. change (2 ^ 63) with 9223372036854775808 in *.
  destruct H as [t n W L|t n W L|sign t n fr ex x S W FR EX C CX].
  - pose proof (K false t n [] [] W (Ok (JPos n, rest))) as K'. cbn [sign_of app] in K'. rewrite app_nil_r in K'. apply K'. pose proof (pnum_whole canon false t n [] [] rest W (or_introl eq_refl) (or_introl eq_refl) ST) as P. cbn [app] in P. rewrite P.
    change (2 ^ 64) with 18446744073709551616 in L. unfold u64_max. replace (_ <? n) with false by lia. reflexivity.
  - pose proof (K true t n [] [] W (Ok (JNeg n, rest))) as K'. cbn [sign_of app] in K'. rewrite app_nil_r in K'. rewrite <- app_assoc. apply K'. pose proof (pnum_whole canon true t n [] [] rest W (or_introl eq_refl) (or_introl eq_refl) ST) as P. cbn [app] in P. rewrite P.
    change (2 ^ 63) with 9223372036854775808 in L. unfold u64_max, i64_min_abs. replace (_ <? n) with false by lia. replace ((n =? 0) || _) with false by lia. reflexivity.
  - assert (exists neg, sign = sign_of neg) as (neg & ->) by (destruct S as [<-|[<-|[]]]; [exists false|exists true]; reflexivity). rewrite <- app_assoc. apply (K neg t n fr ex W). rewrite (pnum_whole canon neg t n fr ex rest W FR EX ST).
    assert (forall u, u = sign_of neg ++ t ++ fr ++ ex -> pfloat canon u rest = Ok (JFloat x, rest)) as PF by (intros u ->; unfold pfloat; now rewrite CX).
    destruct fr as [|c fr]; [destruct ex as [|e ex]|]; [|now apply PF|now apply PF]. change (2 ^ 64) with 18446744073709551616 in *. change (2 ^ 63) with 9223372036854775808 in *.
    assert (pfloat canon (sign_of neg ++ t) rest = Ok (JFloat x, rest)) as P by (apply PF; cbn [app]; now rewrite app_nil_r). unfold u64_max, i64_min_abs. destruct (_ <? n) eqn:U; auto.
    destruct C as [C|[C|[(C & M)|(C & M)]]]; try congruence; destruct neg; try discriminate C; [lia|]. destruct ((n =? 0) || _) eqn:Z; auto. exfalso. apply orb_false_iff in Z as (Z1 & Z2). lia.
Qed.

Scheme document_mut := Induction for document Sort Prop with elements_mut := Induction for elements Sort Prop with members_mut := Induction for members Sort Prop.
Definition read_doc (n : nat) (t : bytes) (j : jval) : Prop := forall f rest, stop rest -> (2 * length t <= f)%nat -> pval canon f (S n) (t ++ rest) = Ok (j, rest).
Definition read_els (n : nat) (t : bytes) (l : list jval) : Prop := forall f rest, (2 * length t + 1 <= f)%nat -> parr canon f (S n) (t ++ x5d :: rest) = Ok (l, rest).
Definition read_mem (n : nat) (t : bytes) (l : list (bytes * jval)) : Prop := forall f acc rest, (2 * length t + 1 <= f)%nat -> pobj canon f (S n) acc (t ++ x7d :: rest) = Ok (fold_left put l acc, rest).
Lemma document_read n t j : document canon n t j -> read_doc n t j.
Proof.
  revert n t j. apply (document_mut canon (fun n t j _ => read_doc n t j) (fun n t l _ => read_els n t l) (fun n t l _ => read_mem n t l)).
  - intros n f rest ST F. destruct f as [|f]; [cbn in F; lia|]. rewrite pval_step. reflexivity.
  - intros n f rest ST F. destruct f as [|f]; [cbn in F; lia|]. rewrite pval_step. reflexivity.
  - intros n f rest ST F. destruct f as [|f]; [cbn in F; lia|]. rewrite pval_step. reflexivity.
  - intros n t j N f rest ST F. destruct f as [|f]; [apply number_first in N as (c & r & -> & _); cbn in F; lia|]. now apply number_read.
  - intros n b s C U f rest ST F. destruct f as [|f]; [cbn in F; lia|]. rewrite pval_step. change ((s! """" ++ b ++ s! """") ++ rest) with (x22 :: (b ++ [x22]) ++ rest). rewrite <- app_assoc. cbn [app]. rewrite skip_ws_nows by reflexivity.
    cbn [Byte.eqb]. change (is_digit x22) with false. change (Byte.eqb x22 x22) with true. change (Byte.eqb x22 x6e) with false. change (Byte.eqb x22 x74) with false. change (Byte.eqb x22 x66) with false. change (Byte.eqb x22 x2d) with false. cbv iota.
    assert (pstring (b ++ x22 :: rest) = Ok (s, rest)) as -> by (apply pstring_split; eauto). reflexivity.
  - intros n w B f rest ST F. destruct f as [|f]; [cbn in F; lia|]. rewrite pval_step. change ((s! "[" ++ w ++ s! "]") ++ rest) with (x5b :: (w ++ [x5d]) ++ rest). rewrite <- app_assoc. cbn [app]. rewrite skip_ws_nows by reflexivity.
    change (is_digit x5b) with false. change (Byte.eqb x5b x22) with false. change (Byte.eqb x5b x6e) with false. change (Byte.eqb x5b x74) with false. change (Byte.eqb x5b x66) with false. change (Byte.eqb x5b x2d) with false. change (Byte.eqb x5b x5b) with true. cbv iota.
    rewrite skip_eat by auto. reflexivity.
  - intros n t l E IH f rest ST F. destruct f as [|f]; [cbn in F; lia|]. rewrite pval_step. change ((s! "[" ++ t ++ s! "]") ++ rest) with (x5b :: (t ++ [x5d]) ++ rest). rewrite <- app_assoc. cbn [app]. rewrite skip_ws_nows by reflexivity.
    change (is_digit x5b) with false. change (Byte.eqb x5b x22) with false. change (Byte.eqb x5b x6e) with false. change (Byte.eqb x5b x74) with false. change (Byte.eqb x5b x66) with false. change (Byte.eqb x5b x2d) with false. change (Byte.eqb x5b x5b) with true. cbv iota.
    rewrite parr_skip, IH by (rewrite !app_length in F; cbn in F; lia). destruct (elements_first _ _ _ E) as (w & c & r & -> & B & W & N). rewrite <- app_assoc. cbn [app]. rewrite skip_not by auto. reflexivity.
  - intros n w B f rest ST F. destruct f as [|f]; [cbn in F; lia|]. rewrite pval_step. change ((s! "{" ++ w ++ s! "}") ++ rest) with (x7b :: (w ++ [x7d]) ++ rest). rewrite <- app_assoc. cbn [app]. rewrite skip_ws_nows by reflexivity.
    change (is_digit x7b) with false. change (Byte.eqb x7b x22) with false. change (Byte.eqb x7b x6e) with false. change (Byte.eqb x7b x74) with false. change (Byte.eqb x7b x66) with false. change (Byte.eqb x7b x2d) with false. change (Byte.eqb x7b x5b) with false. change (Byte.eqb x7b x7b) with true. cbv iota.
    rewrite skip_eat by auto. reflexivity.
  - intros n t l m E IH M f rest ST F. destruct f as [|f]; [cbn in F; lia|]. rewrite pval_step. change ((s! "{" ++ t ++ s! "}") ++ rest) with (x7b :: (t ++ [x7d]) ++ rest). rewrite <- app_assoc. cbn [app]. rewrite skip_ws_nows by reflexivity.
    change (is_digit x7b) with false. change (Byte.eqb x7b x22) with false. change (Byte.eqb x7b x6e) with false. change (Byte.eqb x7b x74) with false. change (Byte.eqb x7b x66) with false. change (Byte.eqb x7b x2d) with false. change (Byte.eqb x7b x5b) with false. change (Byte.eqb x7b x7b) with true. cbv iota.
    rewrite pobj_skip, IH by (rewrite !app_length in F; cbn in F; lia). apply merges_put in M. subst m. destruct (members_first _ _ _ E) as (w & r & -> & B). rewrite <- app_assoc. cbn [app]. rewrite skip_not by (auto; discriminate). reflexivity.
  - intros n w t w' j B D IH B' f rest F. destruct f as [|f]; [lia|]. rewrite parr_step, <- !app_assoc, pval_blank by auto. rewrite IH; [|apply blank_stop; auto|rewrite !app_length in F; lia].
    rewrite bind_Ok. cbn [fst snd]. rewrite skip_eat by auto. reflexivity.
  - intros n w t w' j r l B D IH B' E IHE f rest F. destruct f as [|f]; [lia|]. rewrite !app_length in F. cbn [length list_byte_of_string] in F. change (length (s! ",")) with 1%nat in F.
    rewrite parr_step, <- !app_assoc, pval_blank by auto. change (s! "," ++ r ++ x5d :: rest) with (x2c :: r ++ x5d :: rest). rewrite IH; [|apply blank_stop; auto|lia].
    rewrite bind_Ok. cbn [fst snd]. rewrite skip_not by (auto; discriminate). rewrite skip_eat by auto. rewrite IHE; [reflexivity|]. destruct (document_first _ _ _ D) as (c & q & -> & _). cbn [length] in F. lia.
  - intros n w b k w1 w2 t w3 j B C U B1 B2 D IH B3 f acc rest F. destruct f as [|f]; [lia|]. rewrite !app_length in F. change (length (s! """")) with 1%nat in F. change (length (s! ":")) with 1%nat in F.
    rewrite pobj_step. change (s! """") with [x22]. change (s! ":") with [x3a]. rewrite <- !app_assoc. cbn [app]. rewrite skip_eat by auto. assert (forall r, pstring (b ++ x22 :: r) = Ok (k, r)) as P by (intros r; apply pstring_split; eauto).
    rewrite P, bind_Ok. cbn [fst snd]. rewrite skip_eat by auto. rewrite pval_blank by auto. rewrite IH; [|apply blank_stop; auto|lia]. rewrite bind_Ok. cbn [fst snd]. rewrite skip_eat by auto. reflexivity.
  - intros n w b k w1 w2 t w3 j r l B C U B1 B2 D IH B3 E IHE f acc rest F. destruct f as [|f]; [lia|]. rewrite !app_length in F. change (length (s! """")) with 1%nat in F. change (length (s! ":")) with 1%nat in F. change (length (s! ",")) with 1%nat in F.
    rewrite pobj_step. change (s! """") with [x22]. change (s! ":") with [x3a]. change (s! ",") with [x2c]. rewrite <- !app_assoc. cbn [app]. rewrite skip_eat by auto. assert (forall r, pstring (b ++ x22 :: r) = Ok (k, r)) as P by (intros q; apply pstring_split; eauto).
    rewrite P, bind_Ok. cbn [fst snd]. rewrite skip_eat by auto. rewrite pval_blank by auto. rewrite IH; [|apply blank_stop; auto|lia]. rewrite bind_Ok. cbn [fst snd]. rewrite skip_not by (auto; discriminate). rewrite skip_eat by auto. rewrite IHE by lia. reflexivity.
Qed.

Lemma pjson_text t j : pjson canon t = Ok j <-> text_of canon t j.
Proof.
  unfold pjson, text_of. split.
  - intros H. apply bind_ok in H as ((j' & r) & P & H). cbn [fst snd] in H. destruct (skip_ws r) eqn:S; [|discriminate]. injection H as ->. apply (proj1 (reads _)) in P as (w & d & -> & B & D).
    exists w, d, r. split; auto. split; auto. split; auto. destruct (skip_split r) as (w' & B' & ->). rewrite S, app_nil_r. exact B'.
  - intros (w & d & w' & -> & B & D & B'). rewrite pval_blank by auto. rewrite (document_read _ _ _ D); [|now apply blank_end|rewrite !app_length; lia]. rewrite bind_Ok. cbn [fst snd].
    rewrite <- (app_nil_r w'), skip_blank by auto. reflexivity.
Qed.
Lemma text_wf t j : text_of canon t j -> jwf j.
Proof. intros H. apply pjson_text in H. unfold pjson in H. apply bind_ok in H as ((j' & r) & P & H). cbn [fst snd] in H. destruct (skip_ws r); [|discriminate]. injection H as <-. now apply (proj1 (psound canon _)) in P as (W & _). Qed.
End Canon.

(** ** Loading *)
Lemma ogo_arr_loads l vs : Forall (fun j => forall v, of_json j = Ok v <-> loads j v) l -> (ogo_arr l = Ok vs <-> Forall2 loads l vs).
Proof.
  intros H. revert vs. induction H as [|j l J _ IH]; intros vs; cbn [ogo_arr]; fold ogo_arr.
  - split; [intros [= <-]; constructor|intros F; inversion F; reflexivity].
  - split.
    + intros E. apply bind_ok in E as (v & A & E). apply bind_ok in E as (us & B & E). injection E as <-. constructor; [now apply J|now apply IH].
    + intros F. inversion F as [|? v ? us A B]; subst. apply J in A. apply IH in B. now rewrite A, bind_Ok, B, bind_Ok.
Qed.
Lemma ogo_obj_loads m : Forall (fun kv => forall v, of_json (snd kv) = Ok v <-> loads (snd kv) v) m -> forall acc vs, NoDup (map fst m) -> (forall k, In k (map fst acc) -> ~ In k (map fst m)) ->
  (ogo_obj m acc = Ok vs <-> exists us, vs = acc ++ us /\ map fst m = map fst us /\ Forall2 loads (map snd m) (map snd us)).
Proof.
  intros H. induction H as [|(k, j) m J _ IH]; intros acc vs N D; cbn [ogo_obj]; fold ogo_obj.
  - split; [intros [= <-]; exists []; rewrite app_nil_r; repeat split; constructor|]. intros (us & -> & E & _). destruct us; [|discriminate]. now rewrite app_nil_r.
  - cbn [map fst snd] in *. inversion N as [|? ? N1 N2]; subst. assert (~ In k (map fst acc)) as NK by (intros I; apply (D k I); now left).
    assert (forall v, forall k', In k' (map fst (acc ++ [(k, v)])) -> ~ In k' (map fst m)) as D'.
    { intros v k' I X. rewrite map_app in I. apply in_app_iff in I as [I|[<-|[]]]; [apply (D k' I); now right|contradiction]. }
    split.
    + intros E. apply bind_ok in E as (v & A & E). rewrite insert_new in E by auto. apply IH in E as (us & -> & K & F); [|auto|apply D']. exists ((k, v) :: us). split; [now rewrite <- app_assoc|]. cbn [map fst snd]. split; [now f_equal|]. constructor; auto. now apply J.
    + intros (us & -> & K & F). destruct us as [|(k', v) us]; [discriminate|]. cbn [map fst snd] in *. injection K as <- K. inversion F as [|? ? ? ? A B]; subst. apply J in A. rewrite A, bind_Ok, insert_new by auto.
      apply IH; [auto|apply D'|]. exists us. split; [now rewrite <- app_assoc|]. auto.
Qed.
Lemma loads_iff j : jwf j -> forall v, of_json j = Ok v <-> loads j v.
Proof.
  induction j as [|b|n|n|t|s|l IH|m IH] using jval_ind'; intros W v.
  - split; [intros [= <-]; constructor|intros H; inversion H; reflexivity].
  - split; [intros [= <-]; constructor|intros H; inversion H; reflexivity].
  - cbn [of_json]. unfold i64_max. change (2 ^ 63) with 9223372036854775808 in *. split.
    + destruct (_ <=? _) eqn:E; [|discriminate]. intros [= <-]. constructor. change (2 ^ 63) with 9223372036854775808. lia.
    + intros H. inversion H as [| |? L| | | | |]; subst. change (2 ^ 63) with 9223372036854775808 in L. replace (_ <=? _) with true by lia. reflexivity.
  - split; [intros [= <-]; constructor|intros H; inversion H; reflexivity].
  - cbn [of_json]. split.
    + destruct (existsb _ _) eqn:E; [|discriminate]. intros [= <-]. constructor. apply existsb_exists in E as (x & I & X). apply byte_eqb_eq in X. now subst.
    + intros H. inversion H as [| | | |? I| | |]; subst. assert (existsb (Byte.eqb x2e) t = true) as -> by (apply existsb_exists; exists x2e; split; auto). reflexivity.
  - split; [intros [= <-]; constructor|intros H; inversion H; reflexivity].
  - rewrite of_json_arr. inversion W as [| | | | | |? Wf|]; subst. assert (Forall (fun j => forall v, of_json j = Ok v <-> loads j v) l) as A.
    { rewrite Forall_forall in *. intros x I. apply IH; auto. }
    split.
    + intros H. apply bind_ok in H as (vs & H & E). injection E as <-. constructor. now apply ogo_arr_loads.
    + intros H. inversion H as [| | | | | |? ? F|]; subst. apply ogo_arr_loads in F; auto. now rewrite F.
  - rewrite of_json_obj. inversion W as [| | | | | | |? Wn Wf]; subst. assert (Forall (fun kv => forall v, of_json (snd kv) = Ok v <-> loads (snd kv) v) m) as A.
    { rewrite Forall_forall in *. intros x I. apply IH; auto. apply (Wf x I). }
    pose proof (ogo_obj_loads m A [] ) as O. split.
    + intros H. apply bind_ok in H as (vs & H & E). injection E as <-. apply O in H as (us & -> & K & F); [now constructor|exact Wn|intros k []].
    + intros H. inversion H as [| | | | | | |? vs K F]; subst. assert (ogo_obj m [] = Ok vs) as -> by (apply O; [exact Wn|intros k []|exists vs; auto]). reflexivity.
Qed.

(*# C118_reading_follows_the_grammar
   Exactly which texts are read, and as what: the texts of the JSON grammar with arrays and objects nested at most 127 deep. Every escape denotes its character, integers of
   64 bits are kept exactly, and of a repeated label the last value counts, at the place of the first. Loading panics exactly if a number in the document cannot be loaded. Every other text is an error.
##
Example C118_case : let t := s! " {""a"" : [1, -2,""é😀\/""], ""b"":null ,""a"":true}" in
  value_of_text (fun _ => None) t = Ok (VObj [(s! "a", VBool true); (s! "b", VNull)]) /\ (exists j, text_of (fun _ => None) t j /\ loads j (VObj [(s! "a", VBool true); (s! "b", VNull)])) /\
  value_of_text (fun _ => None) (s! "[01]") = Err EForeign /\ value_of_text (fun _ => None) (s! "18446744073709551615") = Panic.
Proof.
  intros t. assert (value_of_text (fun _ => None) t = Ok (VObj [(s! "a", VBool true); (s! "b", VNull)])) as H by (vm_compute; reflexivity). split; [exact H|]. split; [apply C118_l in H; exact H|]. split; vm_compute; reflexivity.
Qed.
#*)
Lemma C118_l (canon : bytes -> option bytes) (t : bytes) :
  (forall v, value_of_text canon t = Ok v <-> exists j, text_of canon t j /\ loads j v) /\
  (value_of_text canon t = Panic <-> exists j, text_of canon t j /\ unloadable j).
Proof.
  unfold value_of_text. split.
  - intros v. split.
    + intros H. apply bind_ok in H as (j & P & H). apply pjson_text in P. exists j. split; auto. apply loads_iff; auto. eapply text_wf; eauto.
    + intros (j & T & L). apply (loads_iff j (text_wf _ _ _ T)) in L. apply pjson_text in T. now rewrite T.
  - split.
    + intros H. destruct (pjson canon t) as [j| |] eqn:P; [|discriminate|now apply pjson_np in P]. cbn [bind] in H. exists j. split; [now apply pjson_text|now apply of_json_panic].
    + intros (j & T & U). apply pjson_text in T. rewrite T. cbn [bind]. now apply of_json_panic.
Qed.
