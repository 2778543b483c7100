(** Proofs of C99-C100: editing and building data values. *)
From Coq Require Import String.
From Coq Require Import NArith ZArith Bool List Lia ZifyBool ZifyNat ZifyN Permutation.
From Verif Require Import Base BaseFacts Json JsonFacts CommonFacts SaiderFacts SpecJson JsonThms Edit SpecEdit.
Import ListNotations.
Open Scope N_scope.

Definition with_children (v : value) (n : nat) (x : value) : value :=
  match v with
  | VArr l => VArr (set_nth n x l)
  | VObj m => match nth_error m n with Some (k, _) => VObj (set_nth n (k, x) m) | None => v end
  | _ => v
  end.

Lemma nth_set {A} n (x : A) l i : nth_error (set_nth n x l) i = if (i =? n)%nat then (match nth_error l n with Some _ => Some x | None => None end) else nth_error l i.
Proof.
  revert n i. induction l as [|y l IH]; intros [|n] [|i]; cbn [set_nth nth_error Nat.eqb]; auto.
  destruct (i =? n)%nat; auto.
Qed.
Lemma map_set {A B} (f : A -> B) n x l : map f (set_nth n x l) = set_nth n (f x) (map f l).
Proof. revert n. induction l as [|y l IH]; intros [|n]; cbn [set_nth map]; auto. now rewrite IH. Qed.
Lemma set_same {A} n (x : A) l : nth_error l n = Some x -> set_nth n x l = l.
Proof. revert n. induction l as [|y l IH]; intros [|n] H; cbn [set_nth nth_error] in *; auto; [congruence|]. now rewrite IH. Qed.

Lemma children_with v n x l y : nth_error (children v) n = Some (l, y) -> children (with_children v n x) = set_nth n (l, x) (children v).
Proof.
  unfold with_children, children. destruct v; try (intros H; now destruct n).
  - intros H. rewrite nth_error_map in H. destruct (nth_error l0 n) eqn:E; [|discriminate]. injection H as <- <-. now rewrite map_set.
  - intros H. rewrite nth_error_map in H. destruct (nth_error l0 n) as [[k z]|] eqn:E; [|discriminate]. injection H as <- <-. now rewrite map_set.
Qed.
Lemma labels_with v n x l y : nth_error (children v) n = Some (l, y) -> labels (with_children v n x) = labels v.
Proof.
  intros H. unfold labels. rewrite (children_with _ _ _ _ _ H), map_set. cbn [fst]. apply set_same. now rewrite nth_error_map, H.
Qed.
Lemma same_shape_with v n x l y : nth_error (children v) n = Some (l, y) -> same_shape v (with_children v n x).
Proof.
  intros H. pose proof (labels_with v n x l y H) as L. destruct v; try (cbn [children] in H; now destruct n).
  unfold with_children in *. destruct (nth_error l0 n) as [[k z]|]; exact (eq_sym L).
Qed.

Lemma proper_inv v : proper v -> NoDup (match v with VObj m => map fst m | _ => [] end) /\ Forall (fun e => proper (snd e)) (children v).
Proof. intros H. now inversion H. Qed.
Lemma proper_child v n l y : proper v -> nth_error (children v) n = Some (l, y) -> proper y.
Proof. intros P H. apply proper_inv in P as [_ P]. apply nth_error_In in H. rewrite Forall_forall in P. apply (P _ H). Qed.

(** A label names at most one child. *)
Lemma assoc_children m k n x : NoDup (map fst m) -> nth_error (children (VObj m)) n = Some (Some k, x) -> assoc k m = Some x /\ nth_error m n = Some (k, x).
Proof.
  intros D H. cbn [children] in H. rewrite nth_error_map in H. destruct (nth_error m n) as [[k' z]|] eqn:E; [|discriminate].
  cbn [option_map fst snd] in H. injection H as -> ->. split; auto.
  apply nth_error_split in E as (a & b & -> & _). apply assoc_at. rewrite map_app in D. cbn [map fst] in D.
  apply NoDup_remove_2 in D. intros Hin. apply D, in_or_app. auto.
Qed.
Lemma insert_nth (m : list (bytes * value)) k n (x y : value) : NoDup (map fst m) -> nth_error m n = Some (k, x) -> insert k y m = set_nth n (k, y) m.
Proof.
  revert n. induction m as [|[k' z] m IH]; intros [|n] D H; cbn [nth_error insert set_nth] in *; try discriminate.
  - injection H as -> ->. now rewrite beq_refl.
  - cbn [map fst] in D. inversion D as [|? ? N D']; subst. destruct (beq k' k) eqn:E.
    + apply beq_eq in E. subst k'. apply nth_error_In in H. elim N. apply in_map_iff. now exists (k, x).
    + f_equal. eauto.
Qed.
Lemma index_children v s n p y path : proper v -> denotes v (s :: path) (n :: p) -> (exists l, nth_error (children v) n = Some (l, y)) ->
  index1 v s = Ok y /\ forall f, index_mut1 v s f = let* y' := f y in Ok (with_children v n y').
Proof.
  intros P D (l & H). inversion D as [| v' i l' x path' p' E D'|v' k n' x path' p' E D']; subst.
  - rewrite E in H. injection H as <- <-. cbn [index1 index_nat index_mut1]. destruct v; try (cbn [children] in E; now destruct (N.to_nat i)).
    + cbn [children] in E. rewrite nth_error_map in E. destruct (nth_error l _) as [z|] eqn:En; [|discriminate].
      cbn [option_map] in E. injection E as <- <-. cbn [index_nat]. now rewrite En.
    + cbn [children] in E. rewrite nth_error_map in E. destruct (nth_error l _) as [[k z]|] eqn:En; [|discriminate].
      cbn [option_map fst snd] in E. injection E as <- <-. cbn [index_nat with_children]. now rewrite En.
  - rewrite E in H. injection H as <- <-. cbn [index1]. destruct v; try (cbn [children] in E; now destruct n).
    { cbn [children] in E. rewrite nth_error_map in E. destruct (nth_error l n); discriminate. }
    apply proper_inv in P as [P _]. destruct (assoc_children _ _ _ _ P E) as [A B]. cbn [index_str index_mut1]. unfold contains_key. rewrite A. cbv iota.
    rewrite A. split; auto. intros f. destruct (f x); cbn [bind]; auto. cbn [with_children]. rewrite B. f_equal. f_equal. eapply insert_nth; eauto.
Qed.
Lemma label_unique v k n n' x x' : proper v -> nth_error (children v) n = Some (Some k, x) -> nth_error (children v) n' = Some (Some k, x') -> n = n'.
Proof.
  intros P H H'. destruct v as [| | | | |l|m]; try (cbn [children] in H; now destruct n).
  - cbn [children] in H. rewrite nth_error_map in H. destruct (nth_error l n); discriminate.
  - apply proper_inv in P as [P _]. destruct (assoc_children _ _ _ _ P H) as [_ A1]. destruct (assoc_children _ _ _ _ P H') as [_ A2].
    rewrite NoDup_nth_error in P. apply P.
    + rewrite map_length. apply nth_error_Some. congruence.
    + now rewrite !nth_error_map, A1, A2.
Qed.
Lemma denotes_cons v s path p : denotes v (s :: path) p -> exists n q l y, p = n :: q /\ nth_error (children v) n = Some (l, y) /\ denotes y path q.
Proof. intros D. inversion D; subst; eauto 8. Qed.

(*# C99_reading
   Reading through any chain of brackets v[a][b]... returns exactly the part of the value those brackets denote (a position counts the
   children of an array or object in order, a label is the child of an object with that label), and panics exactly when they denote none.
##
Example C99_reading_case : let v := VObj [(s! "a", VArr [VInt 1; VInt 2]); (s! "b", VNull)] in
  proper v /\ read v [SLabel (s! "a"); SPos 1] = Ok (VInt 2) /\ read v [SPos 0; SPos 1] = Ok (VInt 2) /\ read v [SLabel (s! "c")] = Panic.
Proof.
  repeat split; try (vm_compute; reflexivity); repeat (constructor; cbn; auto); try (intros H; repeat destruct H as [H|H]; try discriminate; auto).
Qed.
#*)
Lemma C99_reading_l (v : value) (path : list step) : proper v ->
  (forall x, read v path = Ok x <-> exists p, denotes v path p /\ subtree v p = Some x) /\
  (read v path = Panic <-> ~ exists p, denotes v path p) /\ (forall e, read v path <> Err e).
Proof.
  revert v. induction path as [|s path IH]; intros v P.
  - cbn [read]. repeat split; try discriminate.
    + intros H. injection H as ->. exists []. split; [constructor|auto].
    + intros (p & D & H). inversion D; subst. cbn [subtree] in H. congruence.
    + intros H. elim H. exists []. constructor.
  - (* does the first step name a child? *)
    assert ((exists n l y, nth_error (children v) n = Some (l, y) /\ index1 v s = Ok y /\ forall q, denotes y path q -> denotes v (s :: path) (n :: q)) \/
            (index1 v s = Panic /\ forall p, ~ denotes v (s :: path) p)) as [(n & l & y & En & Ei & Hd)|(Ei & Hn)].
    { destruct s as [k|i].
      - cbn [index1]. destruct v; try (right; split; [reflexivity|intros p D; apply denotes_cons in D as (? & ? & ? & ? & _ & H & _); cbn [children] in H; now destruct x]).
        + right. split; auto. intros p D. inversion D as [| |? ? ? ? ? ? E]; subst. cbn [children] in E. rewrite nth_error_map in E. destruct (nth_error l n); discriminate.
        + cbn [index_str]. destruct (assoc k l) as [x|] eqn:A.
          * left. apply assoc_In in A. apply In_nth_error in A as (n & A). exists n, (Some k), x. split; [|split; auto].
            -- cbn [children]. rewrite nth_error_map, A. reflexivity.
            -- intros q Dq. econstructor; [|exact Dq]. cbn [children]. rewrite nth_error_map, A. reflexivity.
          * right. split; auto. intros p D. inversion D as [| |? ? n x ? ? E]; subst.
            apply proper_inv in P as [P _]. destruct (assoc_children _ _ _ _ P E). congruence.
      - cbn [index1]. destruct (nth_error (children v) (N.to_nat i)) as [[l y]|] eqn:E.
        + left. exists (N.to_nat i), l, y. split; auto. split.
          * destruct v; try (cbn [children] in E; now destruct (N.to_nat i)); cbn [children index_nat] in *; rewrite nth_error_map in E.
            -- destruct (nth_error l0 _); [|discriminate]. cbn [option_map] in E. congruence.
            -- destruct (nth_error l0 _) as [[? ?]|]; [|discriminate]. cbn [option_map fst snd] in E. congruence.
          * intros q Dq. econstructor; eauto.
        + right. split.
          * destruct v; auto; cbn [children index_nat] in *; rewrite nth_error_map in E; destruct (nth_error l _) as [?|]; try discriminate; auto.
          * intros p D. inversion D; subst. congruence. }
    + cbn [read]. rewrite Ei. cbn [bind]. pose proof (proper_child _ _ _ _ P En) as Py. destruct (IH y Py) as (A & B & C).
      assert (forall p, denotes v (s :: path) p -> exists q, p = n :: q /\ denotes y path q) as Inv.
      { intros p D. pose proof D as D0. apply denotes_cons in D as (n' & q & l' & y' & -> & En' & Dq).
        destruct (index_children v s n' q y' path P D0) as [Ei' _]; eauto.
        assert (y' = y) by congruence. subst y'. exists q. split; auto. f_equal.
        pose proof (Hd _ Dq) as D1. inversion D0; subst; inversion D1; subst; [reflexivity|].
        eapply label_unique; [exact P|eassumption|eassumption]. }
      repeat split.
      * intros H. apply A in H as (q & Dq & Hq). exists (n :: q). split; auto. cbn [subtree]. now rewrite En.
      * intros (p & D & H). apply Inv in D as (q & -> & Dq). cbn [subtree] in H. rewrite En in H. apply A. eauto.
      * intros H (p & D). apply Inv in D as (q & -> & Dq). apply B in H. apply H. eauto.
      * intros H. apply B. intros (q & Dq). apply H. eauto.
      * exact C.
    + cbn [read]. rewrite Ei. cbn [bind]. repeat split; try discriminate.
      * intros (p & D & _). now apply Hn in D.
      * intros _ (p & D). now apply Hn in D.
Qed.

(** ** Replacing a subtree *)
Fixpoint put (p : list nat) (x v : value) : value :=
  match p with
  | [] => x
  | n :: r => match nth_error (children v) n with Some (_, y) => with_children v n (put r x y) | None => v end
  end.
Lemma subtree_app v p q : subtree v (p ++ q) = match subtree v p with Some y => subtree y q | None => None end.
Proof. revert v. induction p as [|n p IH]; intros v; cbn [app subtree]; auto. destruct (nth_error (children v) n) as [[l y]|]; auto. Qed.
Lemma put_replaced p : forall x v y, subtree v p = Some y -> replaced p x v (put p x v).
Proof.
  induction p as [|n p IH]; intros x v y H.
  - cbn [put]. split; [reflexivity|]. split.
    + intros q N. elim N. now exists q.
    + intros q (r & E) N. symmetry in E. apply app_eq_nil in E as [-> _]. now elim N.
  - cbn [subtree] in H. destruct (nth_error (children v) n) as [[l z]|] eqn:E; [|discriminate]. cbn [put]. rewrite E.
    destruct (IH x z y H) as (A & B & C). set (w := put p x z) in *. pose proof (children_with v n w l z E) as Ch.
    assert (forall i r, subtree (with_children v n w) (i :: r) = if (i =? n)%nat then subtree w r else subtree v (i :: r)) as S.
    { intros i r. cbn [subtree]. rewrite Ch, nth_set, E. destruct (i =? n)%nat; reflexivity. }
    split; [|split].
    + rewrite S, Nat.eqb_refl. exact A.
    + intros [|i q] N1 N2; [elim N2; now exists (n :: p)|]. rewrite S. destruct (Nat.eqb_spec i n) as [->|]; [|reflexivity].
      cbn [subtree]. rewrite E. apply B.
      * intros (r & ->). apply N1. now exists r.
      * intros (r & ->). apply N2. now exists r.
    + intros [|i q] (r & Er) N.
      * exists v, (with_children v n w). repeat split; auto. eapply same_shape_with; eauto.
      * cbn [app] in Er. injection Er as -> Er. rewrite S, Nat.eqb_refl. cbn [subtree]. rewrite E. apply C; [now exists r|congruence].
Qed.
Lemma denotes_subtree v path p : denotes v path p -> exists y, subtree v p = Some y.
Proof. induction 1; cbn [subtree]; eauto; rewrite H; auto. Qed.
Lemma update_denotes path : forall v p y f, proper v -> denotes v path p -> subtree v p = Some y ->
  update v path f = let* y' := f y in Ok (put p y' v).
Proof.
  induction path as [|s path IH]; intros v p y f P D H.
  - inversion D; subst. cbn [subtree] in H. injection H as ->. cbn [update put]. destruct (f y); reflexivity.
  - pose proof D as D0. apply denotes_cons in D as (n & q & l & z & -> & E & D). cbn [update].
    destruct (index_children v s n q z path P D0) as [_ ->]; [eauto|]. cbn [subtree] in H. rewrite E in H.
    rewrite (IH z q y f (proper_child _ _ _ _ P E) D H). cbn [put]. rewrite E. destruct (f y); reflexivity.
Qed.
Lemma update_app a : forall b v f, update v (a ++ b) f = update v a (fun y => update y b f).
Proof.
  assert (forall s v f g, (forall y, f y = g y) -> index_mut1 v s f = index_mut1 v s g) as X.
  { intros s v f g E. unfold index_mut1. destruct s, v; auto.
    - destruct (assoc _ _); auto. now rewrite E.
    - destruct (nth_error _ _); auto. now rewrite E.
    - destruct (nth_error _ _) as [[? ?]|]; auto. now rewrite E. }
  induction a as [|s a IH]; intros b v f; cbn [app update]; auto.
Qed.

(*# C99_assigning
   Assigning through brackets that denote a part of the value, v[a][b]... = x, never fails: it replaces exactly that part by x. The part
   then reads back as x, every part that neither contains it nor lies in it is unchanged, and the arrays and objects around it keep their
   length, their labels and the order of those. Taking a mutable reference without writing through it changes nothing.
##
Example C99_assigning_case : let v := VObj [(s! "a", VArr [VInt 1; VInt 2]); (s! "b", VNull)] in
  denotes v [SLabel (s! "a"); SPos 1] [0%nat; 1%nat] /\
  assign v [SLabel (s! "a"); SPos 1] (VBool true) = Ok (VObj [(s! "a", VArr [VInt 1; VBool true]); (s! "b", VNull)]).
Proof.
  split; [|vm_compute; reflexivity]. eapply den_label; [vm_compute; reflexivity|]. apply (den_pos _ 1) with (l := None) (x := VInt 2); [vm_compute; reflexivity|]. constructor.
Qed.
#*)
Lemma C99_assigning_l (v x : value) (path : list step) (p : list nat) : proper v -> denotes v path p ->
  (exists w, assign v path x = Ok w /\ replaced p x v w /\ read w path = Ok x) /\ touch v path = Ok v.
Proof.
  intros P D. destruct (denotes_subtree _ _ _ D) as (y & Hy). split.
  - exists (put p x v). unfold assign. rewrite (update_denotes path v p y _ P D Hy). split; [reflexivity|]. split; [now apply put_replaced with y|].
    clear Hy. revert v P D. revert p. induction path as [|s path IH]; intros p v P D; [now inversion D|].
    pose proof D as D0. apply denotes_cons in D as (n & q & l & z & -> & E & D). cbn [put]. rewrite E.
    specialize (IH q z (proper_child _ _ _ _ P E) D).
    cbn [read]. set (w := put q x z) in *.
    assert (index1 (with_children v n w) s = Ok w) as ->; [|exact IH].
    pose proof (children_with v n w l z E) as Ch.
    assert (nth_error (children (with_children v n w)) n = Some (l, w)) as En by (now rewrite Ch, nth_set, Nat.eqb_refl, E).
    inversion D0; subst.
    + cbn [index1]. clear - En. destruct (with_children v (N.to_nat i) w) as [| | | | |a|m]; try (cbn [children] in En; now destruct (N.to_nat i)); cbn [children index_nat] in *; rewrite nth_error_map in En.
      * destruct (nth_error a _); [|discriminate]. cbn [option_map] in En. congruence.
      * destruct (nth_error m _) as [[? ?]|]; [|discriminate]. cbn [option_map fst snd] in En. congruence.
    + assert (l = Some k) by congruence. subst l.
      destruct v as [| | | | |a|m]; try (cbn [children] in E; now destruct n).
      { cbn [children] in E. rewrite nth_error_map in E. destruct (nth_error a n); discriminate. }
      apply proper_inv in P as [P _]. destruct (assoc_children _ _ _ _ P E) as [A B]. cbn [with_children] in *. rewrite B in *. cbn [index1 index_str].
      rewrite <- (insert_nth m k n z w P B), assoc_insert, beq_refl. reflexivity.
  - unfold touch. rewrite (update_denotes path v p y _ P D Hy). cbn [bind]. f_equal. clear D P path.
    revert v Hy. induction p as [|n p IH]; intros v Hy; cbn [put subtree] in *; [congruence|].
    destruct (nth_error (children v) n) as [[l z]|] eqn:E; [|reflexivity]. rewrite (IH z Hy).
    destruct v as [| | | | |a|m]; try (cbn [children] in E; now destruct n); cbn [children with_children] in *; rewrite nth_error_map in E.
    + destruct (nth_error a n) eqn:En; [|discriminate]. cbn [option_map] in E. injection E as _ <-. now rewrite set_same.
    + destruct (nth_error m n) as [[k u]|] eqn:En; [|discriminate]. cbn [option_map fst snd] in E. injection E as _ <-. now rewrite set_same.
Qed.

(*# C99_replaced_is_determined
   The description used in C99_assigning leaves no freedom: at most one value is the given one with the given part replaced.
##
Example C99_determined_case : replaced [0%nat] VNull (VArr [VInt 1]) (VArr [VNull]).
Proof.
  split; [reflexivity|]. split.
  - intros [|[|n] q] A B; [elim B; now exists [0%nat]|elim A; now exists q|]. cbn. now destruct n.
  - intros [|[|n] q] (r & E) B; try discriminate.
    + exists (VArr [VInt 1]), (VArr [VNull]). repeat split; reflexivity.
    + injection E as E. symmetry in E. apply app_eq_nil in E as [-> ->]. now elim B.
Qed.
#*)
Lemma C99_determined_l (p : list nat) (x v w w' : value) : replaced p x v w -> replaced p x v w' -> w = w'.
Proof.
  revert v w w'. induction p as [|n p IH]; intros v w w' (A & B & C) (A' & B' & C'); [cbn [subtree] in *; congruence|].
  assert (forall q : list nat, inside q [] -> q = []) as Nil. { intros q (r & E). symmetry in E. now apply app_eq_nil in E. }
  destruct (C []) as (a & b & Ea & Eb & S); [now exists (n :: p)|discriminate|]. destruct (C' []) as (a' & b' & Ea' & Eb' & S'); [now exists (n :: p)|discriminate|].
  cbn [subtree] in Ea, Eb, Ea', Eb'. injection Ea as <-. injection Eb as <-. injection Ea' as <-. injection Eb' as <-.
  assert (children w = children w' -> labels w = labels w' -> w = w') as K.
  { unfold same_shape in S, S'. destruct v; try (destruct w, w'; try contradiction; intros; congruence).
    - destruct w; try contradiction. destruct w'; try contradiction. cbn [children]. intros E _. f_equal.
      revert E. clear. revert l1. induction l0 as [|y l IH]; intros [|y' l'] E; try discriminate; auto. cbn [map] in E. injection E as -> E. f_equal. auto.
    - destruct w; try contradiction. destruct w'; try contradiction. cbn [children]. intros E _. f_equal.
      revert E. clear. revert l1. induction l0 as [|[k y] l IH]; intros [|[k' y'] l'] E; try discriminate; auto. cbn [map fst snd] in E. injection E as -> -> E. f_equal. auto. }
  assert (labels v = labels w /\ labels v = labels w') as (L & L').
  { unfold same_shape in S, S'. destruct v; destruct w, w'; try contradiction; try discriminate; split; congruence. }
  assert (forall i, option_map snd (nth_error (children w) i) = option_map snd (nth_error (children w') i)) as Eq.
  { intros i. destruct (Nat.eq_dec i n) as [->|Hi].
    - assert (forall u, length (labels v) = length (labels u) -> replaced (n :: p) x v u -> exists y, option_map snd (nth_error (children u) n) = Some y /\ (forall z, option_map snd (nth_error (children v) n) = Some z -> replaced p x z y)) as R.
      { intros u Lu (U1 & U2 & U3). cbn [subtree] in U1. destruct (nth_error (children u) n) as [[l y]|] eqn:E; [|discriminate]. exists y. split; auto.
        intros z Hz. destruct (nth_error (children v) n) as [[l' z']|] eqn:E'; [|discriminate]. cbn [option_map snd] in Hz. injection Hz as ->. split; auto. split.
        - intros q N1 N2. specialize (U2 (n :: q)). cbn [subtree] in U2. rewrite E, E' in U2. apply U2; intros (r & Er); [apply N1|apply N2]; exists r; cbn [app] in Er; congruence.
        - intros q (r & Er) N. destruct (U3 (n :: q)) as (c & d & Hc & Hd & Hs); [exists r; cbn [app]; congruence|congruence|].
          cbn [subtree] in Hc, Hd. rewrite E' in Hc. rewrite E in Hd. eauto. }
      destruct (R w) as (y & Ey & Ry); [congruence|split; auto|]. destruct (R w') as (y' & Ey' & Ry'); [congruence|split; auto|].
      rewrite Ey, Ey'. f_equal.
      assert (exists z, option_map snd (nth_error (children v) n) = Some z) as (z & Hz).
      { destruct (nth_error (children v) n) as [[l z]|] eqn:E; [cbn; eauto|]. exfalso. apply nth_error_None in E.
        assert (n < length (children w))%nat as X. { apply nth_error_Some. intros X. rewrite X in Ey. discriminate. }
        assert (length (labels v) = length (labels w)) as Y by congruence. unfold labels in Y. rewrite !map_length in Y. lia. }
      eapply IH; eauto.
    - assert (forall u, replaced (n :: p) x v u -> option_map snd (nth_error (children u) i) = option_map snd (nth_error (children v) i)) as R.
      { intros u (_ & U2 & _). specialize (U2 [i]). cbn [subtree] in U2.
        assert (subtree u [i] = subtree v [i]) as X.
        { apply U2; intros (r & Er); cbn [app] in Er; congruence. }
        cbn [subtree] in X. destruct (nth_error (children u) i) as [[? ?]|], (nth_error (children v) i) as [[? ?]|]; cbn [option_map snd]; auto; congruence. }
      rewrite (R w), (R w'); auto; split; auto. }
  apply K; [|congruence]. unfold labels in *. assert (map fst (children w) = map fst (children w')) as Lw by congruence.
  revert Eq Lw. generalize (children w), (children w'). clear. intros a. induction a as [|[l y] a IH]; intros [|[l' y'] a'] Eq Lw; try discriminate; auto.
  cbn [map fst] in Lw. injection Lw as -> Lw. pose proof (Eq 0%nat) as E0. cbn in E0. injection E0 as ->. f_equal. apply IH; auto. intros i. apply (Eq (S i)).
Qed.

(*# C99_new_label
   Assigning to a label that an object of the value does not have, v[a][b]["new"] = x, never fails: the object gains exactly that label,
   after all its others, with the value x, and nothing else in the value changes. Merely taking the mutable reference already adds the
   label, with the value null.
##
Example C99_new_label_case : let v := VObj [(s! "a", VObj [(s! "z", VInt 1)]); (s! "b", VNull)] in
  denotes v [SLabel (s! "a")] [0%nat] /\ subtree v [0%nat] = Some (VObj [(s! "z", VInt 1)]) /\
  assign v [SLabel (s! "a"); SLabel (s! "c")] (VBool true) = Ok (VObj [(s! "a", VObj [(s! "z", VInt 1); (s! "c", VBool true)]); (s! "b", VNull)]) /\
  touch v [SLabel (s! "a"); SLabel (s! "c")] = Ok (VObj [(s! "a", VObj [(s! "z", VInt 1); (s! "c", VNull)]); (s! "b", VNull)]).
Proof. split; [|vm_compute; auto]. eapply den_label; [vm_compute; reflexivity|constructor]. Qed.
#*)
Lemma index_mut_new m k f : assoc k m = None -> index_mut1 (VObj m) (SLabel k) f = let* y' := f VNull in Ok (VObj (m ++ [(k, y')])).
Proof.
  intros A. cbn [index_mut1]. unfold contains_key. rewrite A. cbv iota. rewrite assoc_insert, beq_refl.
  destruct (f VNull); cbn [bind]; auto. rewrite insert_insert, insert_new; [reflexivity|now apply assoc_none_iff].
Qed.
Lemma C99_new_label_l (v x : value) (path : list step) (p : list nat) (m : list (bytes * value)) (k : bytes) :
  proper v -> denotes v path p -> subtree v p = Some (VObj m) -> ~ In k (map fst m) ->
  (exists w, assign v (path ++ [SLabel k]) x = Ok w /\ replaced p (VObj (m ++ [(k, x)])) v w) /\
  (exists w, touch v (path ++ [SLabel k]) = Ok w /\ replaced p (VObj (m ++ [(k, VNull)])) v w).
Proof.
  intros P D S N. apply assoc_none_iff in N. unfold assign, touch. rewrite !update_app, !(update_denotes path v p (VObj m) _ P D S).
  cbn [update]. rewrite !index_mut_new by auto. cbn [bind]. split; eexists; split; try reflexivity; eapply put_replaced; eauto.
Qed.

(*# C99_assign_panics
   Assignment through brackets never returns an error value, and it panics exactly in the remaining cases: when the brackets neither
   denote a part of the value nor end in a label missing from the object that the brackets before it denote. In particular a label is
   never created on the way: v["new"]["deeper"] = x panics.
##
Example C99_panics_case : assign (VObj []) [SLabel (s! "new"); SLabel (s! "deeper")] VNull = Panic /\
  assign (VArr [VNull]) [SPos 1] VNull = Panic /\ assign (VArr [VNull]) [SLabel (s! "0")] VNull = Panic.
Proof. vm_compute. auto. Qed.
#*)
Lemma C99_assign_panics_l (v x : value) (path : list step) : proper v ->
  (forall e, assign v path x <> Err e) /\
  (assign v path x = Panic <->
   ~ (exists p, denotes v path p) /\
   ~ (exists path0 k p m, path = path0 ++ [SLabel k] /\ denotes v path0 p /\ subtree v p = Some (VObj m) /\ ~ In k (map fst m))).
Proof.
  intros P.
  assert ((exists p, denotes v path p) \/ (exists path0 k p m, path = path0 ++ [SLabel k] /\ denotes v path0 p /\ subtree v p = Some (VObj m) /\ ~ In k (map fst m)) \/
          (assign v path x = Panic)) as [(p & D)|[(path0 & k & p & m & -> & D & S & N)|Q]].
  { revert v P. induction path as [|s path IH]; intros v P; [left; exists []; constructor|].
    destruct (C99_reading_l v [s] P) as (A & B & C).
    destruct (read v [s]) as [y|e|] eqn:E.
    - destruct (proj1 (A y) eq_refl) as (p & D & S). pose proof D as D0. apply denotes_cons in D as (n & q & l & z & -> & En & D). inversion D; subst.
      cbn [subtree] in S. rewrite En in S. injection S as ->.
      assert (forall q, denotes y path q -> denotes v (s :: path) (n :: q)) as Lift.
      { intros q Dq. inversion D0; subst; econstructor; eauto; congruence. }
      assert (forall a q, denotes y a q -> denotes v (s :: a) (n :: q)) as LiftA.
      { intros a q Dq. inversion D0; subst; econstructor; eauto; congruence. }
      destruct (IH y (proper_child _ _ _ _ P En)) as [(q & Dq)|[(p0 & k & q & m & -> & Dq & Sq & N)|Q]].
      + left. eauto.
      + right. left. exists (s :: p0), k, (n :: q), m. split; [reflexivity|]. split; [auto|]. split; [|exact N]. cbn [subtree]. now rewrite En.
      + right. right. unfold assign in *. cbn [update]. destruct (index_children v s n [] y [] P D0) as [_ ->]; [eauto|]. now rewrite Q.
    - now elim (C e).
    - clear A C. cbn [read] in E. destruct (index1 v s) as [y|e|] eqn:Ei; try discriminate. clear E.
      destruct s as [k|i].
      + destruct v as [| | | | |l|m]; try (right; right; reflexivity). cbn [index1 index_str] in Ei. destruct (assoc k m) eqn:A; [discriminate|].
        destruct path as [|s path].
        * right. left. exists [], k, [], m. split; [reflexivity|]. split; [constructor|]. split; [reflexivity|]. now apply assoc_none_iff.
        * right. right. unfold assign. cbn [update]. rewrite index_mut_new by auto. destruct s; reflexivity.
      + right. right. unfold assign. cbn [update]. destruct v as [| | | | |l|m]; try reflexivity; cbn [index1 index_nat index_mut1] in *.
        * destruct (nth_error l (N.to_nat i)); [discriminate|reflexivity].
        * destruct (nth_error m (N.to_nat i)) as [[? ?]|]; [discriminate|reflexivity]. }
  - destruct (C99_assigning_l v x path p P D) as ((w & E & _) & _). rewrite E. split; [discriminate|]. split; [discriminate|]. intros [H _]. elim H. eauto.
  - destruct (C99_new_label_l v x path0 p m k P D S N) as ((w & E & _) & _). rewrite E. split; [discriminate|]. split; [discriminate|]. intros [_ H]. elim H. exists path0, k, p, m. auto.
  - rewrite Q. split; [discriminate|]. split; auto. intros _. split.
    + intros (p & D). destruct (C99_assigning_l v x path p P D) as ((w & E & _) & _). congruence.
    + intros (path0 & k & p & m & -> & D & S & N). destruct (C99_new_label_l v x path0 p m k P D S N) as ((w & E & _) & _). congruence.
Qed.

(** ** What editing keeps *)
Lemma insert_vals (P : value -> Prop) k x m : Forall P (map snd m) -> P x -> Forall P (map snd (insert k x m)).
Proof.
  intros H Px. induction m as [|[k' y] m IH]; cbn [insert map snd] in *; [constructor; auto|]. inversion H; subst.
  destruct (beq k' k); cbn [map snd]; constructor; auto.
Qed.
Lemma set_vals {A} (P : A -> Prop) n x l : Forall P l -> P x -> Forall P (set_nth n x l).
Proof. revert n. induction l as [|y l IH]; intros [|n] H Px; cbn [set_nth]; auto; inversion H; subst; constructor; auto. Qed.
Lemma insert_labels (P : bytes -> Prop) k (x : value) m : Forall P (map fst m) -> P k -> Forall P (map fst (insert k x m)).
Proof.
  intros H Pk. rewrite insert_keys. destruct (contains_key k m); auto. apply Forall_app. auto.
Qed.
Lemma set_labels n (k : bytes) (x y : value) m : nth_error m n = Some (k, y) -> map fst (set_nth n (k, x) m) = map fst m.
Proof. intros H. rewrite map_set. cbn [fst]. apply set_same. now rewrite nth_error_map, H. Qed.
Lemma nth_Forall {A} (P : A -> Prop) l n x : Forall P l -> nth_error l n = Some x -> P x.
Proof. intros H E. rewrite Forall_forall in H. apply H. eapply nth_error_In; eauto. Qed.

Lemma update_data path : forall v f w, Forall step_ok path -> (forall y y', data y -> f y = Ok y' -> data y') -> data v -> update v path f = Ok w -> data w.
Proof.
  induction path as [|s path IH]; intros v f w St F D E; cbn [update] in E; [eauto|].
  inversion St as [|? ? S1 St']; subst.
  assert (forall y y', data y -> update y path f = Ok y' -> data y') as F' by eauto. clear IH.
  destruct D as [|b|z Hz|t Ht|l Hl|m Hn Hk Hv]; try (destruct s; discriminate).
  - destruct s as [k|i]; [discriminate|]. cbn [index_mut1] in E. destruct (nth_error l (N.to_nat i)) as [y|] eqn:En; [|discriminate].
    apply bind_ok in E as (y' & E1 & E). injection E as <-. constructor. apply set_vals; auto. eapply F'; eauto. eapply nth_Forall; eauto.
  - destruct s as [k|i]; cbn [index_mut1 step_ok] in *.
    + set (m' := if contains_key k m then m else insert k VNull m) in *.
      assert (NoDup (map fst m') /\ Forall (fun k => utf8 k = true) (map fst m') /\ Forall data (map snd m')) as (A & B & C).
      { unfold m'. destruct (contains_key k m); auto. split; [now apply insert_NoDup|]. split; [now apply insert_labels|]. apply insert_vals; auto. constructor. }
      destruct (assoc k m') as [y|] eqn:Ea; [|discriminate]. apply bind_ok in E as (y' & E1 & E). injection E as <-.
      assert (data y) as Dy. { apply assoc_In in Ea. rewrite Forall_forall in C. apply C. apply in_map_iff. now exists (k, y). }
      constructor; [now apply insert_NoDup|now apply insert_labels|]. apply insert_vals; auto. eauto.
    + destruct (nth_error m (N.to_nat i)) as [[k y]|] eqn:En; [|discriminate]. apply bind_ok in E as (y' & E1 & E). injection E as <-.
      assert (data y) as Dy. { eapply (nth_Forall data (map snd m)); eauto. rewrite nth_error_map, En. reflexivity. }
      constructor; [erewrite set_labels by eauto; auto|erewrite set_labels by eauto; auto|]. rewrite map_set. cbn [snd]. apply set_vals; auto. eauto.
Qed.
Lemma proper_arr l : Forall proper l -> proper (VArr l).
Proof. intros H. constructor; [constructor|]. cbn [children]. apply Forall_map. exact H. Qed.
Lemma proper_obj m : NoDup (map fst m) -> Forall proper (map snd m) -> proper (VObj m).
Proof. intros N H. constructor; auto. cbn [children]. rewrite Forall_map in *. exact H. Qed.
Lemma proper_obj_inv m : proper (VObj m) -> NoDup (map fst m) /\ Forall proper (map snd m).
Proof. intros H. apply proper_inv in H as [A B]. split; auto. cbn [children] in B. rewrite Forall_map in *. exact B. Qed.
Lemma proper_arr_inv l : proper (VArr l) -> Forall proper l.
Proof. intros H. apply proper_inv in H as [A B]. cbn [children] in B. rewrite Forall_map in B. exact B. Qed.
Lemma proper_null : proper VNull.
Proof. constructor; constructor. Qed.
Lemma update_proper path : forall v f w, (forall y y', proper y -> f y = Ok y' -> proper y') -> proper v -> update v path f = Ok w -> proper w.
Proof.
  induction path as [|s path IH]; intros v f w F D E; cbn [update] in E; [eauto|].
  assert (forall y y', proper y -> update y path f = Ok y' -> proper y') as F' by eauto. clear IH.
  destruct v as [| | | | |l|m]; try (destruct s; discriminate).
  - apply proper_arr_inv in D. destruct s as [k|i]; [discriminate|]. cbn [index_mut1] in E. destruct (nth_error l (N.to_nat i)) as [y|] eqn:En; [|discriminate].
    apply bind_ok in E as (y' & E1 & E). injection E as <-. apply proper_arr. apply set_vals; auto. eapply F'; eauto. eapply nth_Forall; eauto.
  - apply proper_obj_inv in D as [Hn Hv]. destruct s as [k|i]; cbn [index_mut1] in *.
    + set (m' := if contains_key k m then m else insert k VNull m) in *.
      assert (NoDup (map fst m') /\ Forall proper (map snd m')) as (A & C).
      { unfold m'. destruct (contains_key k m); auto. split; [now apply insert_NoDup|]. apply insert_vals; auto. apply proper_null. }
      destruct (assoc k m') as [y|] eqn:Ea; [|discriminate]. apply bind_ok in E as (y' & E1 & E). injection E as <-.
      assert (proper y) as Dy. { apply assoc_In in Ea. rewrite Forall_forall in C. apply C. apply in_map_iff. now exists (k, y). }
      apply proper_obj; [now apply insert_NoDup|]. apply insert_vals; auto. eauto.
    + destruct (nth_error m (N.to_nat i)) as [[k y]|] eqn:En; [|discriminate]. apply bind_ok in E as (y' & E1 & E). injection E as <-.
      assert (proper y) as Dy. { eapply (nth_Forall proper (map snd m)); eauto. rewrite nth_error_map, En. reflexivity. }
      apply proper_obj; [erewrite set_labels by eauto; auto|]. rewrite map_set. cbn [snd]. apply set_vals; auto. eauto.
Qed.
Lemma data_proper v : data v -> proper v.
Proof.
  revert v. fix IH 2. intros v D. destruct D as [|b|z Hz|t Ht|l Hl|m Hn Hk Hv]; try (constructor; constructor).
  - apply proper_arr. clear - IH Hl. induction Hl; constructor; auto.
  - apply proper_obj; auto. clear - IH Hv. induction Hv; constructor; auto.
Qed.

(*# C99_editing_keeps_data
   Whatever is assigned wherever, a value stays a value: labels of each object stay distinct, and a value that has an exact JSON text
   (64-bit integers, text labels and strings, no floats) still has one after assigning another such value, so that the edited value
   can be written and, nested at most 127 deep, read back as it is.
##
Example C99_keeps_case : exists w, assign (VObj [(s! "a", VArr [VInt 1])]) [SLabel (s! "a"); SPos 0] (VStr (s! "x")) = Ok w /\
  data w /\ nests 127 w.
Proof. eexists. split; [vm_compute; reflexivity|]. split; repeat (constructor; auto); cbn; intuition. Qed.
#*)
Lemma C99_keeps_l (canon : bytes -> option bytes) (v x w : value) (path : list step) : assign v path x = Ok w ->
  (proper v -> proper x -> proper w) /\
  (data v -> data x -> Forall step_ok path -> data w /\ (nests 127 w -> value_of_text canon (to_json w) = Ok w)).
Proof.
  unfold assign. intros E. split.
  - intros P Px. eapply update_proper; [|exact P|exact E]. intros y y' _ H. now injection H as <-.
  - intros P Px St. assert (data w) as D. { eapply update_data; [exact St| |exact P|exact E]. intros y y' _ H. now injection H as <-. }
    split; auto. intros N. now apply C49_l.
Qed.

(** ** Building objects *)
Lemma built l : forall m seen, NoDup (map fst m) -> (forall k, existsb (beq k) seen = contains_key k m) ->
  let r := fold_left (fun m e => insert (fst e) (snd e) m) l m in
  map fst r = map fst m ++ first_labels seen l /\ NoDup (map fst r) /\
  forall k, assoc k r = match last_value k l with Some x => Some x | None => assoc k m end.
Proof.
  induction l as [|[k x] l IH]; intros m seen N S.
  - cbn. rewrite app_nil_r. auto.
  - cbn [fold_left fst snd first_labels]. cbv zeta.
    assert (forall k', last_value k' ((k, x) :: l) = match last_value k' l with Some y => Some y | None => if beq k k' then Some x else None end) as LV.
    { intros k'. unfold last_value. cbn [rev]. assert (forall (f : bytes * value -> bool) a b, find f (a ++ b) = match find f a with Some y => Some y | None => find f b end) as FA.
      { clear. intros f a b. induction a as [|y a IH]; cbn [app find]; auto. destruct (f y); auto. }
      rewrite FA. destruct (find _ (rev l)) as [[? ?]|]; auto. cbn [find fst]. destruct (beq k k'); auto. }
    rewrite S. destruct (contains_key k m) eqn:C.
    + destruct (IH (insert k x m) seen) as (A & B & D); [now apply insert_NoDup| |].
      { intros k'. rewrite S. unfold contains_key. rewrite assoc_insert. destruct (beq k k') eqn:E; auto. apply beq_eq in E. subst k'. exact C. }
      split; [|split; auto]. { rewrite A, insert_keys, C. reflexivity. }
      intros k'. rewrite D, LV, assoc_insert. destruct (last_value k' l); auto. destruct (beq k k'); auto.
    + destruct (IH (insert k x m) (k :: seen)) as (A & B & D); [now apply insert_NoDup| |].
      { intros k'. cbn [existsb]. rewrite S. unfold contains_key. rewrite assoc_insert. destruct (beq k' k) eqn:E.
        - apply beq_eq in E. subst k'. now rewrite beq_refl.
        - destruct (beq k k') eqn:E'; auto. apply beq_eq in E'. subst k'. now rewrite beq_refl in E. }
      split; [|split; auto]. { rewrite A, insert_keys, C, <- app_assoc. reflexivity. }
      intros k'. rewrite D, LV, assoc_insert. destruct (last_value k' l); auto. destruct (beq k k'); auto.
Qed.

(*# C100_object_literals
   An object written entry by entry has each label once, at the place where it was first given, with the value given last; it holds no
   other label.
##
Example C100_literal_case : let l := [(s! "a", VInt 1); (s! "b", VInt 2); (s! "a", VInt 3)] in
  object_of l = VObj [(s! "a", VInt 3); (s! "b", VInt 2)] /\ first_labels [] l = [s! "a"; s! "b"] /\ last_value (s! "a") l = Some (VInt 3).
Proof. vm_compute. auto. Qed.
#*)
Lemma C100_literals_l (l : list (bytes * value)) :
  exists m, object_of l = VObj m /\ map fst m = first_labels [] l /\ NoDup (map fst m) /\
  forall k, (forall x, last_value k l = Some x <-> exists n, nth_error (children (object_of l)) n = Some (Some k, x)) /\
            (last_value k l = None -> index_str (object_of l) k = Panic) /\
            (forall x, last_value k l = Some x -> index_str (object_of l) k = Ok x).
Proof.
  unfold object_of. destruct (built l [] []) as (A & B & C); [constructor|reflexivity|]. cbv zeta in *. eexists. split; [reflexivity|]. split; [exact A|]. split; [exact B|].
  intros k. specialize (C k). cbn [assoc] in C. cbn [index_str]. rewrite C. split; [|split].
  - intros x. split.
    + intros E. rewrite E in C. apply assoc_In in C. apply In_nth_error in C as (n & En). exists n. cbn [children]. rewrite nth_error_map, En. reflexivity.
    + intros (n & En). destruct (assoc_children _ _ _ _ B En) as [X _]. rewrite C in X. destruct (last_value k l); congruence.
  - now intros ->.
  - now intros x ->.
Qed.

Lemma assoc_snoc_none (m : list (bytes * value)) : forall k, ~ In k (map fst m) -> assoc k m = None.
Proof. intros k. apply assoc_none_iff. Qed.
Lemma fold_distinct (l m : list (bytes * value)) : NoDup (map fst (m ++ l)) -> fold_left (fun m e => insert (fst e) (snd e) m) l m = m ++ l.
Proof.
  revert m. induction l as [|[k x] l IH]; intros m N; cbn [fold_left fst snd]; [now rewrite app_nil_r|].
  rewrite insert_new.
  - rewrite IH; rewrite <- app_assoc; auto.
  - rewrite map_app in N. cbn [map fst] in N. apply NoDup_remove_2 in N. intros H. apply N, in_or_app. auto.
Qed.

(*# C100_hash_maps
   Converting a HashMap takes the entries in whatever order the map iterates. Every order gives an object that answers every label alike;
   but two different orders never give the same JSON text. So serialised text, and with it any digest taken over it, is not a function of
   the map.
##
Example C100_hash_case : let l := [(s! "a", VInt 1); (s! "b", VInt 2)] in let l' := [(s! "b", VInt 2); (s! "a", VInt 1)] in
  Permutation l l' /\ to_json (object_of l) = s! "{""a"":1,""b"":2}" /\ to_json (object_of l') = s! "{""b"":2,""a"":1}".
Proof. split; [constructor|vm_compute; auto]. Qed.
#*)
Lemma C100_hash_l (l l' : list (bytes * value)) : Permutation l l' -> NoDup (map fst l) ->
  Forall (fun k => utf8 k = true) (map fst l) -> Forall data (map snd l) ->
  (forall k, index_str (object_of l) k = index_str (object_of l') k) /\
  (to_json (object_of l) = to_json (object_of l') <-> l = l').
Proof.
  intros P N U D. assert (NoDup (map fst l')) as N'. { eapply Permutation_NoDup; [|exact N]. now apply Permutation_map. }
  unfold object_of. rewrite !fold_distinct by auto. cbn [app index_str]. split.
  - intros k. now rewrite (assoc_perm k l l' N P).
  - split; [|congruence]. intros E. apply (C48_l _ _ []) in E; [congruence| |]; constructor; auto.
    + eapply Permutation_Forall; [|exact U]. now apply Permutation_map.
    + eapply Permutation_Forall; [|exact D]. now apply Permutation_map.
Qed.

(*# C100_conversions
   The two families of conversions agree: whenever to_x succeeds, TryFrom gives the same result. They differ only on numbers: TryFrom
   also takes a float for an integer (cutting it) and an integer for a float, which the to_x methods refuse. Neither family panics.
##
Example C100_conversions_case : to_i64 (VInt 5) = Ok 5%Z /\ to_i64 (VFloat (s! "1.5")) = Err EConversion /\ try_i64 (fun _ => 1%Z) (VFloat (s! "1.5")) = Ok 1%Z.
Proof. vm_compute. auto. Qed.
#*)
Lemma C100_conversions_l (trunc : bytes -> Z) (widen : Z -> bytes) (v : value) :
  try_string v = to_string v /\ try_bool v = to_bool v /\ try_vec v = to_vec v /\ try_map v = to_map v /\
  (forall z, try_i64 trunc v = Ok z <-> to_i64 v = Ok z \/ exists t, v = VFloat t /\ z = trunc t) /\
  (forall t, try_f64 widen v = Ok t <-> to_f64 v = Ok t \/ exists z, v = VInt z /\ t = widen z) /\
  try_i64 trunc v <> Panic /\ try_f64 widen v <> Panic /\ to_i64 v <> Panic /\ to_f64 v <> Panic /\
  to_string v <> Panic /\ to_bool v <> Panic /\ to_vec v <> Panic /\ to_map v <> Panic.
Proof.
  destruct v; cbn; repeat split; try discriminate; try reflexivity; intros; intuition (try congruence).
  all: try match goal with H : exists _, _ |- _ => destruct H as (? & H1 & ?); try congruence; try discriminate; now injection H1 as -> end.
  all: try (right; eexists; split; [reflexivity|congruence]).
Qed.
