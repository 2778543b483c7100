(** Lemmas about [Json]: decimal text, strings, the printer against the parser, fuel. *)
From Coq Require Import String.
From Coq Require Import NArith ZArith Bool List Lia ZifyBool ZifyNat ZifyN.
From Verif Require Import Base BaseFacts Util Prims Json.
Import ListNotations.
Open Scope N_scope.
Ltac Zify.zify_post_hook ::= Z.div_mod_to_equations.

(** ** Induction over nested values *)
Section ValueInd.
Variable P : value -> Prop.
Hypotheses (H0 : P VNull) (H1 : forall b, P (VBool b)) (H2 : forall z, P (VInt z)) (H3 : forall t, P (VFloat t)) (H4 : forall s, P (VStr s))
  (H5 : forall l, Forall P l -> P (VArr l)) (H6 : forall l, Forall (fun kv => P (snd kv)) l -> P (VObj l)).
Fixpoint value_ind' (v : value) : P v :=
  match v with
  | VNull => H0
  | VBool b => H1 b
  | VInt z => H2 z
  | VFloat t => H3 t
  | VStr s => H4 s
  | VArr l => H5 l ((fix go l : Forall P l := match l with [] => Forall_nil _ | x :: r => Forall_cons x (value_ind' x) (go r) end) l)
  | VObj l => H6 l ((fix go l : Forall (fun kv => P (snd kv)) l :=
      match l with [] => Forall_nil _ | x :: r => Forall_cons x (value_ind' (snd x)) (go r) end) l)
  end.
End ValueInd.

(** ** Decimal text *)
Definition digit_of (d : N) : byte := n2b (48 + d).
Lemma b2n_digit d : d < 10 -> b2n (n2b (48 + d)) = 48 + d.
Proof. intros H. apply b2n_n2b. lia. Qed.
Lemma is_digit_of d : d < 10 -> is_digit (n2b (48 + d)) = true.
Proof. intros H. unfold is_digit. rewrite b2n_digit by auto. lia. Qed.

Lemma dec_num_app acc a b : dec_num acc (a ++ b) = dec_num (dec_num acc a) b.
Proof. revert acc; induction a as [|c a IH]; intros acc; cbn [dec_num app]; auto. Qed.

Record dec_spec (n : N) (d : bytes) : Prop := {
  ds_digits : forallb is_digit d = true;
  ds_num : forall acc, dec_num acc d = acc * 10 ^ len d + n;
  ds_zero : forall r, d = x30 :: r -> r = [] /\ n = 0;
  ds_ne : d <> [];
}.
Lemma dec_loop_spec fuel n out : 0 < n -> n < 10 ^ N.of_nat fuel -> exists d, dec_loop fuel n out = d ++ out /\ dec_spec n d.
Proof.
  revert n out; induction fuel as [|f IH]; intros n out Hn H.
  { change (10 ^ N.of_nat 0) with 1 in H. lia. }
  cbn [dec_loop]. destruct (n =? 0) eqn:E; [lia|]. assert (n mod 10 < 10) as Hm by lia.
  assert (b2n (n2b (48 + n mod 10)) = 48 + n mod 10) as Hb by now apply b2n_digit.
  pose proof (is_digit_of (n mod 10) Hm) as Hi. set (c := n2b (48 + n mod 10)) in *.
  destruct (N.eq_dec (n / 10) 0) as [Z|Z].
  - exists [c]. split. { rewrite Z. destruct f; reflexivity. } constructor.
    + cbn [forallb]. now rewrite Hi.
    + intros acc. cbn [dec_num]. rewrite Hb. change (len [c]) with 1. lia.
    + intros r Er. inversion Er as [[E1 E2]]. rewrite E1 in Hb. change (b2n x30) with 48 in Hb. split; auto. lia.
    + discriminate.
  - destruct (IH (n / 10) (c :: out)) as (d & E1 & T); [lia| |].
    { replace (N.of_nat (S f)) with (1 + N.of_nat f) in H by lia. rewrite N.pow_add_r in H. change (10 ^ 1) with 10 in H.
      apply N.div_lt_upper_bound; lia. }
    exists (d ++ [c]). split. { rewrite E1, <- app_assoc. reflexivity. }
    assert (len (d ++ [c]) = len d + 1) as L by (rewrite len_app; reflexivity). constructor.
    + rewrite forallb_app, (ds_digits _ _ T). cbn [forallb]. now rewrite Hi.
    + intros acc. rewrite dec_num_app, (ds_num _ _ T). cbn [dec_num]. rewrite Hb, L, N.pow_add_r. change (10 ^ 1) with 10. lia.
    + intros r Er. pose proof (ds_ne _ _ T). destruct d as [|x d]; [congruence|]. cbn [app] in Er. inversion Er as [[E2 E3]].
      destruct (ds_zero _ _ T d) as (_ & Z0); [now rewrite E2|]. lia.
    + destruct d; discriminate.
Qed.
Lemma dec_text_spec n : n < 10 ^ 40 -> dec_spec n (dec_text n).
Proof.
  intros H. unfold dec_text. destruct (n =? 0) eqn:E.
  - replace n with 0 by lia. constructor; [reflexivity| |intros r Er; vm_compute in Er; inversion Er; auto|discriminate].
    intros acc. change (s! "0") with [x30]. cbn [dec_num]. change (b2n x30 - 48) with 0. change (len [x30]) with 1. lia.
  - destruct (dec_loop_spec 40 n []) as (d & E1 & T); [lia|exact H|]. rewrite app_nil_r in E1. now rewrite E1.
Qed.

Definition no_digit_first (s : bytes) : Prop := match s with c :: _ => is_digit c = false | [] => True end.
Lemma digits_app d r : forallb is_digit d = true -> no_digit_first r -> digits (d ++ r) = (d, r).
Proof.
  induction d as [|c d IH]; intros H Hr.
  - cbn [app]. destruct r as [|c r]; auto. cbn [digits]. now rewrite Hr.
  - cbn [forallb] in H. apply andb_true_iff in H as [H1 H2]. cbn [app digits]. rewrite H1, IH by auto. reflexivity.
Qed.

(** What may follow a printed integer without being read as part of it. *)
Definition stop (s : bytes) : Prop := match s with c :: _ => is_digit c = false /\ c <> x2e /\ c <> x65 /\ c <> x45 | [] => True end.
Lemma stop_digit s : stop s -> no_digit_first s.
Proof. destruct s as [|c s]; auto. intros (H & _). exact H. Qed.
Lemma stop_pfrac s : stop s -> pfrac s = Some ([], s).
Proof. destruct s as [|c s]; auto. intros (_ & H & _). unfold pfrac, eat. destruct (Byte.eqb c x2e) eqn:E; auto. apply byte_eqb_eq in E. congruence. Qed.
Lemma stop_pexp s : stop s -> pexp s = Some ([], s).
Proof. destruct s as [|c s]; auto. intros (_ & _ & H1 & H2). unfold pexp. destruct (Byte.eqb c x65) eqn:E; [apply byte_eqb_eq in E; congruence|].
  destruct (Byte.eqb c x45) eqn:E1; [apply byte_eqb_eq in E1; congruence|]. reflexivity. Qed.

(** ** Strings *)
Lemma hex2_digits c : hex_digit (hex_char (b2n c / 16)) = Some (b2n c / 16) /\ hex_digit (hex_char (b2n c mod 16)) = Some (b2n c mod 16).
Proof. destruct c; vm_compute; auto. Qed.
Lemma utf8_of_ascii c : b2n c < 128 -> utf8_of (b2n c) = [c].
Proof. intros H. unfold utf8_of. replace (b2n c <? 128) with true by lia. now rewrite n2b_b2n. Qed.

Lemma pstr_escape1 f c r : pstr (S f) (escape1 c ++ r) = match pstr f r with Some (t, r') => Some (c :: t, r') | None => None end.
Proof. destruct c; vm_compute escape1; cbn [app]; reflexivity. Qed.

Lemma pstr_escape s f rest : (length s < f)%nat -> pstr f (concat (map escape1 s) ++ x22 :: rest) = Some (s, rest).
Proof.
  revert f; induction s as [|c s IH]; intros f H.
  - destruct f as [|f]; [cbn in H; lia|]. reflexivity.
  - destruct f as [|f]; [cbn in H; lia|]. cbn [map concat]. rewrite <- app_assoc, pstr_escape1, IH by (cbn in H; lia). reflexivity.
Qed.
Lemma escape1_len c : (1 <= length (escape1 c))%nat.
Proof. destruct c; vm_compute; lia. Qed.
Lemma escape_len s : (length s <= length (concat (map escape1 s)))%nat.
Proof. induction s as [|c s IH]; cbn [map concat length]; auto. rewrite app_length. pose proof (escape1_len c). lia. Qed.
Lemma pstring_escape s rest : utf8 s = true -> pstring (concat (map escape1 s) ++ x22 :: rest) = Ok (s, rest).
Proof.
  intros H. unfold pstring. rewrite pstr_escape.
  - now rewrite H.
  - rewrite app_length. pose proof (escape_len s). cbn [length]. lia.
Qed.

(** ** Well-formed values *)
Fixpoint wfv (v : value) : Prop :=
  match v with
  | VNull | VBool _ => True
  | VInt z => is_i64 z = true
  | VFloat _ => False
  | VStr s => utf8 s = true
  | VArr l => (fix go l := match l with [] => True | x :: r => wfv x /\ go r end) l
  | VObj l => NoDup (map fst l) /\ (fix go (l : list (bytes * value)) := match l with [] => True | (k, x) :: r => utf8 k = true /\ wfv x /\ go r end) l
  end.
Lemma wfv_arr l : wfv (VArr l) <-> Forall wfv l.
Proof.
  split; induction l as [|x l IH]; cbn [wfv]; intros H.
  - constructor.
  - destruct H as (H1 & H2). constructor; auto.
  - exact I.
  - inversion H; subst. split; auto. apply IH. auto.
Qed.
Lemma wfv_obj l : wfv (VObj l) <-> NoDup (map fst l) /\ Forall (fun kv => utf8 (fst kv) = true /\ wfv (snd kv)) l.
Proof.
  cbn [wfv]. assert ((fix go (l : list (bytes * value)) := match l with [] => True | (k, x) :: r => utf8 k = true /\ wfv x /\ go r end) l <->
    Forall (fun kv => utf8 (fst kv) = true /\ wfv (snd kv)) l) as ->; [|tauto].
  induction l as [|(k, x) l IH]; split; intros H; [constructor|exact I| |].
  - destruct H as (H1 & H2 & H3). constructor; [split; auto|]. now apply IH.
  - inversion H as [|? ? (H1 & H2) H3]; subst. repeat split; auto. now apply IH.
Qed.

(** Nesting depth. *)
Fixpoint depth (v : value) : nat :=
  match v with
  | VArr l => S (fold_right (fun x n => Nat.max (depth x) n) O l)
  | VObj l => S (fold_right (fun kv n => Nat.max (depth (snd kv)) n) O l)
  | _ => O
  end.
Lemma depth_arr l x : In x l -> (depth x < depth (VArr l))%nat.
Proof. intros H. cbn [depth]. induction l as [|y l IH]; [destruct H|]. cbn [fold_right]. destruct H as [->|H]; [lia|]. apply IH in H. lia. Qed.
Lemma depth_obj l kv : In kv l -> (depth (snd kv) < depth (VObj l))%nat.
Proof. intros H. cbn [depth]. induction l as [|y l IH]; [destruct H|]. cbn [fold_right]. destruct H as [->|H]; [lia|]. apply IH in H. lia. Qed.

(** The serde_json value of a data value. *)
Fixpoint jof (v : value) : jval :=
  match v with
  | VNull => JNull
  | VBool b => JBool b
  | VInt z => if (z <? 0)%Z then JNeg (Z.to_N (- z)) else JPos (Z.to_N z)
  | VFloat t => JFloat t
  | VStr s => JStr s
  | VArr l => JArr (map jof l)
  | VObj l => JObj (map (fun kv => (fst kv, jof (snd kv))) l)
  end.

Lemma assoc_app {A} k (a b : list (bytes * A)) : assoc k (a ++ b) = match assoc k a with Some v => Some v | None => assoc k b end.
Proof. induction a as [|(k', v) a IH]; cbn [assoc app]; auto. destruct (beq k' k); auto. Qed.
Lemma assoc_none {A} k (l : list (bytes * A)) : ~ In k (map fst l) -> assoc k l = None.
Proof. induction l as [|(k', v) l IH]; intros H; cbn [assoc]; auto. cbn [map fst] in H. destruct (beq k' k) eqn:E; [|apply IH; firstorder].
  apply beq_eq in E. exfalso. apply H. now left. Qed.
Lemma assoc_none_iff {A} k (l : list (bytes * A)) : assoc k l = None <-> ~ In k (map fst l).
Proof.
  split; [|apply assoc_none]. induction l as [|(k', v) l IH]; cbn [assoc map fst]; intros H Hin; [destruct Hin|].
  destruct (beq k' k) eqn:E; [discriminate|]. destruct Hin as [->|Hin]; [rewrite beq_refl in E; discriminate|]. now apply IH.
Qed.
Lemma assoc_In {A} k v (l : list (bytes * A)) : assoc k l = Some v -> In (k, v) l.
Proof. induction l as [|(k', v') l IH]; cbn [assoc]; try discriminate. destruct (beq k' k) eqn:E; intros H; [|right; auto]. apply beq_eq in E. inversion H; subst. now left. Qed.
Lemma insert_new {A} k (v : A) l : ~ In k (map fst l) -> insert k v l = l ++ [(k, v)].
Proof.
  induction l as [|(k', v') l IH]; intros H; auto. cbn [insert]. cbn [map fst] in H. destruct (beq k' k) eqn:E.
  { apply beq_eq in E. exfalso. apply H. now left. } cbn [app]. rewrite IH; auto. intros Hin. apply H. now right.
Qed.
Lemma assoc_insert {A} k k' (v : A) l : assoc k' (insert k v l) = if beq k k' then Some v else assoc k' l.
Proof.
  induction l as [|(a, w) l IH]; cbn [insert assoc].
  - reflexivity.
  - destruct (beq a k) eqn:E; cbn [assoc].
    + apply beq_eq in E. subst a. destruct (beq k k'); reflexivity.
    + rewrite IH. destruct (beq a k') eqn:E2; auto. apply beq_eq in E2. subst a. destruct (beq k k') eqn:E3; auto.
      apply beq_eq in E3. subst. rewrite beq_refl in E. discriminate.
Qed.
Lemma insert_keys {A} k (v : A) l : map fst (insert k v l) = if contains_key k l then map fst l else map fst l ++ [k].
Proof.
  unfold contains_key. induction l as [|(a, w) l IH]; cbn [insert assoc map fst app]; auto.
  destruct (beq a k) eqn:E; cbn [map fst]; auto. rewrite IH. destruct (assoc k l); auto.
Qed.
Lemma NoDup_snoc {A} (l : list A) x : NoDup l -> ~ In x l -> NoDup (l ++ [x]).
Proof. intros H N. apply NoDup_rev in H. rewrite <- (rev_involutive (l ++ [x])). apply NoDup_rev. rewrite rev_app_distr. cbn. constructor; auto. now rewrite <- in_rev. Qed.
Lemma insert_NoDup {A} k (v : A) l : NoDup (map fst l) -> NoDup (map fst (insert k v l)).
Proof.
  intros H. rewrite insert_keys. unfold contains_key. destruct (assoc k l) eqn:E; auto. apply assoc_none_iff in E.
  apply NoDup_snoc; auto.
Qed.

(** ** Printer against parser *)
Lemma skip_ws_nows c t : is_ws c = false -> skip_ws (c :: t) = c :: t.
Proof. intros H. cbn [skip_ws]. now rewrite H. Qed.
Lemma digit_nows c : is_digit c = true -> is_ws c = false.
Proof. unfold is_digit. destruct c; intros H; try discriminate H; reflexivity. Qed.
Lemma digit_neq c x : is_digit c = true -> is_digit x = false -> Byte.eqb c x = false.
Proof. intros H1 H2. destruct (Byte.eqb c x) eqn:E; auto. apply byte_eqb_eq in E. congruence. Qed.

Section Canon.
Variable canon : bytes -> option bytes.

Lemma pval_step f d s : pval canon (S f) d s =
    match skip_ws s with
    | [] => Err EForeign
    | c :: r =>
      if Byte.eqb c x6e then plit (s! "ull") JNull r
      else if Byte.eqb c x74 then plit (s! "rue") (JBool true) r
      else if Byte.eqb c x66 then plit (s! "alse") (JBool false) r
      else if Byte.eqb c x2d then pnum canon true r
      else if is_digit c then pnum canon false (c :: r)
      else if Byte.eqb c x22 then let* t := pstring r in Ok (JStr (fst t), snd t)
      else if Byte.eqb c x5b then
        match d with
        | S (S _ as d) =>
          match eat x5d (skip_ws r) with
          | Some r' => Ok (JArr [], r')
          | None => let* t := parr canon f d (skip_ws r) in Ok (JArr (fst t), snd t)
          end
        | _ => Err EForeign
        end
      else if Byte.eqb c x7b then
        match d with
        | S (S _ as d) =>
          match eat x7d (skip_ws r) with
          | Some r' => Ok (JObj [], r')
          | None => let* t := pobj canon f d [] (skip_ws r) in Ok (JObj (fst t), snd t)
          end
        | _ => Err EForeign
        end
      else Err EForeign
    end.
Proof. reflexivity. Qed.
Lemma parr_step f d s : parr canon (S f) d s =
    let* t := pval canon f d s in
    match eat x5d (skip_ws (snd t)) with
    | Some r => Ok ([fst t], r)
    | None =>
      match eat x2c (skip_ws (snd t)) with
      | Some r => let* u := parr canon f d r in Ok (fst t :: fst u, snd u)
      | None => Err EForeign
      end
    end.
Proof. reflexivity. Qed.
Lemma pobj_step f d acc s : pobj canon (S f) d acc s =
    match eat x22 (skip_ws s) with
    | None => Err EForeign
    | Some r =>
      let* k := pstring r in
      match eat x3a (skip_ws (snd k)) with
      | None => Err EForeign
      | Some r2 =>
        let* t := pval canon f d r2 in
        match eat x7d (skip_ws (snd t)) with
        | Some r' => Ok (insert (fst k) (fst t) acc, r')
        | None =>
          match eat x2c (skip_ws (snd t)) with
          | Some r' => pobj canon f d (insert (fst k) (fst t) acc) r'
          | None => Err EForeign
          end
        end
      end
    end.
Proof. reflexivity. Qed.

Lemma beq_take_lit lit rest : beq (take (len lit) (lit ++ rest)) lit = true /\ drop (len lit) (lit ++ rest) = rest.
Proof. rewrite take_app_exact, drop_app_exact by auto. split; auto. apply beq_refl. Qed.
Lemma plit_app lit j rest : plit lit j (lit ++ rest) = Ok (j, rest).
Proof. unfold plit. destruct (beq_take_lit lit rest) as (-> & ->). reflexivity. Qed.

Lemma dec_first n : n < 10 ^ 40 -> exists c d, dec_text n = c :: d /\ is_digit c = true.
Proof.
  intros H. pose proof (dec_text_spec n H) as T. pose proof (ds_ne _ _ T). destruct (dec_text n) as [|c d] eqn:E; [congruence|].
  exists c, d. split; auto. pose proof (ds_digits _ _ T) as D. cbn [forallb] in D. now apply andb_true_iff in D as [D _].
Qed.
Lemma dec_lead n : n < 10 ^ 40 -> bad_lead (dec_text n) = false.
Proof.
  intros H. pose proof (dec_text_spec n H) as T. pose proof (ds_ne _ _ T). destruct (dec_text n) as [|c [|c2 d]] eqn:E; [congruence|cbn; now destruct (Byte.eqb c x30)|].
  cbn [bad_lead]. destruct (Byte.eqb c x30) eqn:Ec; auto. apply byte_eqb_eq in Ec. subst. destruct (ds_zero _ _ T (c2 :: d) eq_refl) as (Q & _). discriminate.
Qed.

Lemma pnum_pos n rest : n <= u64_max -> stop rest -> pnum canon false (dec_text n ++ rest) = Ok (JPos n, rest).
Proof.
  intros H Hs. assert (n < 10 ^ 40) as Hn by (unfold u64_max in H; change (10 ^ 40) with 10000000000000000000000000000000000000000; lia).
  pose proof (dec_text_spec n Hn) as T. unfold pnum. rewrite digits_app by (auto using stop_digit; apply T).
  rewrite dec_lead by auto. rewrite stop_pfrac, stop_pexp by auto. cbv zeta. rewrite (ds_num _ _ T). replace (0 * 10 ^ len (dec_text n) + n) with n by lia.
  destruct (u64_max <? n) eqn:E; [lia|]. reflexivity.
Qed.
Lemma pnum_neg n rest : 0 < n -> n <= i64_min_abs -> stop rest -> pnum canon true (dec_text n ++ rest) = Ok (JNeg n, rest).
Proof.
  intros H0 H Hs. unfold i64_min_abs in H. assert (n < 10 ^ 40) as Hn by (change (10 ^ 40) with 10000000000000000000000000000000000000000; lia).
  pose proof (dec_text_spec n Hn) as T. unfold pnum. rewrite digits_app by (auto using stop_digit; apply T).
  rewrite dec_lead by auto. rewrite stop_pfrac, stop_pexp by auto. cbv zeta. rewrite (ds_num _ _ T). replace (0 * 10 ^ len (dec_text n) + n) with n by lia.
  unfold u64_max, i64_min_abs. destruct (18446744073709551615 <? n) eqn:E; [lia|]. destruct (n =? 0) eqn:E0; [lia|].
  destruct (9223372036854775808 <? n) eqn:E1; [lia|]. reflexivity.
Qed.

Lemma pval_int f d z rest : is_i64 z = true -> stop rest -> pval canon (S f) d (int_text z ++ rest) = Ok (jof (VInt z), rest).
Proof.
  intros H Hs. unfold is_i64 in H. unfold int_text. cbn [jof]. destruct (z <? 0)%Z eqn:E.
  - change (pval canon (S f) d ((x2d :: dec_text (Z.to_N (- z))) ++ rest)) with (pnum canon true (dec_text (Z.to_N (- z)) ++ rest)).
    apply pnum_neg; auto; unfold i64_min_abs; lia.
  - destruct (dec_first (Z.to_N z)) as (c & t & Ed & Hc). { change (10 ^ 40) with 10000000000000000000000000000000000000000. lia. }
    pose proof (pnum_pos (Z.to_N z) rest) as P. rewrite Ed in *. cbn [app] in *. 
    replace (pval canon (S f) d (c :: t ++ rest)) with (pnum canon false (c :: t ++ rest)).
    + apply P; auto. unfold u64_max. lia.
    + rewrite pval_step, skip_ws_nows by (now apply digit_nows). rewrite !(digit_neq c) by (auto; reflexivity). now rewrite Hc.
Qed.

Definition jsize (v : value) : nat := length (to_json v).
Definition members (m : list (bytes * value)) : list bytes := map (fun kv => json_string (fst kv) ++ x3a :: to_json (snd kv)) m.

Lemma join_cons2 sep x y r : join sep (x :: y :: r) = x ++ sep ++ join sep (y :: r).
Proof. reflexivity. Qed.

(** First character of a printed value: never white space nor a closing bracket. *)
Lemma json_first v : wfv v -> exists c t, to_json v = c :: t /\ is_ws c = false /\ c <> x5d /\ c <> x7d.
Proof.
  intros W. destruct v as [|b|z|t|s|l|m].
  - do 2 eexists. split; [reflexivity|]. repeat split; try reflexivity; discriminate.
  - destruct b; do 2 eexists; (split; [reflexivity|]); repeat split; try reflexivity; discriminate.
  - cbn [to_json wfv] in *. unfold int_text, is_i64 in *. destruct (z <? 0)%Z eqn:E.
    + do 2 eexists. split; [reflexivity|]. repeat split; try reflexivity; discriminate.
    + destruct (dec_first (Z.to_N z)) as (c & t & Ed & Hc). { change (10 ^ 40) with 10000000000000000000000000000000000000000. lia. }
      exists c, t. split; auto. unfold is_digit in Hc. destruct c; try discriminate Hc; repeat split; discriminate.
  - destruct W.
  - do 2 eexists. split; [reflexivity|]. repeat split; try reflexivity; discriminate.
  - do 2 eexists. split; [reflexivity|]. repeat split; try reflexivity; discriminate.
  - do 2 eexists. split; [reflexivity|]. repeat split; try reflexivity; discriminate.
Qed.


Definition pval_spec (v : value) : Prop := forall f d rest, (depth v < d)%nat -> (2 * jsize v <= f)%nat -> stop rest ->
  pval canon f d (to_json v ++ rest) = Ok (jof v, rest).

Lemma stop_cons c r : is_digit c = false -> c <> x2e -> c <> x65 -> c <> x45 -> stop (c :: r).
Proof. intros. cbn. auto. Qed.

Lemma parr_print l : l <> [] -> Forall wfv l -> Forall pval_spec l -> forall f d rest,
  (forall x, In x l -> (depth x < d)%nat) -> (2 * length (join [x2c] (map to_json l)) + 1 <= f)%nat ->
  parr canon f d (join [x2c] (map to_json l) ++ x5d :: rest) = Ok (map jof l, rest).
Proof.
  intros Hne W H. induction H as [|x l Hx Hl IH]; [congruence|]. intros f d rest Hd Hf. inversion W as [|? ? Wx Wl]; subst.
  destruct f as [|f]; [exfalso; lia|]. rewrite parr_step.
  assert (stop (x5d :: rest)) as S1 by (apply stop_cons; [reflexivity|discriminate..]).
  destruct l as [|y l].
  - cbn [map join]. cbn [map join] in Hf. rewrite (Hx f d); [|apply Hd; now left|unfold jsize; lia|exact S1]. rewrite bind_Ok. reflexivity.
  - cbn [map] in *. rewrite join_cons2 in *. rewrite <- !app_assoc. rewrite !app_length in Hf. cbn [length] in Hf.
    rewrite (Hx f d); [|apply Hd; now left|unfold jsize; lia|apply stop_cons; [reflexivity|discriminate..]].
    rewrite bind_Ok. cbn [fst snd app]. rewrite skip_ws_nows by reflexivity.
    match goal with |- context [eat x5d (x2c :: ?q)] => change (eat x5d (x2c :: q)) with (@None bytes); change (eat x2c (x2c :: q)) with (Some q) end.
    cbv beta iota. rewrite IH; auto; [discriminate|intros; apply Hd; now right|lia].
Qed.

Lemma jsize_pos v : wfv v -> (1 <= jsize v)%nat.
Proof. intros W. destruct (json_first v W) as (c & t & E & _). unfold jsize. rewrite E. cbn. lia. Qed.

Lemma pobj_print m : m <> [] -> NoDup (map fst m) -> Forall (fun kv => utf8 (fst kv) = true /\ wfv (snd kv)) m -> Forall (fun kv => pval_spec (snd kv)) m ->
  forall f d acc rest, (forall kv, In kv m -> (depth (snd kv) < d)%nat) -> (2 * length (join [x2c] (members m)) + 1 <= f)%nat ->
  (forall k, In k (map fst acc) -> ~ In k (map fst m)) ->
  pobj canon f d acc (join [x2c] (members m) ++ x7d :: rest) = Ok (acc ++ map (fun kv => (fst kv, jof (snd kv))) m, rest).
Proof.
  intros Hne ND W H. induction H as [|(k, x) m Hx Hl IH]; [congruence|]. intros f d acc rest Hd Hf Hacc. inversion W as [|? ? (Wk & Wx) Wl]; subst. cbn [fst snd] in *.
  destruct f as [|f]; [exfalso; lia|]. inversion ND as [|? ? N1 N2]; subst.
  assert (forall r, (2 * jsize x + 3 <= f)%nat -> stop r -> pobj canon (S f) d acc ((json_string k ++ x3a :: to_json x) ++ r) =
    match eat x7d (skip_ws r) with
    | Some r' => Ok (insert k (jof x) acc, r')
    | None => match eat x2c (skip_ws r) with Some r' => pobj canon f d (insert k (jof x) acc) r' | None => Err EForeign end
    end) as Step.
  { intros r Lf Sr. rewrite pobj_step. unfold json_string. rewrite <- !app_assoc. cbn [app]. rewrite skip_ws_nows by reflexivity.
    match goal with |- context [eat x22 (x22 :: ?q)] => change (eat x22 (x22 :: q)) with (Some q) end. cbv beta iota. rewrite <- !app_assoc. cbn [app].
    rewrite pstring_escape by auto. rewrite bind_Ok. cbn [fst snd]. rewrite skip_ws_nows by reflexivity.
    match goal with |- context [eat x3a (x3a :: ?q)] => change (eat x3a (x3a :: q)) with (Some q) end. cbv beta iota. rewrite (Hx f d); [|exact (Hd (k, x) (or_introl eq_refl))|lia|exact Sr].
    rewrite bind_Ok. reflexivity. }
  assert (insert k (jof x) acc = acc ++ [(k, jof x)]) as Ei. { apply insert_new. intros Hin. apply (Hacc k Hin). now left. }
  assert (length (json_string k ++ x3a :: to_json x) >= jsize x + 3)%nat as Lk.
  { unfold json_string. rewrite app_length. cbn [length]. rewrite app_length. cbn [length]. unfold jsize. lia. }
  destruct m as [|(k2, y) m].
  - cbn [members map join fst snd] in *. rewrite Step; [|lia|apply stop_cons; [reflexivity|discriminate..]]. rewrite skip_ws_nows by reflexivity. change (eat x7d (x7d :: rest)) with (Some rest). now rewrite Ei.
  - unfold members in *. cbn [map fst snd] in *. rewrite join_cons2 in *. rewrite <- (app_assoc (json_string k ++ x3a :: to_json x)). rewrite <- (app_assoc [x2c]).
    rewrite !app_length in Hf. cbn [length] in Hf. rewrite !app_length in Lk. cbn [length] in Lk.
    rewrite Step; [|lia|apply stop_cons; [reflexivity|discriminate..]]. cbn [app]. rewrite skip_ws_nows by reflexivity.
    match goal with |- context [eat x7d (x2c :: ?q)] => change (eat x7d (x2c :: q)) with (@None bytes); change (eat x2c (x2c :: q)) with (Some q) end.
    cbv beta iota. rewrite Ei.
    rewrite IH; auto.
    + now rewrite <- app_assoc.
    + discriminate.
    + intros kv Hin. apply Hd. now right.
    + lia.
    + intros k' Hin. rewrite map_app in Hin. apply in_app_iff in Hin as [Hin|[<-|[]]]; auto. intros Hin'. apply (Hacc k' Hin). now right.
Qed.

Lemma pval_print v : wfv v -> pval_spec v.
Proof.
  induction v as [|b|z|t|s|l IH|m IH] using value_ind'; intros W f d rest Hd Hf Hs.
  - destruct f as [|f]; [cbn in Hf; lia|]. reflexivity.
  - destruct f as [|f]; [destruct b; cbn in Hf; lia|]. destruct b; reflexivity.
  - pose proof (jsize_pos _ W). destruct f as [|f]; [lia|]. now apply pval_int.
  - destruct W.
  - pose proof (jsize_pos _ W). destruct f as [|f]; [lia|]. cbn [to_json]. unfold json_string. cbn [app]. rewrite pval_step, skip_ws_nows by reflexivity. rewrite <- app_assoc. cbn [app].
    match goal with |- ?x = _ => let r := constr:(concat (map escape1 s) ++ x22 :: rest) in change x with (let* t := pstring r in Ok (JStr (fst t), snd t)) end.
    rewrite pstring_escape by auto. rewrite bind_Ok. reflexivity.
  - apply wfv_arr in W. assert (Forall pval_spec l) as Hp. { clear - IH W. induction IH; inversion W; subst; constructor; auto. }
    unfold jsize in Hf. cbn [to_json length] in Hf. rewrite app_length in Hf. cbn [length] in Hf. destruct f as [|f]; [lia|].
    assert (forall x, In x l -> (depth x < pred d)%nat) as Hx. { intros x Hin. pose proof (depth_arr l x Hin). lia. }
    destruct d as [|[|d]]; [cbn in Hd; lia|cbn in Hd; lia|]. cbn [pred] in Hx.
    cbn [to_json app]. rewrite pval_step, skip_ws_nows by reflexivity. rewrite <- app_assoc. cbn [app]. set (q := join [x2c] (map to_json l) ++ x5d :: rest) in *.
    match goal with |- ?x = _ => change x with (match eat x5d (skip_ws q) with Some r' => Ok (JArr [], r')
      | None => let* t := parr canon f (S d) (skip_ws q) in Ok (JArr (fst t), snd t) end) end.
    destruct l as [|x l].
    + reflexivity.
    + destruct (json_first x) as (c & t & E & Ew & E1 & E2); [now inversion W|].
      set (body := join [x2c] (map to_json (x :: l)) ++ x5d :: rest) in *.
      assert (exists t', body = c :: t') as (t' & Eb).
      { unfold body. cbn [map]. destruct (map to_json l) as [|y r]; [cbn [join]|rewrite join_cons2]; rewrite E; cbn [app]; eauto. }
      assert (parr canon f (S d) body = Ok (map jof (x :: l), rest)) as Hb. { unfold body. apply parr_print; auto; [discriminate|lia]. }
      change q with body. rewrite Eb in *. rewrite skip_ws_nows by auto. cbn [eat]. destruct (Byte.eqb c x5d) eqn:Ec; [apply byte_eqb_eq in Ec; congruence|].
      rewrite Hb, bind_Ok. reflexivity.
  - apply wfv_obj in W as (ND & W). assert (Forall (fun kv => pval_spec (snd kv)) m) as Hp.
    { clear - IH W. induction IH; inversion W as [|? ? (W1 & W2) W3]; subst; constructor; auto. }
    unfold jsize in Hf. cbn [to_json length] in Hf. fold (members m) in Hf. rewrite app_length in Hf. cbn [length] in Hf. destruct f as [|f]; [lia|].
    assert (forall x, In x m -> (depth (snd x) < pred d)%nat) as Hx. { intros x Hin. pose proof (depth_obj m x Hin). lia. }
    destruct d as [|[|d]]; [cbn in Hd; lia|cbn in Hd; lia|]. cbn [pred] in Hx.
    cbn [to_json app]. fold (members m). rewrite pval_step, skip_ws_nows by reflexivity. rewrite <- app_assoc. cbn [app]. set (q := join [x2c] (members m) ++ x7d :: rest) in *.
    match goal with |- ?x = _ => change x with (match eat x7d (skip_ws q) with Some r' => Ok (JObj [], r')
      | None => let* t := pobj canon f (S d) [] (skip_ws q) in Ok (JObj (fst t), snd t) end) end.
    destruct m as [|(k, x) m].
    + reflexivity.
    + set (body := join [x2c] (members ((k, x) :: m)) ++ x7d :: rest) in *.
      assert (exists t', body = x22 :: t') as (t' & Eb).
      { unfold body, members. cbn [map fst snd]. destruct (map _ m) as [|y r]; [cbn [join]|rewrite join_cons2]; cbn [json_string app]; eauto. }
      assert (pobj canon f (S d) [] body = Ok (map (fun kv => (fst kv, jof (snd kv))) ((k, x) :: m), rest)) as Hb.
      { unfold body. apply (pobj_print ((k, x) :: m)); auto; [discriminate|lia]. }
      change q with body. rewrite Eb in *. rewrite skip_ws_nows by reflexivity. change (eat x7d (x22 :: t')) with (@None bytes). cbv beta iota. rewrite Hb, bind_Ok. reflexivity.
Qed.

Lemma of_json_jof v : wfv v -> of_json (jof v) = Ok v.
Proof.
  induction v as [|b|z|t|s|l IH|m IH] using value_ind'; intros W; try reflexivity.
  - cbn [wfv] in W. unfold is_i64 in W. cbn [jof]. destruct (z <? 0)%Z eqn:E; cbn [of_json].
    + do 2 f_equal. lia.
    + unfold i64_max. destruct (_ <=? _) eqn:Q; [|lia]. do 2 f_equal. lia.
  - destruct W.
  - apply wfv_arr in W. cbn [jof of_json].
    set (go := fix go (l : list jval) : R (list value) := match l with [] => Ok [] | j :: r => let* v := of_json j in let* vs := go r in Ok (v :: vs) end).
    assert (go (map jof l) = Ok l) as ->; [|reflexivity].
    induction IH as [|x l Hx Hl IHl]; auto. inversion W; subst. cbn [map]. cbn [go]. fold go. rewrite Hx, bind_Ok, IHl, bind_Ok; auto.
  - apply wfv_obj in W as (ND & W). cbn [jof of_json].
    set (go := fix go (l : list (bytes * jval)) (acc : list (bytes * value)) : R (list (bytes * value)) :=
                 match l with [] => Ok acc | (k, j) :: r => let* v := of_json j in go r (insert k v acc) end).
    assert (forall acc, (forall k, In k (map fst acc) -> ~ In k (map fst m)) -> go (map (fun kv => (fst kv, jof (snd kv))) m) acc = Ok (acc ++ m)) as G.
    { induction IH as [|(k, x) m Hx Hl IHl]; intros acc Ha. { cbn. now rewrite app_nil_r. }
      inversion W as [|? ? (W1 & W2) W3]; subst. inversion ND as [|? ? N1 N2]; subst. cbn [fst snd map] in *. cbn [go]. fold go.
      rewrite Hx, bind_Ok by auto. rewrite insert_new by (intros Hin; apply (Ha k Hin); now left).
      rewrite IHl; auto; [now rewrite <- app_assoc|]. intros k' Hin. rewrite map_app in Hin. apply in_app_iff in Hin as [Hin|[<-|[]]]; auto.
      intros Hin'. apply (Ha k' Hin). now right. }
    rewrite G by (intros k []). reflexivity.
Qed.

Theorem pjson_print v : wfv v -> (depth v < 128)%nat -> pjson canon (to_json v) = Ok (jof v).
Proof.
  intros W D. unfold pjson. pose proof (pval_print v W (length (to_json v) + length (to_json v) + 2)%nat 128%nat [] D) as H.
  rewrite app_nil_r in H. rewrite H; [reflexivity|unfold jsize; lia|exact I].
Qed.
Theorem value_of_text_print v : wfv v -> (depth v < 128)%nat -> value_of_text canon (to_json v) = Ok v.
Proof. intros W D. unfold value_of_text. rewrite pjson_print, bind_Ok by auto. now apply of_json_jof. Qed.

Lemma to_json_prefix v w r : wfv v -> wfv w -> stop r -> to_json w = to_json v ++ r -> v = w /\ r = [].
Proof.
  intros Wv Ww Hr E. set (d := S (Nat.max (depth v) (depth w))). set (f := (2 * (jsize v + jsize w))%nat).
  pose proof (pval_print v Wv f d r) as Hv. pose proof (pval_print w Ww f d []) as Hw. rewrite app_nil_r, E in Hw.
  rewrite Hv in Hw; [|unfold d; lia|unfold f; lia|auto]. specialize (Hw ltac:(unfold d; lia) ltac:(unfold f; lia) I). inversion Hw as [[E1 E2]]. split; auto.
  pose proof (of_json_jof v Wv) as Ov. pose proof (of_json_jof w Ww) as Ow. congruence.
Qed.
End Canon.

(** ** The parser consumes its input and never runs out of fuel *)
Section Fuel.
Variable canon : bytes -> option bytes.

Lemma skip_ws_len s : (length (skip_ws s) <= length s)%nat.
Proof. induction s as [|c s IH]; cbn [skip_ws]; auto. destruct (is_ws c); cbn [length]; lia. Qed.
Lemma digits_len s d r : digits s = (d, r) -> (length s = length d + length r)%nat.
Proof.
  revert d r; induction s as [|c s IH]; intros d r H; cbn [digits] in H; [inversion H; auto|].
  destruct (is_digit c). - destruct (digits s) as (d', r') eqn:E. inversion H; subst. cbn [length]. rewrite (IH _ _ eq_refl). lia. - inversion H; subst. reflexivity.
Qed.
Lemma eat_len c s r : eat c s = Some r -> (length s = 1 + length r)%nat.
Proof. destruct s as [|x s]; [discriminate|]. cbn [eat]. destruct (Byte.eqb x c); [|discriminate]. intros H; inversion H; subst. reflexivity. Qed.
Lemma pfrac_len s f r : pfrac s = Some (f, r) -> (length r <= length s)%nat.
Proof.
  unfold pfrac. destruct (eat x2e s) as [q|] eqn:E; [|intros H; inversion H; auto]. apply eat_len in E.
  destruct (digits q) as ([|x d], r') eqn:E1; [discriminate|]. intros H; inversion H; subst. apply digits_len in E1. cbn [length] in *. lia.
Qed.
Lemma psign_len s g r : psign s = (g, r) -> (length r <= length s)%nat.
Proof.
  unfold psign. destruct (eat x2b s) eqn:E; [apply eat_len in E; intros H; inversion H; subst; lia|].
  destruct (eat x2d s) eqn:E1; [apply eat_len in E1; intros H; inversion H; subst; lia|]. intros H; inversion H; subst; lia.
Qed.
Lemma pexp_len s f r : pexp s = Some (f, r) -> (length r <= length s)%nat.
Proof.
  unfold pexp. destruct s as [|c s]; [intros H; inversion H; subst; auto|]. destruct (_ || _); [|intros H; inversion H; auto].
  destruct (psign s) as (g, q) eqn:E. apply psign_len in E. destruct (digits q) as ([|x d], r') eqn:E1; [discriminate|]. intros H; inversion H; subst.
  apply digits_len in E1. cbn [length] in *. lia.
Qed.
Lemma pnum_len neg s j r : pnum canon neg s = Ok (j, r) -> (length r < length s)%nat.
Proof.
  unfold pnum. destruct (digits s) as (d, r0) eqn:E. apply digits_len in E. cbv zeta.
  destruct (bad_lead d) eqn:Ed; [discriminate|].
  assert (1 <= length d)%nat as Ld by (destruct d; [discriminate|cbn; lia]).
  destruct (pfrac r0) as [(fr, r1)|] eqn:E1; [|discriminate]. apply pfrac_len in E1. destruct (pexp r1) as [(ex, r2)|] eqn:E2; [|discriminate]. apply pexp_len in E2.
  assert (forall t q, pfloat canon t q = Ok (j, r) -> r = q) as Hpf. { unfold pfloat. intros t q. destruct (canon t); [|discriminate]. intros H; now inversion H. }
  destruct fr as [|a fr]; [destruct ex as [|b ex]|].
  - destruct (u64_max <? _). { intros H. apply Hpf in H. subst. lia. }
    destruct neg; [|intros H; inversion H; subst; lia].
    destruct (_ || _). { intros H. apply Hpf in H. subst. lia. } intros H; inversion H; subst; lia.
  - intros H. apply Hpf in H. subst. lia.
  - intros H. apply Hpf in H. subst. lia.
Qed.
Lemma pnum_np neg s : pnum canon neg s <> Panic.
Proof.
  unfold pnum. destruct (digits s) as (d, r0). cbv zeta. destruct (bad_lead d); [discriminate|].
  assert (forall t q, pfloat canon t q <> Panic) as Hp. { intros t q. unfold pfloat. destruct (canon t); discriminate. }
  destruct (pfrac r0) as [(fr, r1)|]; [|discriminate]. destruct (pexp r1) as [(ex, r2)|]; [|discriminate].
  destruct fr; [destruct ex|]; auto. destruct (_ <? _); auto. destruct neg; [|discriminate]. destruct (_ || _); auto. discriminate.
Qed.
Lemma hex4_len s n r : hex4 s = Some (n, r) -> (length s = 4 + length r)%nat.
Proof.
  unfold hex4. destruct s as [|a [|b [|c [|d s]]]]; try discriminate. destruct (hex_digit a), (hex_digit b), (hex_digit c), (hex_digit d); try discriminate.
  intros H; inversion H; subst. reflexivity.
Qed.
Lemma unescape_len s u r : unescape s = Some (u, r) -> (length r < length s)%nat.
Proof.
  unfold unescape. destruct s as [|c s]; [discriminate|]. cbn [length]. destruct (simple_escape c); [intros H; inversion H; subst; lia|].
  destruct (negb _); [discriminate|]. destruct (hex4 s) as [(n, r1)|] eqn:E; [|discriminate]. apply hex4_len in E.
  destruct ((56320 <=? n) && (n <=? 57343)); [discriminate|]. destruct ((55296 <=? n) && (n <=? 56319)); [|intros H; inversion H; subst; lia].
  destruct (eat x5c r1) as [q|] eqn:E1; [|discriminate]. apply eat_len in E1. destruct (eat x75 q) as [q2|] eqn:E2; [|discriminate]. apply eat_len in E2.
  destruct (hex4 q2) as [(n2, r3)|] eqn:E3; [|discriminate]. apply hex4_len in E3. destruct (_ && _); [|discriminate]. intros H; inversion H; subst. lia.
Qed.
Lemma pstr_len f s t r : pstr f s = Some (t, r) -> (length r < length s)%nat.
Proof.
  revert s t r; induction f as [|f IH]; intros s t r H; [discriminate|]. cbn [pstr] in H. destruct s as [|c s]; [discriminate|].
  destruct (Byte.eqb c x22); [inversion H; subst; cbn; lia|]. destruct (Byte.eqb c x5c).
  - destruct (unescape s) as [(u, r1)|] eqn:E; [|discriminate]. apply unescape_len in E. destruct (pstr f r1) as [(t2, r2)|] eqn:E2; [|discriminate].
    apply IH in E2. inversion H; subst. cbn [length]. lia.
  - destruct (_ <? _); [discriminate|]. destruct (pstr f s) as [(t2, r2)|] eqn:E2; [|discriminate].
    apply IH in E2. inversion H; subst. cbn [length]. lia.
Qed.
Lemma pstring_len s t r : pstring s = Ok (t, r) -> (length r < length s)%nat.
Proof. unfold pstring. destruct (pstr _ s) as [(t', r')|] eqn:E; [|discriminate]. destruct (utf8 t'); [|discriminate]. intros H; inversion H; subst. eapply pstr_len; eauto. Qed.
Lemma pstring_np s : pstring s <> Panic.
Proof. unfold pstring. destruct (pstr _ s) as [(t', r')|]; [|discriminate]. destruct (utf8 t'); discriminate. Qed.
Lemma plit_len lit j s x r : plit lit j s = Ok (x, r) -> (length r <= length s)%nat.
Proof. unfold plit. destruct (beq _ _); [|discriminate]. intros H; inversion H; subst. unfold drop. rewrite skipn_length. lia. Qed.

(** The ways a value can begin. *)
Lemma pval_cases f d s (P : R (jval * bytes) -> Prop) :
  P (Err EForeign) ->
  (forall r lit j, (length r < length s)%nat -> P (plit lit j r)) ->
  (forall neg r, (length r <= length s)%nat -> P (pnum canon neg r)) ->
  (forall r, (length r < length s)%nat -> P (let* t := pstring r in Ok (JStr (fst t), snd t))) ->
  (forall r j, (length r < length s)%nat -> P (Ok (j, r))) ->
  (forall r d, (length r < length s)%nat -> P (let* t := parr canon f d r in Ok (JArr (fst t), snd t))) ->
  (forall r d, (length r < length s)%nat -> P (let* t := pobj canon f d [] r in Ok (JObj (fst t), snd t))) ->
  P (pval canon (S f) d s).
Proof.
  intros P0 P1 P2 P3 P4 P5 P6. rewrite pval_step. pose proof (skip_ws_len s) as L. destruct (skip_ws s) as [|c r]; auto. cbn [length] in L.
  assert (length r < length s)%nat as L' by lia. pose proof (skip_ws_len r) as L2.
  destruct (Byte.eqb c x6e); [now apply P1|]. destruct (Byte.eqb c x74); [now apply P1|]. destruct (Byte.eqb c x66); [now apply P1|].
  destruct (Byte.eqb c x2d); [apply P2; lia|]. destruct (is_digit c); [apply P2; auto|]. destruct (Byte.eqb c x22); [now apply P3|].
  destruct (Byte.eqb c x5b).
  { destruct d as [|[|d]]; auto. destruct (eat x5d (skip_ws r)) eqn:E; [apply eat_len in E; apply P4; lia|apply P5; lia]. }
  destruct (Byte.eqb c x7b); auto.
  destruct d as [|[|d]]; auto. destruct (eat x7d (skip_ws r)) eqn:E; [apply eat_len in E; apply P4; lia|apply P6; lia].
Qed.

Lemma consume f : (forall d s j r, pval canon f d s = Ok (j, r) -> (length r < length s)%nat) /\
  (forall d s l r, parr canon f d s = Ok (l, r) -> (length r < length s)%nat) /\
  (forall d acc s l r, pobj canon f d acc s = Ok (l, r) -> (length r < length s)%nat).
Proof.
  induction f as [|f (IH1 & IH2 & IH3)]; [repeat split; intros; discriminate|]. split; [|split].
  - intros d s j r. apply (pval_cases f d s (fun x => x = Ok (j, r) -> (length r < length s)%nat)).
    + discriminate.
    + intros q lit j' L H. apply plit_len in H. lia.
    + intros neg q L H. apply pnum_len in H. lia.
    + intros q L H. apply bind_ok in H as ((u & q') & H1 & H). apply pstring_len in H1. inversion H; subst. cbn [snd]. lia.
    + intros q j' L H. inversion H; subst. lia.
    + intros q d' L H. apply bind_ok in H as ((u & q') & H1 & H). apply IH2 in H1. inversion H; subst. cbn [snd]. lia.
    + intros q d' L H. apply bind_ok in H as ((u & q') & H1 & H). apply IH3 in H1. inversion H; subst. cbn [snd]. lia.
  - intros d s l r H. rewrite parr_step in H. apply bind_ok in H as ((j & q) & H1 & H). apply IH1 in H1. cbn [fst snd] in H. pose proof (skip_ws_len q) as L.
    destruct (eat x5d (skip_ws q)) eqn:E; [apply eat_len in E; inversion H; subst; lia|].
    destruct (eat x2c (skip_ws q)) eqn:E1; [|discriminate]. apply eat_len in E1. apply bind_ok in H as ((l' & q2) & H2 & H). apply IH2 in H2. inversion H; subst. cbn [snd]. lia.
  - intros d acc s l r H. rewrite pobj_step in H. pose proof (skip_ws_len s) as L0. destruct (eat x22 (skip_ws s)) eqn:E; [|discriminate]. apply eat_len in E.
    apply bind_ok in H as ((k & q) & H1 & H). apply pstring_len in H1. cbn [fst snd] in H. pose proof (skip_ws_len q) as L.
    destruct (eat x3a (skip_ws q)) eqn:E1; [|discriminate]. apply eat_len in E1. apply bind_ok in H as ((j & q2) & H2 & H). apply IH1 in H2. cbn [fst snd] in H. pose proof (skip_ws_len q2) as L2.
    destruct (eat x7d (skip_ws q2)) eqn:E2; [apply eat_len in E2; inversion H; subst; lia|].
    destruct (eat x2c (skip_ws q2)) eqn:E3; [|discriminate]. apply eat_len in E3. apply IH3 in H. lia.
Qed.

Lemma enough f : (forall d s, (2 * length s < f)%nat -> pval canon f d s <> Panic) /\
  (forall d s, (2 * length s + 1 < f)%nat -> parr canon f d s <> Panic) /\
  (forall d acc s, (2 * length s + 1 < f)%nat -> pobj canon f d acc s <> Panic).
Proof.
  assert (forall (A B : Type) (r : R A) (k : A -> R B), r <> Panic -> (forall a, r = Ok a -> k a <> Panic) -> bind r k <> Panic) as bind_np.
  { intros A B [a|e|] k H1 H2; cbn; auto. discriminate. }
  induction f as [|f (IH1 & IH2 & IH3)]; [repeat split; intros; lia|]. split; [|split].
  - intros d s Hf. apply (pval_cases f d s (fun x => x <> Panic)); try discriminate.
    + intros r lit j _. unfold plit. destruct (beq _ _); discriminate.
    + intros neg r _. apply pnum_np.
    + intros r _. apply bind_np; [apply pstring_np|]. discriminate.
    + intros r d' L. apply bind_np; [apply IH2; lia|]. discriminate.
    + intros r d' L. apply bind_np; [apply IH3; lia|]. discriminate.
  - intros d s Hf. rewrite parr_step. apply bind_np; [apply IH1; lia|]. intros (j & q) H1. apply (proj1 (consume f)) in H1. cbn [fst snd]. pose proof (skip_ws_len q) as L.
    destruct (eat x5d (skip_ws q)); [discriminate|]. destruct (eat x2c (skip_ws q)) eqn:E1; [|discriminate]. apply eat_len in E1.
    apply bind_np; [apply IH2; lia|]. discriminate.
  - intros d acc s Hf. rewrite pobj_step. pose proof (skip_ws_len s) as L0. destruct (eat x22 (skip_ws s)) eqn:E; [|discriminate]. apply eat_len in E.
    apply bind_np; [apply pstring_np|]. intros (k & q) H1. apply pstring_len in H1. cbn [fst snd]. pose proof (skip_ws_len q) as L.
    destruct (eat x3a (skip_ws q)) eqn:E1; [|discriminate]. apply eat_len in E1. apply bind_np; [apply IH1; lia|]. intros (j & q2) H2. apply (proj1 (consume f)) in H2.
    cbn [fst snd]. pose proof (skip_ws_len q2) as L2. destruct (eat x7d (skip_ws q2)); [discriminate|].
    destruct (eat x2c (skip_ws q2)) eqn:E3; [|discriminate]. apply eat_len in E3. apply IH3. lia.
Qed.
Lemma pjson_np s : pjson canon s <> Panic.
Proof.
  unfold pjson. destruct (pval canon _ 128 s) as [(j, r)|e|] eqn:E; cbn [bind]; try discriminate.
  - destruct (skip_ws _); discriminate.
  - exfalso. revert E. apply (enough (length s + length s + 2)%nat). lia.
Qed.
End Fuel.
