(** Printed JSON is as short as possible (C119). *)
From Coq Require Import String.
From Coq Require Import NArith ZArith Lia Bool List.
From Verif Require Import Base BaseFacts Util Prims PrimsFacts Json JsonFacts JsonThms PatherThms SpecJson SpecPrims SpecCounter SpecPather SpecGrammar GrammarFacts GrammarThms SpecCompact.
Import ListNotations.
Open Scope N_scope.

Lemma recased_refl a : recased a a.
Proof. induction a; constructor; auto. Qed.
Lemma recased_app a b c d : recased a b -> recased c d -> recased (a ++ c) (b ++ d).
Proof.
  intros A C. induction A as [|x a b A IH|e up low a b E U A IH]; auto; [constructor; auto|].
  repeat rewrite <- app_assoc. apply (rc_upper e up low); auto.
Qed.
Lemma recased_len a b : recased a b -> len a = len b.
Proof.
  intros A. induction A as [|x a b A IH|d up low a b E U A IH]; auto; [rewrite !len_cons; lia|]. rewrite !len_app. assert (len up = len low) as -> by (cbn in U; repeat (destruct U as [U|U]; [injection U as <- <-; reflexivity|]); destruct U). lia.
Qed.
(** [q] is no longer than [p], and of the same length only if it is [p] up to the case of escapes. *)
Definition compact (q p : bytes) : Prop := len q <= len p /\ (len q = len p -> recased p q).
Lemma compact_refl p : compact p p.
Proof. split; [lia|]. intros _. apply recased_refl. Qed.
Lemma compact_app a b c d : compact a b -> compact c d -> compact (a ++ c) (b ++ d).
Proof. intros (L & A) (M & C). split; rewrite !len_app; [lia|]. intros E. apply recased_app; [apply A|apply C]; lia. Qed.
Lemma compact_before w q p : compact q p -> compact q (w ++ p).
Proof. intros (L & A). split; rewrite len_app; [lia|]. intros E. assert (len w = 0) as Z by lia. destruct w; [|rewrite len_cons in Z; lia]. apply A. lia. Qed.
Lemma compact_after w q p : compact q p -> compact q (p ++ w).
Proof. intros (L & A). split; rewrite len_app; [lia|]. intros E. assert (len w = 0) as Z by lia. destruct w; [|rewrite len_cons in Z; lia]. rewrite app_nil_r. apply A. lia. Qed.
Lemma compact_less q p : len q < len p -> compact q p.
Proof. intros L. split; lia. Qed.

(** ** Strings *)
Lemma escape_plain c : 32 <= b2n c -> c <> x22 -> c <> x5c -> escape1 c = [c].
Proof. intros L Q B. assert (b2n c <? 32 = false) as E by lia. destruct c; try congruence; try discriminate E; reflexivity. Qed.
Lemma escape_high c : 128 <= b2n c -> escape1 c = [c].
Proof. intros L. apply escape_plain; [lia|intros ->; vm_compute in L; congruence|intros ->; vm_compute in L; congruence]. Qed.
Lemma escape_max c : len (escape1 c) <= 6.
Proof. destruct c; vm_compute; discriminate. Qed.
Lemma hex_zero a : hex_digit a = Some 0 -> a = x30.
Proof. intros H. destruct a; try discriminate H; reflexivity. Qed.
Lemma hex_bound a n : hex_digit a = Some n -> n < 16.
Proof. intros H. destruct a; try discriminate H; injection H as <-; reflexivity. Qed.
Lemma four_parts h n : four_hex h n -> exists a b c d x y z t, h = [a; b; c; d] /\ hex_digit a = Some x /\ hex_digit b = Some y /\ hex_digit c = Some z /\ hex_digit d = Some t /\ n = ((x * 16 + y) * 16 + z) * 16 + t.
Proof.
  intros F. assert (hex4 (h ++ []) = Some (n, [])) as H by (apply hex4_split; eauto). rewrite app_nil_r in H. unfold hex4 in H. destruct h as [|a [|b [|c [|d h]]]]; try discriminate.
  destruct (hex_digit a) as [x|] eqn:A; [|discriminate]. destruct (hex_digit b) as [y|] eqn:B; [|discriminate].
  destruct (hex_digit c) as [z|] eqn:C; [|discriminate]. destruct (hex_digit d) as [t|] eqn:D; [|discriminate]. injection H as <- ->. exists a, b, c, d, x, y, z, t. auto 10.
Qed.
Definition recase_check (c : byte) : bool :=
  match escape1 c with
  | [e1; e2; e3; e4; e5; e6] => Byte.eqb e1 x5c && Byte.eqb e2 x75 && Byte.eqb e3 x30 && Byte.eqb e4 x30 && (b2n c <? 32) &&
     match hex_digit e5, hex_digit e6 with Some z, Some t => (z * 16 + t =? b2n c) && negb ((65 <=? b2n e6) && (b2n e6 <=? 70)) | _, _ => false end
  | _ => true
  end.
Lemma recase_all c : recase_check c = true.
Proof. destruct c; vm_compute; reflexivity. Qed.
Lemma hex_cases d e n : hex_digit d = Some n -> hex_digit e = Some n -> (65 <=? b2n e) && (b2n e <=? 70) = false -> d = e \/ In ([d], [e]) [(s! "A", s! "a"); (s! "B", s! "b"); (s! "C", s! "c"); (s! "D", s! "d"); (s! "E", s! "e"); (s! "F", s! "f")].
Proof.
  intros D E N. assert (In d (s! "0123456789abcdefABCDEF")) as ID by (apply hex_digit_over; eauto). assert (In e (s! "0123456789abcdefABCDEF")) as IE by (apply hex_digit_over; eauto).
  assert (forallb (fun d => forallb (fun e => match hex_digit d, hex_digit e with Some n, Some m => negb (n =? m) || ((65 <=? b2n e) && (b2n e <=? 70)) || Byte.eqb d e || existsb (fun p => beq (fst p) [d] && beq (snd p) [e])
    [(s! "A", s! "a"); (s! "B", s! "b"); (s! "C", s! "c"); (s! "D", s! "d"); (s! "E", s! "e"); (s! "F", s! "f")] | _, _ => false end) (s! "0123456789abcdefABCDEF")) (s! "0123456789abcdefABCDEF") = true) as A by (vm_compute; reflexivity).
  rewrite forallb_forall in A. specialize (A d ID). rewrite forallb_forall in A. specialize (A e IE). rewrite D, E, N, N.eqb_refl in A. cbn [negb orb] in A. apply orb_true_iff in A as [A|A]; [left; now apply byte_eqb_eq|right].
  apply existsb_exists in A as ((x & y) & I & A). apply andb_true_iff in A as (A & B). apply beq_eq in A, B. cbn [fst snd] in *. now subst.
Qed.
Lemma unicode_compact h n u : four_hex h n -> ~ 55296 <= n <= 57343 -> char_bytes n u -> compact (concat (map escape1 u)) (s! "\u" ++ h).
Proof.
  intros F NS U. assert (len (s! "\u" ++ h) = 6) as L6 by (rewrite len_app; destruct F as (-> & _); reflexivity).
  inversion U; subst.
  - cbn [map concat]. rewrite app_nil_r. split; [rewrite L6; apply escape_max|]. intros E. rewrite L6 in E. pose proof (recase_all a) as R. unfold recase_check in R.
    destruct (escape1 a) as [|e1 [|e2 [|e3 [|e4 [|e5 [|e6 [|e7 l]]]]]]]; try discriminate E. 2:{ unfold len in E. cbn [length] in E. lia. }
    apply andb_true_iff in R as (R & HX). apply andb_true_iff in R as (R & LT). apply andb_true_iff in R as (R & Q4). apply andb_true_iff in R as (R & Q3). apply andb_true_iff in R as (Q1 & Q2).
    apply byte_eqb_eq in Q1, Q2, Q3, Q4. subst. destruct (hex_digit e5) as [z'|] eqn:H5; [|discriminate]. destruct (hex_digit e6) as [t'|] eqn:H6; [|discriminate]. apply andb_true_iff in HX as (V & UP). apply negb_true_iff in UP.
    destruct (four_parts _ _ F) as (p & q & r & s & x & y & z & t & -> & A & B & C & D & E2). pose proof (hex_bound _ _ H5). pose proof (hex_bound _ _ H6). pose proof (hex_bound _ _ A). pose proof (hex_bound _ _ B). pose proof (hex_bound _ _ C). pose proof (hex_bound _ _ D).
    assert (x = 0 /\ y = 0 /\ z = z' /\ t = t' /\ z' < 2) as (-> & -> & -> & -> & Z2) by lia. apply hex_zero in A, B. subst.
    assert (forall d, hex_digit d = Some z' -> d = if z' =? 0 then x30 else x31) as ZD by (clear - Z2; intros d HD; destruct d; try discriminate HD; injection HD as <-; cbn in *; try lia; reflexivity).
    assert (r = e5) as -> by (rewrite (ZD r C), (ZD e5 H5); reflexivity). destruct (hex_cases _ _ _ D H6 UP) as [->|I].
    + apply recased_refl.
    + apply (rc_upper [e5] [s] [e6] [] []); [|exact I|constructor]. rewrite (ZD e5 H5). destruct (z' =? 0); [now left|right; now left].
  - cbn [map concat]. rewrite !escape_high by lia. apply compact_less. rewrite L6. reflexivity.
  - cbn [map concat]. rewrite !escape_high by lia. apply compact_less. rewrite L6. reflexivity.
  - cbn [map concat]. rewrite !escape_high by lia. apply compact_less. rewrite L6. reflexivity.
Qed.
Lemma chars_compact b s : chars b s -> compact (concat (map escape1 s)) b.
Proof.
  intros C. induction C as [|c b s L Q B C IH|e c b s I C IH|h n u b s FH N U C IH|h n l m u b s FH N FL M U C IH].
  - apply compact_refl.
  - cbn [map concat]. rewrite escape_plain by auto. apply (compact_app [c] [c]); auto. apply compact_refl.
  - cbn [map concat]. rewrite app_assoc. apply compact_app; auto. cbn in I. repeat (destruct I as [I|I]; [injection I as <- <-; first [apply compact_refl | apply compact_less; reflexivity]|]). destruct I.
  - rewrite map_app, concat_app, app_assoc. apply compact_app; auto. eapply unicode_compact; eauto.
  - rewrite map_app, concat_app, (app_assoc _ l b), (app_assoc _ _ b), (app_assoc _ _ b). apply compact_app; auto. apply compact_less. rewrite !len_app. destruct FH as (-> & _), FL as (-> & _).
    inversion U; subst; try lia. cbn [map concat]. rewrite !escape_high by lia. reflexivity.
Qed.
Lemma string_compact b s : chars b s -> compact (json_string s) (s! """" ++ b ++ s! """").
Proof. intros C. unfold json_string. change (x22 :: concat (map escape1 s) ++ [x22]) with (s! """" ++ concat (map escape1 s) ++ s! """"). apply compact_app; [apply compact_refl|]. apply compact_app; [now apply chars_compact|apply compact_refl]. Qed.

(** ** Joining *)
Definition piece := (bytes * (jval * bytes))%type.
Definition forget (p : piece) : bytes * jval := (fst p, fst (snd p)).
Definition text (p : piece) : bytes := snd (snd p).
Lemma join_compact qs ps : Forall2 compact qs ps -> compact (join [x2c] qs) (join [x2c] ps).
Proof.
  intros F. induction F as [|q p qs ps C F IH]; [apply compact_refl|]. inversion F as [|q' p' qs' ps' C' F']; subst; [exact C|]. cbn [join] in *. apply compact_app; auto. apply (compact_app [x2c] [x2c]); auto. apply compact_refl.
Qed.
Fixpoint total (l : list bytes) : N := match l with [] => 0 | x :: r => 1 + len x + total r end.
Lemma join_total l : l <> [] -> len (join [x2c] l) + 1 = total l.
Proof.
  induction l as [|x l IH]; [congruence|]. intros _. cbn [total]. destruct l as [|y l]; [cbn [join total]; lia|]. rewrite join_cons2, !len_app. change (len [x2c]) with 1. rewrite <- IH by discriminate. lia.
Qed.
Lemma total_app a b : total (a ++ b) = total a + total b.
Proof. induction a; cbn [app total]; lia. Qed.
(** Merging the pieces. *)
Definition stash (m : list piece) (p : piece) : list piece := insert (fst p) (snd p) m.
Lemma insert_forget k v (m : list piece) : map forget (insert k v m) = insert k (fst v) (map forget m).
Proof. induction m as [|(k', v') m IH]; [reflexivity|]. cbn [insert map forget fst snd]. destruct (beq k' k); [reflexivity|]. cbn [map forget fst snd]. now rewrite IH. Qed.
Lemma stash_put l : forall m, map forget (fold_left stash l m) = fold_left put (map forget l) (map forget m).
Proof. induction l as [|p l IH]; intros m; [reflexivity|]. cbn [fold_left map]. rewrite IH. f_equal. apply insert_forget. Qed.
Lemma insert_text k v (m : list piece) : In k (map fst m) -> total (map text (insert k v m)) < total (map text m) + total [snd v].
Proof.
  induction m as [|(k', v') m IH]; intros I; [destruct I|]. cbn [insert]. destruct (beq k' k) eqn:E; cbn [map text total fst snd].
  - unfold text. cbn [snd]. lia.
  - destruct I as [I|I]; [cbn in I; subst; rewrite beq_refl in E; discriminate|]. specialize (IH I). cbn [total] in IH. lia.
Qed.
Lemma stash_incl l m : forall p, In p (fold_left stash l m) -> In p m \/ In p l.
Proof.
  revert m. induction l as [|(k, v) l IH]; intros m p I; auto. cbn [fold_left] in I. apply IH in I as [I|I]; [|right; now right]. unfold stash in I. cbn [fst snd] in I.
  clear IH. induction m as [|(k', v') m IH]; cbn [insert] in I; [destruct I as [<-|[]]; right; now left|]. destruct (beq k' k) eqn:E.
  - destruct I as [<-|I]; [right; left; apply beq_eq in E; now subst|left; now right].
  - destruct I as [<-|I]; [left; now left|]. destruct (IH I) as [X|X]; [left; now right|now right].
Qed.
Lemma stash_total l : forall m, total (map text (fold_left stash l m)) <= total (map text m) + total (map text l) /\
  (total (map text (fold_left stash l m)) = total (map text m) + total (map text l) -> fold_left stash l m = m ++ l).
Proof.
  induction l as [|(k, v) l IH]; intros m; cbn [fold_left map total]; [rewrite app_nil_r; split; [lia|auto]|]. destruct (IH (stash m (k, v))) as (L & E).
  destruct (existsb (beq k) (map fst m)) eqn:X.
  - assert (In k (map fst m)) as I by (apply existsb_exists in X as (y & I & Y); apply beq_eq in Y; now subst). pose proof (insert_text k v m I) as T. cbn [total] in T. change (stash m (k, v)) with (insert k v m) in *. change (text (k, v)) with (snd v) in *. split; lia.
  - assert (~ In k (map fst m)) as I. { intros I. assert (existsb (beq k) (map fst m) = true) by (apply existsb_exists; exists k; split; auto; apply beq_refl). congruence. }
    assert (stash m (k, v) = m ++ [(k, v)]) as S by (unfold stash; cbn [fst snd]; now apply insert_new). rewrite S in *. rewrite map_app, total_app in *. cbn [map total] in *. change (text (k, v)) with (snd v) in *. split; [lia|]. intros T. rewrite E by lia. now rewrite <- app_assoc.
Qed.

(** ** Documents *)
Section Canon.
Variable canon : bytes -> option bytes.
Definition doc_compact (t : bytes) (j : jval) : Prop := forall v, loads j v -> float_free v -> compact (to_json v) t.
Definition els_compact (t : bytes) (l : list jval) : Prop := exists ps, t = join [x2c] ps /\ Forall2 doc_compact ps l.
Definition mem_ok (p : piece) : Prop := forall v, loads (fst (snd p)) v -> float_free v -> compact (json_string (fst p) ++ x3a :: to_json v) (text p).
Definition mem_compact (t : bytes) (l : list (bytes * jval)) : Prop := exists ps, ps <> [] /\ map forget ps = l /\ t = join [x2c] (map text ps) /\ Forall mem_ok ps.

Lemma member_compact b k w w1 w2 t w3 j : chars b k -> doc_compact t j -> mem_ok (k, (j, w ++ s! """" ++ b ++ s! """" ++ w1 ++ s! ":" ++ w2 ++ t ++ w3)).
Proof.
  intros C D v L F. cbn [fst snd] in *. unfold text. cbn [snd]. apply compact_before. change (x3a :: to_json v) with (s! ":" ++ to_json v). rewrite (app_assoc b), (app_assoc (s! """")). apply compact_app; [now apply string_compact|].
  apply compact_before. apply compact_app; [apply compact_refl|]. apply compact_before, compact_after. auto.
Qed.
Lemma number_compact t j : number canon t j -> doc_compact t j.
Proof.
  intros N v L F. destruct N as [t n (D & Z) B|t n (D & Z) B|sign t n fr ex x S W FR EX C CX].
  - inversion L; subst. change (2 ^ 63) with 9223372036854775808 in *. cbn [to_json]. assert (int_text (Z.of_N n) = t) as ->; [|apply compact_refl]. apply integer_text_eq; [change (2 ^ 63)%Z with 9223372036854775808%Z; lia|]. exists t, n. auto.
  - inversion L; subst. change (2 ^ 63) with 9223372036854775808 in *. cbn [to_json]. assert (int_text (- Z.of_N n) = s! "-" ++ t) as ->; [|apply compact_refl]. apply integer_text_eq; [change (2 ^ 63)%Z with 9223372036854775808%Z; lia|].
    exists t, n. split; auto. split; auto. right. split; [lia|]. auto.
  - inversion L; subst. inversion F.
Qed.
Lemma document_compact n t j : document canon n t j -> doc_compact t j.
Proof.
  revert n t j. apply (document_mut canon (fun n t j _ => doc_compact t j) (fun n t l _ => els_compact t l) (fun n t l _ => mem_compact t l)).
  - intros n v L F. inversion L; subst. apply compact_refl.
  - intros n v L F. inversion L; subst. apply compact_refl.
  - intros n v L F. inversion L; subst. apply compact_refl.
  - intros n t j N. now apply number_compact.
  - intros n b s C U v L F. inversion L; subst. cbn [to_json]. now apply string_compact.
  - intros n w B v L F. inversion L as [| | | | | |? vs FL|]; subst. inversion FL; subst. cbn [to_json map join]. apply (compact_app (s! "[") (s! "[")); [apply compact_refl|]. apply (compact_app [] w (s! "]") (s! "]")); [|apply compact_refl]. rewrite <- (app_nil_r w). apply compact_before, compact_refl.
  - intros n t l E (ps & -> & IH) v L F. inversion L as [| | | | | |? vs FL|]; subst. inversion F as [| | | |? FF|]; subst. cbn [to_json]. apply (compact_app (s! "[") (s! "[")); [apply compact_refl|]. apply (compact_app _ _ (s! "]") (s! "]")); [|apply compact_refl].
    apply join_compact. clear - IH FL FF. revert vs FL FF. induction IH as [|p j ps l D IH IHl]; intros vs FL FF; inversion FL; subst; [constructor|]. cbn [map]. inversion FF; subst. constructor; auto.
  - intros n w B v L F. inversion L as [| | | | | | |? vs K FL]; subst. destruct vs; [|discriminate]. cbn [to_json map join]. apply (compact_app (s! "{") (s! "{")); [apply compact_refl|]. apply (compact_app [] w (s! "}") (s! "}")); [|apply compact_refl]. rewrite <- (app_nil_r w). apply compact_before, compact_refl.
  - intros n t l m E (ps & NE & <- & -> & IH) M v L F. apply merges_put in M. inversion L as [| | | | | | |? vs K FL]; subst. inversion F as [| | | | |? FF]; subst. cbn [to_json].
    apply (compact_app (s! "{") (s! "{")); [apply compact_refl|]. apply (compact_app _ _ (s! "}") (s! "}")); [|apply compact_refl].
    pose proof (stash_put ps []) as SP. cbn [map] in SP. rewrite <- SP in K, FL. destruct (stash_total ps []) as (T & TE). cbn [map total app] in T, TE. set (ms := fold_left stash ps []) in *.
    assert (Forall mem_ok ms) as OK. { apply Forall_forall. intros p I. apply stash_incl in I as [[]|I]. rewrite Forall_forall in IH. auto. }
    assert (Forall2 compact (map (fun kv => json_string (fst kv) ++ x3a :: to_json (snd kv)) vs) (map text ms)) as C.
    { clear - OK K FL FF. revert vs K FL FF. induction OK as [|p ms P OK IHm]; intros vs K FL FF; (destruct vs as [|(k, v) vs]; [|try discriminate]); [constructor|discriminate|]. cbn [map forget fst snd] in *. injection K as <- K. inversion FL; subst. inversion FF; subst. constructor; auto. }
    assert (ms <> []) as NM. { intros X. assert (len (map forget ms) = 0) as Z by now rewrite X. clear - Z NE SP. destruct ps as [|(k, v) ps]; [congruence|]. assert (In k (map fst (map forget ms))) as I.
      { rewrite SP. match goal with |- context [fold_left put ?l []] => destruct (put_merges l) as (-> & _) end. apply firsts_in. now left. }
      destruct ms; [destruct I|]. cbn [map] in Z. rewrite len_cons in Z. lia. }
    apply join_compact in C as (C1 & C2). pose proof (join_total (map text ms)) as J1. pose proof (join_total (map text ps)) as J2. specialize (J1 ltac:(destruct ms; [congruence|discriminate])). specialize (J2 ltac:(destruct ps; [congruence|discriminate])).
    split; [lia|]. intros EQ. assert (ms = ps) as MP by (apply TE; lia). rewrite MP in C1, C2. apply C2. lia.
  - intros n w t w' j B D IH B'. exists [w ++ t ++ w']. split; [reflexivity|]. constructor; [|constructor]. intros v L F. apply compact_before, compact_after. auto.
  - intros n w t w' j r l B D IH B' E (ps & -> & IHE). exists ((w ++ t ++ w') :: ps). assert (ps <> []) as NE by (destruct IHE; [inversion E|discriminate]). split.
    + destruct ps as [|p ps]; [congruence|]. rewrite join_cons2. now rewrite <- !app_assoc.
    + constructor; auto. intros v L F. apply compact_before, compact_after. auto.
  - intros n w b k w1 w2 t w3 j B C U B1 B2 D IH B3. exists [(k, (j, w ++ s! """" ++ b ++ s! """" ++ w1 ++ s! ":" ++ w2 ++ t ++ w3))]. split; [discriminate|]. split; [reflexivity|]. split; [reflexivity|]. constructor; [|constructor]. now apply member_compact.
  - intros n w b k w1 w2 t w3 j r l B C U B1 B2 D IH B3 E (ps & NE & <- & -> & IHE). exists ((k, (j, w ++ s! """" ++ b ++ s! """" ++ w1 ++ s! ":" ++ w2 ++ t ++ w3)) :: ps). split; [discriminate|]. split; [reflexivity|]. split.
    + destruct ps as [|p ps]; [congruence|]. cbn [map]. rewrite join_cons2. unfold text at 3. cbn [snd]. repeat rewrite <- app_assoc. reflexivity.
    + constructor; auto. now apply member_compact.
Qed.
End Canon.

(*# C119_printed_json_is_shortest
   No text that is read as a float-free value is shorter than the JSON printed for that value; one of the same length is the printed text up to the case of the last digit
   of escaped control characters.
##
Example C119_case : let v := VObj [(s! "a", VArr [VInt 5; VStr [x1f]])] in
  value_of_text (fun _ => None) (to_json v) = Ok v /\ value_of_text (fun _ => None) (s! "{""a"":[5,""\u001F""]}") = Ok v /\ recased (s! "{""a"":[5,""\u001F""]}") (to_json v) /\
  value_of_text (fun _ => None) (s! "{""a"":0,""a"":[5,""\u001f""]}") = Ok v /\ float_free v.
Proof.
  intros v. split; [vm_compute; reflexivity|]. split; [vm_compute; reflexivity|]. split; [|split; [vm_compute; reflexivity|repeat constructor]].
  do 9 apply rc_same. apply (rc_upper (s! "1") (s! "F") (s! "f") (s! """]}") (s! """]}")); [right; now left|cbn; tauto|repeat constructor].
Qed.
#*)
Lemma C119_l (canon : bytes -> option bytes) (t : bytes) (v : value) : value_of_text canon t = Ok v -> float_free v -> len (to_json v) <= len t /\ (len (to_json v) = len t -> recased t (to_json v)).
Proof.
  intros H F. apply C118_l in H as (j & (w & d & w' & -> & _ & D & _) & L). apply compact_before, compact_after. eapply document_compact; eauto.
Qed.
