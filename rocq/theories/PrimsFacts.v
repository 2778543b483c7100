(** Lemmas about hexadecimal, byte order and the Matter kinds of [Prims]. *)
From Coq Require Import String.
From Coq Require Import NArith ZArith Bool List Lia ZifyBool ZifyNat ZifyN.
From Verif Require Import Base BaseFacts B64 B64Facts Util UtilFacts Tables Matter MatterFacts MatterBin MatterText MatterMore Indexer Prims Spec MatterThms
  SpecPrims.
Import ListNotations.
Open Scope N_scope.
Ltac Zify.zify_post_hook ::= Z.div_mod_to_equations.

(** ** Hexadecimal *)
Lemma small_digit (P : N -> Prop) : (forall k : nat, (k < 16)%nat -> P (N.of_nat k)) -> forall d, d < 16 -> P d.
Proof. intros H d Hd. rewrite <- (N2Nat.id d). apply H. lia. Qed.

Lemma hex_digit_char d : d < 16 -> hex_digit (hex_char d) = Some d.
Proof. revert d. apply small_digit. intros k H. do 16 (destruct k as [|k]; [vm_compute; reflexivity|]). exfalso. lia. Qed.
Lemma hex_char_in d : d < 16 -> In (hex_char d) hex_alphabet /\ index_of (hex_char d) hex_alphabet = d /\ (hex_char d = x30 -> d = 0)
  /\ hex_char d <> x2b.
Proof.
  revert d. apply small_digit. intros k H. do 16 (destruct k as [|k]; [split; [vm_compute; tauto|split; [vm_compute; reflexivity|split;
    [intros E; vm_compute in E; (reflexivity || discriminate E)|intros E; vm_compute in E; discriminate E]]]|]). exfalso. lia.
Qed.

Lemma hex_val_app acc a b : hex_val acc (a ++ b) = match hex_val acc a with Some v => hex_val v b | None => None end.
Proof. revert acc; induction a as [|c a IH]; intros acc; cbn [hex_val app]; auto. destruct (hex_digit c); auto. Qed.

Record hex_text (n : N) (d : bytes) : Prop := {
  ht_val : forall acc, hex_val acc d = Some (acc * 16 ^ len d + n);
  ht_num : forall acc, fold_left (fun acc c => acc * 16 + index_of c hex_alphabet) d acc = acc * 16 ^ len d + n;
  ht_low : forall c, In c d -> In c hex_alphabet /\ c <> x2b;
  ht_zero : forall r, d = x30 :: r -> r = [] /\ n = 0;
}.

Lemma hex_loop_spec fuel n out : 0 < n -> n < 16 ^ N.of_nat fuel -> exists d, hex_loop fuel n out = d ++ out /\ d <> [] /\ hex_text n d.
Proof.
  revert n out; induction fuel as [|f IH]; intros n out Hn H.
  { change (16 ^ N.of_nat 0) with 1 in H. lia. }
  cbn [hex_loop]. destruct (n =? 0) eqn:E; [lia|].
  destruct (hex_char_in (n mod 16)) as (I1 & I2 & I3 & I4); [lia|]. pose proof (hex_digit_char (n mod 16)) as Hd.
  destruct (N.eq_dec (n / 16) 0) as [Z|Z].
  - exists [hex_char (n mod 16)]. split.
    { rewrite Z. destruct f; reflexivity. }
    split; [discriminate|]. constructor.
    + intros acc. cbn [hex_val]. rewrite Hd by lia. f_equal. change (len [hex_char (n mod 16)]) with 1. lia.
    + intros acc. cbn [fold_left]. rewrite I2. change (len [hex_char (n mod 16)]) with 1. lia.
    + intros c [<-|[]]. auto.
    + intros r Er. inversion Er as [[E1 E2]]. split; auto. apply I3 in E1. lia.
  - destruct (IH (n / 16) (hex_char (n mod 16) :: out)) as (d & E1 & Hne & T); [lia| |].
    { replace (N.of_nat (S f)) with (1 + N.of_nat f) in H by lia. rewrite N.pow_add_r in H. change (16 ^ 1) with 16 in H.
      apply N.div_lt_upper_bound; lia. }
    exists (d ++ [hex_char (n mod 16)]). split. { rewrite E1, <- app_assoc. reflexivity. }
    split. { destruct d; discriminate. }
    assert (len (d ++ [hex_char (n mod 16)]) = len d + 1) as L by (rewrite len_app; reflexivity). constructor.
    + intros acc. rewrite hex_val_app, (ht_val _ _ T). cbn [hex_val]. rewrite Hd by lia. f_equal. rewrite L, N.pow_add_r. change (16 ^ 1) with 16. lia.
    + intros acc. rewrite fold_left_app, (ht_num _ _ T). cbn [fold_left]. rewrite I2, L, N.pow_add_r. change (16 ^ 1) with 16. lia.
    + intros c Hc. apply in_app_iff in Hc as [Hc|[<-|[]]]; auto. apply (ht_low _ _ T c Hc).
    + intros r Er. destruct d as [|c d]; [congruence|]. cbn [app] in Er. inversion Er as [[E2 E3]].
      destruct (ht_zero _ _ T d) as (_ & Z0); [now rewrite E2|]. lia.
Qed.

Lemma to_hex_spec n : n <= u128_max -> to_hex n <> [] /\ hex_text n (to_hex n).
Proof.
  intros H. unfold to_hex. destruct (n =? 0) eqn:E.
  - split; [discriminate|]. replace n with 0 by lia. constructor.
    + intros acc. vm_compute (s! "0"). cbn [hex_val]. change (hex_digit x30) with (Some 0). reflexivity.
    + intros acc. vm_compute (s! "0"). cbn [fold_left]. change (index_of x30 hex_alphabet) with 0. reflexivity.
    + intros c [<-|[]]. split; [vm_compute; tauto|discriminate].
    + intros r Er. vm_compute (s! "0") in Er. inversion Er. auto.
  - destruct (hex_loop_spec 32 n []) as (d & E1 & Hne & T); [lia| |].
    { unfold u128_max in H. change (16 ^ N.of_nat 32) with 340282366920938463463374607431768211456. lia. }
    rewrite app_nil_r in E1. rewrite E1. auto.
Qed.

Lemma hex_round_trip n : n <= u128_max -> u128_from_hex (to_hex n) = Ok n.
Proof.
  intros H. destruct (to_hex_spec n H) as (Hne & T). unfold u128_from_hex.
  destruct (to_hex n) as [|c d] eqn:E; [congruence|]. destruct (ht_low _ _ T c) as (_ & Hc); [now left|].
  replace (match c with x2b => d | _ => c :: d end) with (c :: d) by (destruct c; congruence).
  rewrite (ht_val _ _ T). replace (0 * 16 ^ len (c :: d) + n) with n by lia. apply N.leb_le in H. now rewrite H.
Qed.

Lemma to_hex_lower n : n <= u128_max -> lower_hex (to_hex n) /\ hex_number (to_hex n) = n.
Proof.
  intros H. destruct (to_hex_spec n H) as (Hne & T). split.
  - split; auto. split. { intros c Hc. apply (ht_low _ _ T c Hc). } intros r Er. apply (ht_zero _ _ T r Er).
  - unfold hex_number. rewrite (ht_num _ _ T). lia.
Qed.

(** ** Byte order *)
Lemma lex_refl a : lex a a = Eq.
Proof. induction a as [|x a IH]; auto. cbn [lex]. now rewrite N.compare_refl. Qed.
Lemma lex_common p a b : lex (p ++ a) (p ++ b) = lex a b.
Proof. induction p as [|x p IH]; auto. cbn [lex app]. now rewrite N.compare_refl. Qed.
Lemma lex_be_val a b : len a = len b -> lex a b = (be_val a ?= be_val b).
Proof.
  revert b; induction a as [|x a IH]; intros [|y b] L; try (rewrite ?len_cons, ?len_nilb in L; exfalso; lia).
  - reflexivity.
  - cbn [lex]. rewrite !len_cons in L. assert (len a = len b) as L' by lia. rewrite !be_val_cons, L'.
    pose proof (be_val_lt a) as A. pose proof (be_val_lt b) as B. rewrite L' in A. set (p := 256 ^ len b) in *.
    destruct (N.compare_spec (b2n x) (b2n y)) as [E|E|E].
    + rewrite IH by auto. rewrite E. destruct (N.compare_spec (be_val a) (be_val b)); symmetry; [apply N.compare_eq_iff|apply N.compare_lt_iff|apply N.compare_gt_iff]; lia.
    + symmetry. apply N.compare_lt_iff. nia.
    + symmetry. apply N.compare_gt_iff. nia.
Qed.

(** ** Fixed codes *)
Lemma fixed_built code w raw : In (code, w) fixed_codes -> len raw = w ->
  matter_of_code_raw code raw = Ok (Mt code 0 raw) /\ wf_matter (Mt code 0 raw).
Proof.
  intros H L. apply fixed_known in H as (z & Hz & Ev & E). split.
  - rewrite (construct_fixed code z raw Hz Ev). rewrite E. destruct (len raw <? w) eqn:Q; [lia|]. rewrite take_all by lia. reflexivity.
  - exists z. cbn [m_code]. split; auto. unfold raw_len_ok. rewrite Ev. cbn [m_size m_raw]. split; auto. lia.
Qed.
Lemma wf_round m : wf_matter m -> exists t b, infil m = Ok t /\ binfil m = Ok b /\ exfil t = Ok m /\ exfil_b t = Ok m /\ bexfil b = Ok m.
Proof.
  intros W. destruct (wf_forms m W) as (z & Hz & Wr & I & B). exists (mtext m z), (mbin m z).
  split; auto. split; auto. split; [now apply exfil_mtext0|]. split; [|now apply bexfil_mbin0].
  unfold exfil_b, from_utf8. rewrite utf8_ascii by now apply mtext_ascii. rewrite bind_Ok. now apply exfil_mtext0.
Qed.
Lemma len_be_bytes w n : len (be_bytes w n) = N.of_nat w.
Proof. revert n; induction w as [|w IH]; intros n; cbn [be_bytes]; [reflexivity|]. rewrite len_app, IH. change (len [n2b (n mod 256)]) with 1. lia. Qed.

Lemma fixed_wf m w : In (m_code m, w) fixed_codes -> wf_matter m -> m_size m = 0 /\ len (m_raw m) = w.
Proof.
  intros H (z & Hz & W). apply fixed_known in H as (z' & Hz' & Ev & E). assert (z' = z) by congruence. subst z'.
  unfold raw_len_ok in W. rewrite Ev in W. lia.
Qed.

Lemma has_code_In codes c : has_code codes c = true <-> In c codes.
Proof.
  unfold has_code. rewrite existsb_exists. split.
  - intros (x & H & E). apply beq_eq in E. now subst.
  - intros H. exists c. split; auto. apply beq_refl.
Qed.
Lemma validate_ok codes c u : validate codes c = Ok u <-> In c codes /\ u = tt.
Proof.
  unfold validate. rewrite <- has_code_In. destruct (has_code codes c), u; split; try tauto; try discriminate; try (intros [? ?]; discriminate); intros; auto.
Qed.
Lemma validate_np codes c : validate codes c <> Panic.
Proof. unfold validate. destruct (has_code codes c); discriminate. Qed.
