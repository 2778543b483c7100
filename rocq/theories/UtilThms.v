(** Proofs of the code table and base64 integer properties. *)
From Coq Require Import String.
From Coq Require Import NArith ZArith Bool List Lia ZifyBool ZifyNat ZifyN.
From Verif Require Import Base BaseFacts B64 B64Facts Util UtilFacts Tables Matter MatterFacts MatterBin MatterText Indexer IndexerFacts Counter CounterFacts
  FloatLog Spec SpecCounter.
Import ListNotations.
Open Scope N_scope.
Ltac Zify.zify_post_hook ::= Z.div_mod_to_equations.

Fixpoint is_prefix (a b : bytes) : bool :=
  match a, b with [], _ => true | x :: a', y :: b' => Byte.eqb x y && is_prefix a' b' | _, _ => false end.
Lemma is_prefix_app a r : is_prefix a (a ++ r) = true.
Proof. induction a as [|x a IH]; auto. cbn [app is_prefix]. now rewrite byte_eqb_refl, IH. Qed.

Definition okN (r : R N) (n : N) : bool := match r with Ok m => m =? n | _ => false end.
Definition same (r s : R N) : bool := match r, s with Ok a, Ok b => a =? b | Err _, Err _ => true | _, _ => false end.
Definition matter_entry (e : bytes * sizage) : bool :=
  match fst e with
  | c :: _ => okN (hardage c) (len (fst e)) && match b64_index c with Some i => okN (bardage i) (len (fst e)) | None => false end
     && (if fs (snd e) =? u32_max then (hs (snd e) + ss (snd e)) mod 4 =? 0 else fs (snd e) mod 4 =? 0)
     && forallb (fun f => implb (is_prefix (fst e) (fst f)) (beq (fst e) (fst f))) matter_table
  | [] => false
  end.
Definition indexer_entry (e : bytes * isizage) : bool :=
  match fst e with
  | c :: _ => okN (ihardage c) (len (fst e)) && match b64_index c with Some i => okN (ibardage i) (len (fst e)) | None => false end
     && (if ifs (snd e) =? u32_max then (ihs (snd e) + iss (snd e)) mod 4 =? 0 else ifs (snd e) mod 4 =? 0)
     && forallb (fun f => implb (is_prefix (fst e) (fst f)) (beq (fst e) (fst f))) indexer_table
  | [] => false
  end.
Definition counter_entry (e : bytes * sizage) : bool :=
  match fst e with
  | c :: d :: _ => okN (chardage [c; d]) (len (fst e))
     && match b64_index c, b64_index d with Some i, Some j => okN (cbardage [i; j]) (len (fst e)) | _, _ => false end
     && (fs (snd e) mod 4 =? 0)
     && forallb (fun f => implb (is_prefix (fst e) (fst f)) (beq (fst e) (fst f))) counter_table
  | _ => false
  end.
Lemma mtab : forallb matter_entry matter_table = true. Proof. vm_compute. reflexivity. Qed.
Lemma itab : forallb indexer_entry indexer_table = true. Proof. vm_compute. reflexivity. Qed.
Lemma ctab : forallb counter_entry counter_table = true. Proof. vm_compute. reflexivity. Qed.

Lemma sizage_inv c z : sizage_of c = Ok z -> lookup matter_table c = Some z.
Proof. unfold sizage_of. destruct (lookup matter_table c); congruence. Qed.
Lemma isizage_inv c z : isizage_of c = Ok z -> lookup indexer_table c = Some z.
Proof. unfold isizage_of. destruct (lookup indexer_table c); congruence. Qed.

Lemma okN_eq r n : okN r n = true -> r = Ok n.
Proof. destruct r; cbn [okN]; try discriminate. intros H. f_equal. lia. Qed.

Lemma prefix_case {A} (t : list (bytes * A)) c c' z : forallb (fun f => implb (is_prefix c (fst f)) (beq c (fst f))) t = true ->
  lookup t c' = Some z -> prefix c c' -> c = c'.
Proof.
  intros H L (r & ->). rewrite forallb_forall in H. apply lookup_In in L. apply H in L. cbn [fst] in L. rewrite is_prefix_app in L. cbn [implb] in L.
  now apply beq_eq.
Qed.

(*# C19_matter_table
   Matter codes: the hard size announced by the first character and by the first sextet is the code's length; sizes are whole
   quadlets; no code is a proper prefix of another.
##
Example C19_matter_case : is_ok (sizage_of (s! "1AAG")) = true /\ hardage x31 = Ok 4.
Proof. split; (vm_compute; reflexivity). Qed.
#*)
Lemma C19_matter_l (c : byte) (r : bytes) (z : sizage) : sizage_of (c :: r) = Ok z ->
  hardage c = Ok (len (c :: r)) /\ (exists i, b64_index c = Some i /\ bardage i = Ok (len (c :: r))) /\
  (if fs z =? u32_max then (hs z + ss z) mod 4 = 0 else fs z mod 4 = 0) /\
  (forall c' z', sizage_of c' = Ok z' -> prefix (c :: r) c' -> c' = c :: r).
Proof.
  intros H. apply sizage_inv in H. pose proof mtab as T. rewrite forallb_forall in T. specialize (T _ (lookup_In _ _ _ H)).
  unfold matter_entry in T. cbn [fst snd] in T. repeat (apply andb_true_iff in T as [T ?]). split; [now apply okN_eq|]. split; [|split].
  - destruct (b64_index c) as [i|]; try discriminate. exists i. split; auto. now apply okN_eq.
  - destruct (fs z =? u32_max); lia.
  - intros c' z' Hz' Hp. apply sizage_inv in Hz'. symmetry. eapply prefix_case; eauto.
Qed.

(*# C19_indexer_table
   The same for the indexed codes.
##
Example C19_indexer_case : is_ok (isizage_of (s! "2A")) = true /\ ihardage x32 = Ok 2.
Proof. split; (vm_compute; reflexivity). Qed.
#*)
Lemma C19_indexer_l (c : byte) (r : bytes) (z : isizage) : isizage_of (c :: r) = Ok z ->
  ihardage c = Ok (len (c :: r)) /\ (exists i, b64_index c = Some i /\ ibardage i = Ok (len (c :: r))) /\
  (if ifs z =? u32_max then (ihs z + iss z) mod 4 = 0 else ifs z mod 4 = 0) /\
  (forall c' z', isizage_of c' = Ok z' -> prefix (c :: r) c' -> c' = c :: r).
Proof.
  intros H. apply isizage_inv in H. pose proof itab as T. rewrite forallb_forall in T. specialize (T _ (lookup_In _ _ _ H)).
  unfold indexer_entry in T. cbn [fst snd] in T. repeat (apply andb_true_iff in T as [T ?]). split; [now apply okN_eq|]. split; [|split].
  - destruct (b64_index c) as [i|]; try discriminate. exists i. split; auto. now apply okN_eq.
  - destruct (ifs z =? u32_max); lia.
  - intros c' z' Hz' Hp. apply isizage_inv in Hz'. symmetry. eapply prefix_case; eauto.
Qed.

(*# C19_counter_table
   The same for the counter codes, whose hard size is announced by the first two characters.
##
Example C19_counter_case : is_ok (csizage_of (s! "--AAA")) = true /\ chardage (s! "--") = Ok 5.
Proof. split; (vm_compute; reflexivity). Qed.
#*)
Lemma C19_counter_l (c d : byte) (r : bytes) (z : sizage) : csizage_of (c :: d :: r) = Ok z ->
  chardage [c; d] = Ok (len (c :: d :: r)) /\
  (exists i j, b64_index c = Some i /\ b64_index d = Some j /\ cbardage [i; j] = Ok (len (c :: d :: r))) /\
  fs z mod 4 = 0 /\ (forall c' z', csizage_of c' = Ok z' -> prefix (c :: d :: r) c' -> c' = c :: d :: r).
Proof.
  intros H. apply csizage_of_inv in H. pose proof ctab as T. rewrite forallb_forall in T. specialize (T _ (lookup_In _ _ _ H)).
  unfold counter_entry in T. cbn [fst snd] in T. repeat (apply andb_true_iff in T as [T ?]). split; [now apply okN_eq|]. split; [|split].
  - destruct (b64_index c) as [i|]; try discriminate. destruct (b64_index d) as [j|]; try discriminate. exists i, j. repeat split; auto. now apply okN_eq.
  - lia.
  - intros c' z' Hz' Hp. apply csizage_of_inv in Hz'. symmetry. eapply prefix_case; eauto.
Qed.

Definition all64 : list N := map N.of_nat (seq 0 64).
Lemma all64_In i : i < 64 -> In i all64.
Proof. intros H. unfold all64. apply in_map_iff. exists (N.to_nat i). split; [lia|]. apply in_seq. lia. Qed.
Lemma agree1 : forallb (fun i => same (hardage (b64_char i)) (bardage i) && same (ihardage (b64_char i)) (ibardage i)) all64 = true.
Proof. vm_compute. reflexivity. Qed.
Lemma agree2 : forallb (fun i => forallb (fun j => same (chardage [b64_char i; b64_char j]) (cbardage [i; j])) all64) all64 = true.
Proof. vm_compute. reflexivity. Qed.
Lemma same_ok a b n : same a b = true -> (a = Ok n <-> b = Ok n).
Proof.
  destruct a, b; cbn [same]; try discriminate; intros H; split; intros E; inversion E; subst; try discriminate; f_equal; lia.
Qed.

(*# C19_text_and_binary_announce_the_same
   For every base64 character (pair of characters for counters) text and binary announce the same hard size, or both refuse.
##
Example C19_agree_case : b64_index x2d = Some 62 /\ is_err (hardage x2d) = true /\ is_err (bardage 62) = true.
Proof. repeat split; vm_compute; reflexivity. Qed.
#*)
Lemma C19_agree_l (c d : byte) (i j n : N) : b64_index c = Some i -> b64_index d = Some j ->
  (hardage c = Ok n <-> bardage i = Ok n) /\ (ihardage c = Ok n <-> ibardage i = Ok n) /\ (chardage [c; d] = Ok n <-> cbardage [i; j] = Ok n).
Proof.
  intros Hc Hd. apply b64_index_Some in Hc as [Hi <-]. apply b64_index_Some in Hd as [Hj <-].
  pose proof agree1 as A1. pose proof agree2 as A2. rewrite forallb_forall in A1, A2. specialize (A1 _ (all64_In _ Hi)). specialize (A2 _ (all64_In _ Hi)).
  rewrite forallb_forall in A2. specialize (A2 _ (all64_In _ Hj)). apply andb_true_iff in A1 as [A0 A1]. split; [|split]; now apply same_ok.
Qed.

(*# C20_base64_integer_round_trip
   Encoding a number below 64^k on k characters gives k base64url characters that decode to it: up to 5 characters with the 32-bit
   decoder and 10 with the 64-bit one.
##
Example C20_case : 1073741823 < 64 ^ 5 /\ uint_to_b64 1073741823 5 = s! "_____" /\ uint_to_b64 66 3 = s! "ABC".
Proof. repeat split; vm_compute; reflexivity. Qed.
#*)
Lemma C20_l (n k : N) : n < 64 ^ k ->
  (k <= 5 -> b64_to_u32 (uint_to_b64 n k) = Ok n) /\
  (k <= 10 -> len (uint_to_b64 n k) = k /\ base64_number 0 (uint_to_b64 n k) = Some n /\ b64_to_u64 (uint_to_b64 n k) = Ok n).
Proof.
  intros H.
  assert (k <= 10 -> b64val (b64_digits (N.to_nat k) n) = Some n) as V by (intros _; rewrite b64val_digits, N2Nat.id, N.mod_small; auto).
  split; intros Hk; rewrite uint_to_b64_exact by (auto; lia).
  - apply b64_to_u32_exact; [apply V; lia|rewrite len_b64_digits; lia].
  - repeat split; [rewrite len_b64_digits; lia|now apply V|]. apply b64_to_u64_exact; [now apply V|rewrite len_b64_digits; lia].
Qed.

(*# C20_base64_integer_inverse
   Decoding and re-encoding on the same number of characters gives back the characters.
##
Example C20_inverse_case : b64_to_u32 (s! "ABC") = Ok 66 /\ b64_to_u64 (s! "ABCDEFGHIJ") <> Panic.
Proof. split; vm_compute; [reflexivity|discriminate]. Qed.
#*)
Lemma C20_inverse_l (s : bytes) (n : N) :
  (len s <= 5 -> b64_to_u32 s = Ok n -> uint_to_b64 n (len s) = s) /\
  (len s <= 10 -> b64_to_u64 s = Ok n -> uint_to_b64 n (len s) = s).
Proof.
  assert (len s <= 10 -> b64val s = Some n -> uint_to_b64 n (len s) = s) as V.
  { intros L H. rewrite uint_to_b64_exact by (auto; now apply b64val_lt). replace (N.to_nat (len s)) with (length s) by (unfold len; lia). now apply b64_digits_val. }
  split; intros L H; apply V; try lia; [now apply b64_to_u32_inv|now apply b64_to_u64_inv].
Qed.

(*# C20_decoding_is_total
   Decoding accepts exactly the strings of base64url characters and never panics.
##
Example C20_total_case : b64_to_u32 (s! "A=") = Err EInvalidBase64Character.
Proof. vm_compute. reflexivity. Qed.
#*)
Lemma C20_total_l (s : bytes) :
  ((exists n, b64_to_u32 s = Ok n) <-> exists v, base64_number 0 s = Some v) /\
  ((exists n, b64_to_u64 s = Ok n) <-> exists v, base64_number 0 s = Some v) /\ b64_to_u32 s <> Panic /\ b64_to_u64 s <> Panic.
Proof.
  assert (forall w acc s, is_b64s s = true -> exists n, b64_to_uint_from w acc s = Ok n) as T.
  { intros w acc s0; revert acc; induction s0 as [|c s0 IH]; intros acc H; cbn [b64_to_uint_from]; eauto.
    cbn [is_b64s forallb] in H. apply andb_true_iff in H as [H1 H2]. unfold is_b64 in H1. destruct (b64_index c); try discriminate. now apply IH. }
  split; [split|split; [split|split]]; try apply b64_to_uint_no_panic.
  - intros (n & H). apply b64_to_u32_ok in H. now apply b64val_total.
  - intros (v & H). apply T. eapply b64val_b64s. exact H.
  - intros (n & H). apply b64_to_u64_ok in H. now apply b64val_total.
  - intros (v & H). apply T. eapply b64val_b64s. exact H.
Qed.

(*# C21_out_of_range_refuted
   False: 65 does not fit one character, and encoding it on one character silently gives another number.
#*)
Lemma C21_refuted_l : uint_to_b64 65 1 = s! "B" /\ b64_to_u32 (s! "B") = Ok 1.
Proof. split; (vm_compute; reflexivity). Qed.

Lemma loop_full fuel : forall n length x out, n <= 64 ^ length -> x < 64 ^ N.of_nat fuel ->
  exists d, uint_to_b64_loop fuel n length 0 x out = d ++ out /\ b64val d = Some x.
Proof.
  induction fuel as [|f IH]; intros n length x out Hn Hx.
  - exists []. split; auto. change (64 ^ N.of_nat 0) with 1 in Hx. assert (x = 0) as -> by lia. reflexivity.
  - cbn [uint_to_b64_loop]. destruct (x =? 0) eqn:E. { exists []. split; auto. assert (x = 0) as -> by lia. reflexivity. }
    rewrite N.add_0_r. replace (n <=? 64 ^ length) with true by lia.
    destruct (IH n length (x / 64) (b64_char (x mod 64) :: out) Hn) as (d & E1 & E2).
    { rewrite Nat2N.inj_succ, N.pow_succ_r' in Hx. apply N.div_lt_upper_bound; lia. }
    exists (d ++ [b64_char (x mod 64)]). split; [rewrite E1, <- app_assoc; reflexivity|].
    rewrite (b64val_app d [b64_char (x mod 64)] (x / 64) (x mod 64)); auto.
    + f_equal. change (len [b64_char (x mod 64)]) with 1. change (64 ^ 1) with 64. lia.
    + unfold b64val. cbn [b64val_acc]. rewrite b64_index_char by lia. reflexivity.
Qed.
Lemma b64val_As m d v : b64val d = Some v -> b64val (repeat x41 m ++ d) = Some v.
Proof.
  intros H. induction m as [|m IH]; cbn [repeat app]; auto.
Qed.

(*# C21_out_of_range_partial
   What holds: a number of at most 64^k encodes on k characters (k+1 for 64^k itself) to text that decodes to it.
   Missing: larger numbers, see the refutation.
##
Example C21_case : uint_to_b64 4096 2 = s! "BAA".
Proof. vm_compute. reflexivity. Qed.
#*)
Lemma C21_partial_l (n k : N) : 0 < k -> n <= 64 ^ k -> n <= u64_max -> base64_number 0 (uint_to_b64 n k) = Some n.
Proof.
  intros Hk Hn Hm. unfold uint_to_b64. replace (k =? 0) with false by lia. cbv zeta.
  destruct (loop_full 11 n k n [] Hn) as (d & E & V).
  { assert (64 ^ N.of_nat 11 = 73786976294838206464) as -> by reflexivity. unfold u64_max in Hm. lia. }
  rewrite E, app_nil_r. now apply b64val_As.
Qed.

Lemma loop_skips n length : forall j k x fuel out, (forall i, i < j -> 64 ^ (length + (k + i)) < n) -> 64 ^ j <= x ->
  uint_to_b64_loop (N.to_nat j + fuel) n length k x out = uint_to_b64_loop fuel n length (k + j) (x / 64 ^ j) out.
Proof.
  intros j. induction j as [|j IH] using N.peano_ind; intros k x fuel out H Hx.
  - cbn [N.to_nat Nat.add]. rewrite N.add_0_r. change (64 ^ 0) with 1. now rewrite N.div_1_r.
  - rewrite N2Nat.inj_succ. cbn [Nat.add uint_to_b64_loop]. rewrite N.pow_succ_r' in Hx.
    assert (64 ^ j <> 0) as P by (apply N.pow_nonzero; lia). set (p := 64 ^ j) in *.
    replace (x =? 0) with false by lia. pose proof (H 0) as E0. rewrite N.add_0_r in E0. replace (n <=? 64 ^ (length + k)) with false by lia.
    rewrite IH.
    + fold p. rewrite N.pow_succ_r'. fold p. rewrite <- N.div_div by lia. f_equal. lia.
    + intros i Hi. specialize (H (i + 1)). replace (k + 1 + i) with (k + (i + 1)) by lia. apply H. lia.
    + fold p. apply N.div_le_lower_bound; lia.
Qed.
Lemma loop_digits fuel : forall n length k x out m, n <= 64 ^ (length + k) -> x < 64 ^ N.of_nat fuel -> x < 64 ^ m ->
  exists d, uint_to_b64_loop fuel n length k x out = d ++ out /\ b64val d = Some x /\ len d <= m.
Proof.
  induction fuel as [|f IH]; intros n length k x out m Hn Hx Hm.
  - exists []. split; auto. change (64 ^ N.of_nat 0) with 1 in Hx. assert (x = 0) as -> by lia. split; [reflexivity|]. rewrite len_nilb. lia.
  - cbn [uint_to_b64_loop]. destruct (x =? 0) eqn:E. { exists []. split; auto. assert (x = 0) as -> by lia. split; [reflexivity|]. rewrite len_nilb. lia. }
    replace (n <=? 64 ^ (length + k)) with true by lia.
    assert (0 < m) as M0. { destruct (N.eq_dec m 0) as [->|]; [change (64 ^ 0) with 1 in Hm|]; lia. }
    destruct (IH n length k (x / 64) (b64_char (x mod 64) :: out) (m - 1) Hn) as (d & E1 & E2 & E3).
    { rewrite Nat2N.inj_succ, N.pow_succ_r' in Hx. apply N.div_lt_upper_bound; lia. }
    { replace m with (N.succ (m - 1)) in Hm by lia. rewrite N.pow_succ_r' in Hm. apply N.div_lt_upper_bound; lia. }
    exists (d ++ [b64_char (x mod 64)]). split; [rewrite E1, <- app_assoc; reflexivity|]. split.
    + rewrite (b64val_app d [b64_char (x mod 64)] (x / 64) (x mod 64)); auto.
      * f_equal. change (len [b64_char (x mod 64)]) with 1. change (64 ^ 1) with 64. lia.
      * unfold b64val. cbn [b64val_acc]. rewrite b64_index_char by lia. reflexivity.
    + rewrite len_app. change (len [b64_char (x mod 64)]) with 1. lia.
Qed.
(*# C21_out_of_range_exactly
   What every other number encodes to: its low digits are dropped, as many as bring it to at most k (or, for a power of 64, k+1) characters. The text has exactly that many
   characters and stands for the number divided by the power of 64 dropped.
##
Example C21_exact_case : uint_to_b64 262145 1 = s! "B" /\ uint_to_b64 262144 1 = s! "BA" /\ 64 ^ 3 < 262145 <= 64 ^ 4.
Proof. repeat split; vm_compute; congruence. Qed.
#*)
Lemma C21_exact_l (n k j : N) : 0 < k -> n <= u64_max -> n <= 64 ^ (k + j) -> (j = 0 \/ 64 ^ (k + j - 1) < n) ->
  base64_number 0 (uint_to_b64 n k) = Some (n / 64 ^ j) /\ len (uint_to_b64 n k) = if n =? 64 ^ (k + j) then k + 1 else k.
Proof.
  intros Hk Hm Hn Hj.
  assert (n < 64 ^ N.of_nat 11) as H11. { assert (64 ^ N.of_nat 11 = 73786976294838206464) as -> by reflexivity. unfold u64_max in Hm. lia. }
  assert (0 < j -> 64 ^ j <= n) as Hjn. { intros J. destruct Hj as [->|Hj]; [lia|]. assert (64 ^ j <= 64 ^ (k + j - 1)) by (apply N.pow_le_mono_r; lia). lia. }
  assert (j <= 10) as J10.
  { destruct (N.eq_dec j 0) as [->|]; [lia|]. assert (64 ^ j < 64 ^ N.of_nat 11) as L by lia. apply N.pow_lt_mono_r_iff in L; lia. }
  assert (64 ^ j <> 0) as P by (apply N.pow_nonzero; lia). assert (64 ^ k <> 0) as Pk by (apply N.pow_nonzero; lia).
  assert (n / 64 ^ j <= 64 ^ k) as Q. { rewrite N.pow_add_r in Hn. apply N.div_le_upper_bound; lia. }
  assert (n / 64 ^ j < 64 ^ (k + 1)) as Q1. { rewrite N.add_1_r, N.pow_succ_r'. lia. }
  assert (exists d, uint_to_b64_loop 11 n k 0 n [] = d /\ b64val d = Some (n / 64 ^ j) /\ len d <= k + 1 /\ (n / 64 ^ j < 64 ^ k -> len d <= k)) as (d & E & V & L & L').
  { assert (uint_to_b64_loop 11 n k 0 n [] = uint_to_b64_loop (11 - N.to_nat j) n k j (n / 64 ^ j) []) as ->.
    { destruct (N.eq_dec j 0) as [->|NJ]; [change (64 ^ 0) with 1; now rewrite N.div_1_r|]. replace 11%nat with (N.to_nat j + (11 - N.to_nat j))%nat at 1 by lia.
      rewrite loop_skips; [f_equal; lia| |apply Hjn; lia]. intros i Hi. destruct Hj as [|Hj]; [lia|]. rewrite N.add_0_l.
      assert (64 ^ (k + i) <= 64 ^ (k + j - 1)) by (apply N.pow_le_mono_r; lia). lia. }
    assert (n / 64 ^ j < 64 ^ N.of_nat (11 - N.to_nat j)) as F.
    { apply N.div_lt_upper_bound; auto. rewrite <- N.pow_add_r. replace (j + N.of_nat (11 - N.to_nat j)) with (N.of_nat 11) by lia. exact H11. }
    destruct (loop_digits (11 - N.to_nat j) n k j (n / 64 ^ j) [] (k + 1) Hn F Q1) as (d & E & V & L).
    exists d. rewrite E, app_nil_r. repeat apply conj; auto. intros Q2. destruct (loop_digits (11 - N.to_nat j) n k j (n / 64 ^ j) [] k Hn F Q2) as (d' & E' & V' & L2).
    rewrite E, !app_nil_r in E'. now subst. }
  unfold uint_to_b64. replace (k =? 0) with false by lia. cbv zeta. rewrite E. split; [now apply b64val_As|].
  rewrite len_app. replace (len (repeat x41 (N.to_nat k - length d))) with (k - len d) by (unfold len; rewrite repeat_length; lia).
  destruct (n =? 64 ^ (k + j)) eqn:EQ.
  - apply N.eqb_eq in EQ. apply b64val_lt in V. rewrite EQ, N.pow_add_r, N.div_mul in V by auto. apply N.pow_lt_mono_r_iff in V; lia.
  - assert (n / 64 ^ j < 64 ^ k). { apply N.eqb_neq in EQ. rewrite N.pow_add_r in Hn, EQ. apply N.div_lt_upper_bound; lia. } specialize (L' H). lia.
Qed.

(** ** Six-bit groups *)
Lemma nth_cons4 {A} (a b c d : A) l i : nth_error (a :: b :: c :: d :: l) (4 + i) = nth_error l i.
Proof. reflexivity. Qed.

Lemma sextets_nth l : forall i, len l mod 3 = 0 -> 6 * (i + 1) <= 8 * len l ->
  nth_error (sextets l) (N.to_nat i) = Some (six_bits l i).
Proof.
  induction l as [|a|a b|a b c r IH] using list_ind3; intros i Hm Hi; try (vm_compute in Hm; discriminate).
  - rewrite len_nilb in Hi. lia.
  - assert (len (a :: b :: c :: r) = 3 + len r) as L by (rewrite !len_cons; lia).
    set (n := b2n a * 65536 + b2n b * 256 + b2n c).
    assert (be_val (a :: b :: c :: r) = n * 2 ^ (8 * len r) + be_val r) as V.
    { change (a :: b :: c :: r) with ([a; b; c] ++ r). rewrite be_val_app. rewrite N.pow_mul_r. change (2 ^ 8) with 256. f_equal. f_equal.
      unfold be_val, n. cbn [be_val_acc]. lia. }
    assert (be_val r < 2 ^ (8 * len r)) as B. { rewrite N.pow_mul_r. change (2 ^ 8) with 256. apply be_val_lt. }
    assert (2 ^ (8 * len r) <> 0) as P by now apply N.pow_nonzero.
    assert (n < 16777216) as Bn by (unfold n; byte_bounds; lia).
    cbn [sextets]. unfold sextets3. cbv zeta. fold n. cbn [app]. unfold six_bits. rewrite V, L.
    destruct (N.ltb_spec i 4) as [H4|H4].
    + replace (8 * (3 + len r) - 6 * (i + 1)) with ((24 - 6 * (i + 1)) + 8 * len r) by lia.
      rewrite N.pow_add_r, (N.mul_comm (2 ^ (24 - 6 * (i + 1)))), <- N.div_div by (auto; now apply N.pow_nonzero).
      assert ((n * 2 ^ (8 * len r) + be_val r) / 2 ^ (8 * len r) = n) as -> by (rewrite N.div_add_l by auto; rewrite N.div_small; auto; lia).
      clearbody n. clear - H4 Bn.
      assert (i = 0 \/ i = 1 \/ i = 2 \/ i = 3) as [Q|[Q|[Q|Q]]] by lia; subst i.
      * change (2 ^ (24 - 6 * (0 + 1))) with 262144. change (N.to_nat 0) with 0%nat. cbn [nth_error]. f_equal. lia.
      * change (2 ^ (24 - 6 * (1 + 1))) with 4096. reflexivity.
      * change (2 ^ (24 - 6 * (2 + 1))) with 64. reflexivity.
      * change (2 ^ (24 - 6 * (3 + 1))) with 1. change (N.to_nat 3) with 3%nat. cbn [nth_error]. f_equal. lia.
    + replace (N.to_nat i) with (4 + N.to_nat (i - 4))%nat by lia. rewrite nth_cons4, IH by (try rewrite L in Hm; lia). f_equal. unfold six_bits.
      replace (8 * (3 + len r) - 6 * (i + 1)) with (8 * len r - 6 * (i - 4 + 1)) by lia.
      remember (8 * len r - 6 * (i - 4 + 1)) as q eqn:Eq. assert (8 * len r = q + 6 * (i - 4 + 1)) as Q by lia.
      rewrite Q. rewrite N.pow_add_r. replace (n * (2 ^ q * 2 ^ (6 * (i - 4 + 1)))) with (n * 2 ^ (6 * (i - 4 + 1)) * 2 ^ q) by lia.
      rewrite N.div_add_l by now apply N.pow_nonzero.
      replace (6 * (i - 4 + 1)) with (6 + 6 * (i - 4)) by lia. rewrite N.pow_add_r. change (2 ^ 6) with 64.
      replace (n * (64 * 2 ^ (6 * (i - 4)))) with (n * 2 ^ (6 * (i - 4)) * 64) by lia. rewrite N.add_comm, N.mod_add by discriminate. reflexivity.
Qed.

Lemma six_bits_zeros b z i : 6 * (i + 1) <= 8 * len b -> six_bits (b ++ zeros z) i = six_bits b i.
Proof.
  intros H. unfold six_bits. rewrite be_val_app_zeros, len_app, len_zeros. f_equal.
  replace (8 * (len b + z) - 6 * (i + 1)) with ((8 * len b - 6 * (i + 1)) + 8 * z) by lia. rewrite N.pow_add_r, (N.pow_mul_r 2 8 z). change (2 ^ 8) with 256.
  now rewrite N.div_mul_cancel_r by now apply N.pow_nonzero.
Qed.

Lemma len_sextets l : len l mod 3 = 0 -> 3 * len (sextets l) = 4 * len l.
Proof.
  induction l as [|a|a b|a b c r IH] using list_ind3; intros H; try (vm_compute in H; discriminate); auto.
  cbn [sextets]. unfold sextets3. rewrite !len_cons in *. cbn [app]. rewrite !len_cons. specialize (IH ltac:(lia)). lia.
Qed.

(*# C22_nab_sextets
   nab_sextets returns exactly the leading six-bit groups, and fails exactly when the bytes do not hold that many; it never panics.
##
Example C22_case : nab_sextets [x04; x10; x41; x04; x10; x41] 3 = Ok [1; 1; 1] /\ is_err (nab_sextets [x04] 2) = true.
Proof. split; (vm_compute; reflexivity). Qed.
#*)
Lemma C22_nab_l (b : bytes) (k : N) :
  (6 * k <= 8 * len b -> exists l, nab_sextets b k = Ok l /\ len l = k /\ forall i, i < k -> nth_error l (N.to_nat i) = Some (six_bits b i)) /\
  (8 * len b < 6 * k -> exists e, nab_sextets b k = Err e).
Proof.
  unfold nab_sextets. assert (((k + 1) * 3) / 4 = (6 * k + 7) / 8) as -> by lia. split; intros H.
  - replace (len b <? (6 * k + 7) / 8) with false by lia. cbv zeta. set (p := b ++ zeros (3 - len b mod 3)).
    assert (len p = len b + (3 - len b mod 3)) as Lp by (unfold p; rewrite len_app, len_zeros; reflexivity).
    assert (len p mod 3 = 0) as Hp by lia. pose proof (len_sextets p Hp) as Ls.
    rewrite slice_bytes_in by lia. rewrite N.sub_0_r, drop_0. eexists. split; [reflexivity|]. split; [rewrite len_take; lia|].
    intros i Hi. unfold take. assert (forall (l : list N) m j, (j < m)%nat -> nth_error (firstn m l) j = nth_error l j) as T.
    { induction l as [|a l IH]; intros [|m] [|j] Hj; cbn [firstn nth_error]; auto; try lia. apply IH. lia. }
    rewrite T by lia. rewrite sextets_nth by lia. f_equal. unfold p. apply six_bits_zeros. lia.
  - replace (len b <? (6 * k + 7) / 8) with true by lia. eauto.
Qed.

(*# C22_code_b2_to_b64
   code_b2_to_b64 spells the leading six-bit groups in base64url characters, for up to eight characters; otherwise it is an error.
##
Example C22_code_case : code_b2_to_b64 [xf8; x00; x03; xff] 4 = Ok (s! "-AAD").
Proof. vm_compute. reflexivity. Qed.
#*)
Lemma C22_code_l (b : bytes) (k : N) :
  (k <= 8 -> 6 * k <= 8 * len b ->
     exists s, code_b2_to_b64 b k = Ok s /\ len s = k /\ forall i, i < k -> exists c, nth_error s (N.to_nat i) = Some c /\ b64_index c = Some (six_bits b i)) /\
  (k > 8 \/ 8 * len b < 6 * k -> exists e, code_b2_to_b64 b k = Err e).
Proof.
  split.
  - intros Hk H. destruct (N.eq_dec k 0) as [->|K]. { exists []. split; [reflexivity|]. split; auto. intros i Hi. lia. }
    assert (nbytes k <= len b) as Hn by (unfold nbytes; lia). rewrite code_b2_to_b64_spec by auto.
    destruct (nab_sextets_spec b k) as (l & E & M & _); try lia. destruct (C22_nab_l b k) as [C _]. destruct (C H) as (l' & E' & L & N'). rewrite E in E'.
    inversion E'; subst l'. eexists. split; [reflexivity|]. rewrite <- M. split; [unfold len in *; rewrite map_length; exact L|].
    intros i Hi. exists (b64_char (six_bits b i)). split; [now apply map_nth_error, N'|]. apply b64_index_char. unfold six_bits. apply N.mod_lt. discriminate.
  - intros H. unfold code_b2_to_b64. replace (k =? 0) with false by lia. cbv zeta. destruct (len b <? ((k + 1) * 3) / 4) eqn:E; eauto.
    replace (k <=? 4) with false by lia. replace (k <=? 8) with false by lia. eauto.
Qed.

(*# C22_code_conversion_inverse
   Converting a code of up to eight base64 characters to bytes and back (whatever bytes follow) gives the same code.
##
Example C22_inv_case : code_b64_to_b2 (s! "1AAG") = Ok [xd4; x00; x06] /\ code_b2_to_b64 [xd4; x00; x06; x99] 4 = Ok (s! "1AAG").
Proof. split; (vm_compute; reflexivity). Qed.
#*)
Lemma C22_inv_l (s : bytes) (v : N) : base64_number 0 s = Some v -> 1 <= len s -> len s <= 8 ->
  exists b, code_b64_to_b2 s = Ok b /\ len b = (6 * len s + 7) / 8 /\ forall r, code_b2_to_b64 (b ++ r) (len s) = Ok s.
Proof.
  intros H H1 H2. destruct (code_b64_b2_b64 s) as (b & E & P); auto. { eapply b64val_b64s. exact H. }
  exists b. repeat split; auto. rewrite (code_b64_to_b2_spec s v) in E by auto. inversion E. rewrite len_be_bytes. unfold nbytes. lia.
Qed.

(*# C20_float_logarithm
   The f32 logarithm in the code does not matter for numbers that fit: with any arithmetic whose logarithm of integers is monotone and
   exact at powers of 64, division and subtraction monotone, the code computes what the model computes.
##
Example C20_float_case : float_ok Z Z.of_N Z.log2 Z.div Z.sub Z.leb 0%Z.
Proof. exact float_ok_case. Qed.
#*)
Lemma C20_float_l (F : Type) (of_int : N -> F) (log2 : F -> F) (div sub add : F -> F -> F) (le : F -> F -> bool) (zero one : F) (n k : N) :
  float_ok F of_int log2 div sub le zero -> k <= 10 -> n <= 64 ^ k ->
  uint_to_b64_f F of_int log2 div sub add le zero one n k = uint_to_b64 n k.
Proof. intros H. exact (float_test_exact F of_int log2 div sub add le zero one H n k). Qed.
