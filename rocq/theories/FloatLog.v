(** The floating-point test of [u32_to_b64]/[u64_to_b64] (src/cesr/core/util.rs:174 and 199), against the exact test used by
    [Util.uint_to_b64].

    The code computes [overflow = length as f32 - (n as f32).log2() / 64f32.log2()] and prints a digit while [overflow >= 0.0],
    otherwise skips it and adds [1f32]. Here the carrier and operations of f32 are arbitrary, and the theorem asks only for what
    IEEE 754 gives (monotone rounding) and for a logarithm that is monotone and exact at the powers of 64. *)
From Coq Require Import NArith ZArith Bool List Lia ZifyBool ZifyNat ZifyN.
From Verif Require Import Base BaseFacts B64 B64Facts Util UtilFacts.
Import ListNotations.
Open Scope N_scope.

Section FloatTest.
  Variable F : Type.
  Variable of_int : N -> F.            (* [as f32] *)
  Variable log2 : F -> F.              (* [f32::log2] *)
  Variables div sub add : F -> F -> F.
  Variable le : F -> F -> bool.        (* [<=] *)
  Variable zero one : F.

  (** util.rs:174-184 the digit loop with the float test. *)
  Fixpoint loop_f (fuel : nat) (overflow : F) (x : N) (out : bytes) : bytes :=
    match fuel with
    | O => out
    | S f =>
      if x =? 0 then out
      else if le zero overflow then loop_f f overflow (x / 64) (b64_char (x mod 64) :: out)
      else loop_f f (add overflow one) (x / 64) out
    end.
  (** util.rs:165-188 and 190-213. *)
  Definition uint_to_b64_f (n length : N) : bytes :=
    if length =? 0 then []
    else
      let overflow := sub (of_int length) (div (log2 (of_int n)) (log2 (of_int 64))) in
      let out := loop_f 11 overflow n [] in
      repeat x41 (N.to_nat length - List.length out) ++ out.

  (** Logarithm of a converted integer and division are monotone, subtraction is antitone on the right, [le] is transitive; at a power of 64 the
      logarithm divided by the logarithm of 64 is the exponent, and a number minus itself is not negative. *)
  Record float_ok : Prop := {
    le_trans : forall a b c, le a b = true -> le b c = true -> le a c = true;
    log2_mono : forall m n, 0 < m -> m <= n -> le (log2 (of_int m)) (log2 (of_int n)) = true;
    div_mono : forall a b c, le a b = true -> le (div a (log2 (of_int c))) (div b (log2 (of_int c))) = true;
    log_exact : forall k, 1 <= k -> k <= 10 -> div (log2 (of_int (64 ^ k))) (log2 (of_int 64)) = of_int k;
    sub_anti : forall a b c, le a b = true -> le (sub c b) (sub c a) = true;
    sub_self : forall k, le zero (sub (of_int k) (of_int k)) = true }.

  Lemma loop_f_exact fuel : forall n length x out ov, le zero ov = true -> n <= 64 ^ length ->
    loop_f fuel ov x out = uint_to_b64_loop fuel n length 0 x out.
  Proof.
    induction fuel as [|f IH]; intros n length x out ov Ho Hn; cbn [loop_f uint_to_b64_loop]; auto.
    destruct (x =? 0); auto. rewrite Ho, N.add_0_r. replace (n <=? 64 ^ length) with true by lia. now apply IH.
  Qed.

  (** For numbers that fit, the code with the float test computes what the model computes. *)
  Theorem float_test_exact : float_ok -> forall n length, length <= 10 -> n <= 64 ^ length ->
    uint_to_b64_f n length = uint_to_b64 n length.
  Proof.
    intros Hf n length HL Hn. unfold uint_to_b64_f, uint_to_b64. destruct (length =? 0) eqn:E; auto. cbv zeta.
    destruct (N.eq_dec n 0) as [->|Hz]; [reflexivity|].
    rewrite (loop_f_exact 11 n length); auto.
    eapply (le_trans Hf); [apply (sub_self Hf length)|]. apply (sub_anti Hf).
    rewrite <- (log_exact Hf length) by lia. apply (div_mono Hf). apply (log2_mono Hf); lia.
  Qed.
End FloatTest.

(** The premises can be met: whole logarithms in Z. *)
Example float_ok_case : float_ok Z Z.of_N Z.log2 Z.div Z.sub Z.leb 0%Z.
Proof.
  constructor.
  - intros; lia.
  - intros m n _ H. apply Z.leb_le. apply Z.log2_le_mono. lia.
  - intros a b c H. apply Z.leb_le. apply Z.leb_le in H. pose proof (Z.log2_nonneg (Z.of_N c)). destruct (Z.eq_dec (Z.log2 (Z.of_N c)) 0) as [E|E].
    + rewrite E. now rewrite !Zdiv_0_r.
    + apply Z.div_le_mono; lia.
  - intros k _ _. rewrite N2Z.inj_pow. change (Z.log2 (Z.of_N 64)) with 6%Z. change (Z.of_N 64) with (2 ^ 6)%Z. rewrite <- Z.pow_mul_r by lia.
    rewrite Z.log2_pow2 by lia. rewrite Z.mul_comm. apply Z.div_mul. discriminate.
  - intros; lia.
  - intros; lia.
Qed.
