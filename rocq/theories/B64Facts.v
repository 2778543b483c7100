(** Lemmas about base64: [decode] is exactly the inverse of [encode]. *)
From Coq Require Import NArith ZArith Bool List Lia ZifyBool ZifyNat ZifyN.
From Verif Require Import Base BaseFacts B64.
Import ListNotations.
Open Scope N_scope.
Ltac Zify.zify_post_hook ::= Z.div_mod_to_equations.

(** ** Alphabet *)
Lemma b64_index_char i : i < 64 -> b64_index (b64_char i) = Some i.
Proof.
  intros H.
  assert (forallb (fun n => match b64_index (b64_char (N.of_nat n)) with Some j => N.of_nat n =? j | None => false end)
            (seq 0 64) = true) as F by (vm_compute; reflexivity).
  rewrite forallb_forall in F. specialize (F (N.to_nat i)).
  rewrite N2Nat.id in F. destruct (b64_index (b64_char i)) as [j|].
  - f_equal. symmetry. apply N.eqb_eq. apply F. apply in_seq. lia.
  - assert (false = true) by (apply F; apply in_seq; lia). discriminate.
Qed.

Lemma b64_index_Some b i : b64_index b = Some i -> i < 64 /\ b64_char i = b.
Proof.
  intros H.
  pose (P := fun b => match b64_index b with Some j => (j <? 64) && Byte.eqb (b64_char j) b | None => true end).
  assert (forallb P all_bytes = true) as F by (vm_compute; reflexivity).
  pose proof (forall_byte P F b) as G. unfold P in G. rewrite H in G.
  apply andb_true_iff in G as [G1 G2]. apply byte_eqb_eq in G2. split; auto. lia.
Qed.

Lemma b64_char_inj i j : i < 64 -> j < 64 -> b64_char i = b64_char j -> i = j.
Proof.
  intros Hi Hj H. assert (Some i = Some j) as E.
  { rewrite <- (b64_index_char i), <- (b64_index_char j) by assumption. now rewrite H. }
  now inversion E.
Qed.

Lemma b64_index_inj a b i : b64_index a = Some i -> b64_index b = Some i -> a = b.
Proof. intros Ha Hb. apply b64_index_Some in Ha as [_ <-]. now apply b64_index_Some in Hb as [_ <-]. Qed.

Lemma b64_index_pad : b64_index pad_char = None. Proof. reflexivity. Qed.

Lemma is_b64_char i : i < 64 -> is_b64 (b64_char i) = true.
Proof. intros. unfold is_b64. now rewrite b64_index_char. Qed.

Lemma is_b64_ascii b : is_b64 b = true -> is_ascii b = true.
Proof.
  pose (P := fun b => implb (is_b64 b) (is_ascii b)).
  assert (forallb P all_bytes = true) as F by (vm_compute; reflexivity).
  pose proof (forall_byte P F b) as G. unfold P in G. intros H. now rewrite H in G.
Qed.
Lemma is_b64s_ascii l : is_b64s l = true -> ascii l = true.
Proof.
  unfold is_b64s, ascii. rewrite !forallb_forall. intros H x Hx. apply is_b64_ascii. auto.
Qed.
Lemma is_b64s_app a b : is_b64s (a ++ b) = is_b64s a && is_b64s b.
Proof. apply forallb_app. Qed.
Lemma b64_char_not_pad i : i < 64 -> Byte.eqb (b64_char i) pad_char = false.
Proof.
  intros H. apply byte_eqb_neq. intros E.
  pose proof (b64_index_char i H) as G. rewrite E in G. discriminate.
Qed.
Lemma b64_char_0 : b64_char 0 = x41. Proof. reflexivity. Qed.

(** ** Induction by groups *)
Lemma list_ind3 {A} (P : list A -> Prop) :
  P [] -> (forall a, P [a]) -> (forall a b, P [a; b]) ->
  (forall a b c r, P r -> P (a :: b :: c :: r)) -> forall l, P l.
Proof.
  intros H0 H1 H2 H3 l.
  assert (P l /\ (forall a, P (a :: l)) /\ (forall a b, P (a :: b :: l))) as G; [|tauto].
  induction l as [|x l (IH1 & IH2 & IH3)]; repeat split; auto.
Qed.
Lemma list_ind4 {A} (P : list A -> Prop) :
  P [] -> (forall a, P [a]) -> (forall a b, P [a; b]) -> (forall a b c, P [a; b; c]) ->
  (forall a b c d r, P r -> P (a :: b :: c :: d :: r)) -> forall l, P l.
Proof.
  intros H0 H1 H2 H3 H4 l.
  assert (P l /\ (forall a, P (a :: l)) /\ (forall a b, P (a :: b :: l)) /\ (forall a b c, P (a :: b :: c :: l))) as G;
    [|tauto].
  induction l as [|x l (IH1 & IH2 & IH3 & IH4)]; repeat split; auto.
Qed.

(** ** Groups *)
Ltac byte_bounds :=
  repeat match goal with
  | b : byte |- _ =>
    lazymatch goal with
    | _ : b2n b < 256 |- _ => fail
    | _ => pose proof (b2n_lt b)
    end
  end.

Lemma dec4_enc3 a b c : dec4 (b64_char (b2n a / 4)) (b64_char ((b2n a mod 4) * 16 + b2n b / 16))
    (b64_char ((b2n b mod 16) * 4 + b2n c / 64)) (b64_char (b2n c mod 64)) = Ok [a; b; c].
Proof.
  byte_bounds. unfold dec4. rewrite !b64_index_char by lia. f_equal.
  repeat (apply f_equal2); try reflexivity; apply n2b_eq; lia.
Qed.

Lemma dec4_ok a b c d l : dec4 a b c d = Ok l ->
  exists x y z, l = [x; y; z] /\ [a; b; c; d] = enc3 x y z.
Proof.
  unfold dec4.
  destruct (b64_index a) as [i|] eqn:Ei; try discriminate.
  destruct (b64_index b) as [j|] eqn:Ej; try discriminate.
  destruct (b64_index c) as [k|] eqn:Ek; try discriminate.
  destruct (b64_index d) as [m|] eqn:Em; try discriminate.
  intros E; inversion E; subst l; clear E.
  apply b64_index_Some in Ei as [? <-]. apply b64_index_Some in Ej as [? <-].
  apply b64_index_Some in Ek as [? <-]. apply b64_index_Some in Em as [? <-].
  do 3 eexists. split; [reflexivity|]. unfold enc3. rewrite !b2n_n2b by lia.
  repeat f_equal; lia.
Qed.

Lemma enc3_not_pad x y z : forall q, In q (enc3 x y z) -> is_b64 q = true.
Proof.
  byte_bounds. unfold enc3. intros q [<-|[<-|[<-|[<-|[]]]]]; apply is_b64_char; lia.
Qed.

Lemma dec_last_ok a b c d l : dec_last a b c d = Ok l -> encode l = [a; b; c; d].
Proof.
  unfold dec_last. destruct (Byte.eqb d pad_char) eqn:Ed.
  - apply byte_eqb_eq in Ed. subst d. destruct (Byte.eqb c pad_char) eqn:Ec.
    + apply byte_eqb_eq in Ec. subst c.
      destruct (b64_index a) as [i|] eqn:Ei; try discriminate.
      destruct (b64_index b) as [j|] eqn:Ej; try discriminate.
      destruct (j mod 16 =? 0) eqn:E0; try discriminate.
      intros E; inversion E; subst l; clear E.
      apply b64_index_Some in Ei as [? <-]. apply b64_index_Some in Ej as [? <-].
      cbn [encode]. rewrite b2n_n2b by lia. repeat f_equal; lia.
    + destruct (b64_index a) as [i|] eqn:Ei; try discriminate.
      destruct (b64_index b) as [j|] eqn:Ej; try discriminate.
      destruct (b64_index c) as [k|] eqn:Ek; try discriminate.
      destruct (k mod 4 =? 0) eqn:E0; try discriminate.
      intros E; inversion E; subst l; clear E.
      apply b64_index_Some in Ei as [? <-]. apply b64_index_Some in Ej as [? <-]. apply b64_index_Some in Ek as [? <-].
      cbn [encode]. rewrite !b2n_n2b by lia. repeat f_equal; lia.
  - intros E. apply dec4_ok in E as (x & y & z & -> & ->). cbn [encode]. apply app_nil_r.
Qed.

(** ** [decode] and [encode] are mutually inverse *)
Lemma encode_cons3 a b c r : encode (a :: b :: c :: r) = enc3 a b c ++ encode r.
Proof. reflexivity. Qed.

Lemma encode_nil_inv l : encode l = [] -> l = [].
Proof. destruct l as [|a [|b [|c r]]]; simpl; auto; discriminate. Qed.

Lemma decode_cons4 a b c d e r :
  decode (a :: b :: c :: d :: e :: r) = let* x := dec4 a b c d in let* y := decode (e :: r) in Ok (x ++ y).
Proof. reflexivity. Qed.

Theorem decode_encode l : decode (encode l) = Ok l.
Proof.
  induction l as [|a|a b|a b c r IH] using list_ind3; byte_bounds.
  - reflexivity.
  - cbn [encode decode]. unfold dec_last. rewrite !byte_eqb_refl. rewrite !b64_index_char by lia.
    replace ((b2n a mod 4 * 16) mod 16 =? 0) with true by lia. do 2 f_equal.
    apply n2b_eq. lia.
  - cbn [encode decode]. unfold dec_last. rewrite !byte_eqb_refl. rewrite b64_char_not_pad by lia.
    rewrite !b64_index_char by lia.
    replace ((b2n b mod 16 * 4) mod 4 =? 0) with true by lia. f_equal.
    repeat (apply f_equal2); try reflexivity; apply n2b_eq; lia.
  - rewrite encode_cons3. destruct (encode r) as [|e l] eqn:E.
    + apply encode_nil_inv in E. subst r. unfold enc3. cbn [app decode].
      unfold dec_last. rewrite b64_char_not_pad by lia. apply dec4_enc3.
    + unfold enc3. cbn [app]. rewrite decode_cons4, dec4_enc3.
      rewrite bind_Ok, IH. reflexivity.
Qed.

Theorem encode_decode s l : decode s = Ok l -> encode l = s.
Proof.
  revert l; induction s as [|a|a b|a b c|a b c d r IH] using list_ind4; intros l H; try discriminate.
  - inversion H. reflexivity.
  - destruct r as [|e r].
    + now apply dec_last_ok.
    + rewrite decode_cons4 in H. apply bind_ok in H as (x & H1 & H). apply bind_ok in H as (y & H2 & H).
      inversion H; subst l; clear H. apply dec4_ok in H1 as (p & q & s & -> & E).
      cbn [app]. rewrite encode_cons3. rewrite <- E. rewrite (IH _ H2). reflexivity.
Qed.

Theorem decode_iff s l : decode s = Ok l <-> s = encode l.
Proof. split; intros H; [symmetry; now apply encode_decode | subst; apply decode_encode]. Qed.

Lemma encode_inj a b : encode a = encode b -> a = b.
Proof.
  intros H. assert (@Ok bytes a = Ok b) as E by (rewrite <- !decode_encode, H; reflexivity). now inversion E.
Qed.

(** ** Lengths *)
Lemma len_encode l : len (encode l) = 4 * ((len l + 2) / 3).
Proof.
  induction l as [|a|a b|a b c r IH] using list_ind3; try reflexivity.
  rewrite encode_cons3, len_app, IH, !len_cons. change (len (enc3 a b c)) with 4. lia.
Qed.

Lemma encode_app a b : len a mod 3 = 0 -> encode (a ++ b) = encode a ++ encode b.
Proof.
  induction a as [|x|x y|x y z r IH] using list_ind3; intros H; try (vm_compute in H; discriminate).
  - reflexivity.
  - cbn [app]. rewrite !encode_cons3, IH, app_assoc; auto. rewrite !len_cons in H. lia.
Qed.

Lemma encode_b64s l : len l mod 3 = 0 -> is_b64s (encode l) = true.
Proof.
  induction l as [|a|a b|a b c r IH] using list_ind3; intros H; try (vm_compute in H; discriminate).
  - reflexivity.
  - rewrite encode_cons3, is_b64s_app, IH.
    + rewrite andb_true_r. apply forallb_forall. apply enc3_not_pad.
    + rewrite !len_cons in H. lia.
Qed.

Lemma encode_ascii l : ascii (encode l) = true.
Proof.
  assert (forall i, i < 64 -> is_ascii (b64_char i) = true) as C by (intros; now apply is_b64_ascii, is_b64_char).
  induction l as [|a|a b|a b c r IH] using list_ind3; byte_bounds.
  - reflexivity.
  - cbn [encode ascii forallb]. rewrite !C by lia. reflexivity.
  - cbn [encode ascii forallb]. rewrite !C by lia. reflexivity.
  - rewrite encode_cons3, ascii_app, IH. unfold enc3. cbn [ascii forallb]. rewrite !C by lia. reflexivity.
Qed.

(** Decoding alphabet-only text of whole quads always succeeds. *)
Lemma dec4_total a b c d :
  is_b64 a = true -> is_b64 b = true -> is_b64 c = true -> is_b64 d = true ->
  exists x y z, dec4 a b c d = Ok [x; y; z].
Proof.
  unfold is_b64, dec4.
  destruct (b64_index a), (b64_index b), (b64_index c), (b64_index d); try discriminate. eauto.
Qed.

Lemma is_b64_not_pad b : is_b64 b = true -> Byte.eqb b pad_char = false.
Proof. intros H. apply byte_eqb_neq. intros ->. discriminate. Qed.

Lemma decode_total s : is_b64s s = true -> len s mod 4 = 0 ->
  exists l, decode s = Ok l /\ len l = 3 * (len s / 4).
Proof.
  induction s as [|a|a b|a b c|a b c d r IH] using list_ind4; intros H L; try (vm_compute in L; discriminate).
  - exists []. split; reflexivity.
  - cbn [is_b64s forallb] in H. repeat (apply andb_true_iff in H as [? H]).
    destruct (dec4_total a b c d) as (x & y & z & E); auto.
    rewrite !len_cons in L. destruct IH as (l & E2 & L2); auto; [lia|].
    destruct r as [|e r].
    + exists [x; y; z]. cbn [decode]. unfold dec_last. rewrite is_b64_not_pad by auto. split; auto.
    + exists ([x; y; z] ++ l). rewrite decode_cons4, E, bind_Ok.
      rewrite E2, bind_Ok. split; auto.
      rewrite len_app, L2, !len_cons. change (len (@nil byte)) with 0. lia.
Qed.

Lemma decode_len s l : decode s = Ok l -> len s = 4 * ((len l + 2) / 3).
Proof. intros H. apply encode_decode in H. now rewrite <- H, len_encode. Qed.

(** ** Leading zero bytes *)
Lemma encode_zero1 b c r : exists t, encode (x00 :: b :: c :: r) = x41 :: t.
Proof. rewrite encode_cons3. unfold enc3. cbn [app]. eexists. reflexivity. Qed.
Lemma encode_zero2 c r : exists t, encode (x00 :: x00 :: c :: r) = x41 :: x41 :: t.
Proof. rewrite encode_cons3. unfold enc3. cbn [app]. eexists. reflexivity. Qed.

(** [ps] leading zero bytes ([ps] at most 2, whole groups) become [ps] leading 'A' characters. *)
Lemma encode_zeros ps raw :
  ps <= 2 -> (ps + len raw) mod 3 = 0 -> encode (zeros ps ++ raw) = repeat x41 (N.to_nat ps) ++ drop ps (encode (zeros ps ++ raw)).
Proof.
  intros Hp Hl. assert (ps = 0 \/ ps = 1 \/ ps = 2) as Hc by lia.
  destruct Hc as [Hc|[Hc|Hc]]; subst ps.
  - reflexivity.
  - change (zeros 1) with [x00]. destruct raw as [|b [|c r]]; try (vm_compute in Hl; discriminate).
    cbn [app]. destruct (encode_zero1 b c r) as (t & ->). reflexivity.
  - change (zeros 2) with [x00; x00]. destruct raw as [|c r]; try (vm_compute in Hl; discriminate).
    cbn [app]. destruct (encode_zero2 c r) as (t & ->). reflexivity.
Qed.

(** Converse: if [ps] leading characters are 'A', the first [ps] bytes carry only their low [2*ps] bits. *)
Lemma encode_A1 x y z r t : encode (x :: y :: z :: r) = x41 :: t -> b2n x < 4.
Proof.
  rewrite encode_cons3. unfold enc3. cbn [app]. intros H. inversion H as [[H1 H2]].
  byte_bounds. change x41 with (b64_char 0) in H1. apply b64_char_inj in H1; lia.
Qed.
Lemma encode_A2 x y z r t : encode (x :: y :: z :: r) = x41 :: x41 :: t -> b2n x = 0 /\ b2n y < 16.
Proof.
  rewrite encode_cons3. unfold enc3. cbn [app]. intros H. inversion H as [[H1 H2 H3]].
  byte_bounds. change x41 with (b64_char 0) in H1, H2.
  apply b64_char_inj in H1; [|lia|lia]. apply b64_char_inj in H2; lia.
Qed.
