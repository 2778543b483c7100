(** Counter printing and parsing. *)
From Coq Require Import String.
From Coq Require Import NArith ZArith Bool List Lia ZifyBool ZifyNat ZifyN.
From Verif Require Import Base BaseFacts B64 B64Facts Util UtilFacts Tables Matter MatterFacts MatterBin MatterText Counter.
Import ListNotations.
Open Scope N_scope.
Ltac Zify.zify_post_hook ::= Z.div_mod_to_equations.

Definition idx (c : byte) : N := match b64_index c with Some i => i | None => 64 end.

Definition centry_ok (e : bytes * sizage) : bool :=
  let '(c, z) := e in
  (hs z =? len c) && is_b64s c && (fs z =? hs z + ss z) && (2 <=? hs z)
  && ((hs z =? 2) && (ss z =? 2) || (hs z =? 3) && (ss z =? 5) || (hs z =? 5) && (ss z =? 3))
  && match chardage (take 2 c) with Ok h => h =? hs z | _ => false end
  && match cbardage (map idx (take 2 c)) with Ok h => h =? hs z | _ => false end
  && match map idx (take 2 c) with x :: _ => x =? 62 | [] => false end.
Lemma ctable_ok : forallb centry_ok counter_table = true.
Proof. vm_compute. reflexivity. Qed.

Record cfacts (c : bytes) (z : sizage) : Prop := {
  cf_len : len c = hs z;
  cf_b64 : is_b64s c = true;
  cf_fs : fs z = hs z + ss z;
  cf_sz : hs z = 2 /\ ss z = 2 \/ hs z = 3 /\ ss z = 5 \/ hs z = 5 /\ ss z = 3;
  cf_hard : chardage (take 2 c) = Ok (hs z);
  cf_bard : cbardage (map idx (take 2 c)) = Ok (hs z);
  cf_first : exists r, map idx (take 2 c) = 62 :: r }.
Lemma clookup_facts c z : lookup counter_table c = Some z -> cfacts c z.
Proof.
  intros H. apply lookup_In in H. pose proof ctable_ok as T. rewrite forallb_forall in T. apply T in H. clear T. unfold centry_ok in H.
  repeat (apply andb_true_iff in H as [H ?]).
  destruct (chardage (take 2 c)) as [h1| |] eqn:E1; try discriminate. destruct (cbardage (map idx (take 2 c))) as [h2| |] eqn:E2; try discriminate.
  destruct (map idx (take 2 c)) as [|x r] eqn:E3; try discriminate.
  constructor; auto; try lia; try (rewrite E1; f_equal; lia); try (f_equal; lia).
  - rewrite E3, E2. f_equal. lia.
  - exists r. rewrite E3. f_equal. lia.
Qed.

Lemma csizage_of_ok c z : lookup counter_table c = Some z -> csizage_of c = Ok z.
Proof. unfold csizage_of. now intros ->. Qed.
Lemma csizage_of_inv c z : csizage_of c = Ok z -> lookup counter_table c = Some z.
Proof. unfold csizage_of. destruct (lookup counter_table c); congruence. Qed.

Definition ctext (c : counter) (z : sizage) : bytes := c_code c ++ b64_digits (N.to_nat (ss z)) (c_count c).
Definition cwf (c : counter) (z : sizage) : Prop := lookup counter_table (c_code c) = Some z /\ c_count c < 64 ^ ss z.

Lemma pow64_ok n : n <= 5 -> pow64_u32 n = Ok (64 ^ n) /\ 1 <= 64 ^ n.
Proof.
  intros H. unfold pow64_u32. assert (64 ^ n <= 64 ^ 5) by (apply N.pow_le_mono_r; lia). change (64 ^ 5) with 1073741824 in *.
  replace (64 ^ n <=? u32_max) with true by (unfold u32_max; lia). split; auto. assert (64 ^ n <> 0) by now apply N.pow_nonzero. lia.
Qed.

Lemma cconstruct c z n : lookup counter_table c = Some z ->
  counter_of_code_count c n = if 64 ^ ss z <=? n then Err EInvalidVarIndex else Ok (Ct c n).
Proof.
  intros H. pose proof (clookup_facts _ _ H) as F. pose proof (cf_sz _ _ F) as S. pose proof (cf_len _ _ F) as L.
  unfold counter_of_code_count. destruct c as [|x c0] eqn:Ec; [rewrite len_nilb in L; lia|]. rewrite <- Ec in *.
  rewrite (csizage_of_ok _ _ H), bind_Ok. cbv zeta. rewrite (cf_fs _ _ F), N.eqb_refl.
  replace ((hs z + ss z) mod 4 =? 0) with true by lia. cbn [negb orb].
  destruct (pow64_ok (ss z)) as [-> P]; [lia|]. rewrite bind_Ok.
  replace (64 ^ ss z - 1 <? n) with (64 ^ ss z <=? n) by lia. reflexivity.
Qed.

Lemma len_ctext c z : cwf c z -> len (ctext c z) = hs z + ss z.
Proof. intros [H _]. unfold ctext. rewrite len_app, len_b64_digits. rewrite (cf_len _ _ (clookup_facts _ _ H)). lia. Qed.
Lemma ctext_b64 c z : cwf c z -> is_b64s (ctext c z) = true.
Proof. intros [H _]. unfold ctext. rewrite is_b64s_app, is_b64s_digits. now rewrite (cf_b64 _ _ (clookup_facts _ _ H)). Qed.

Lemma cinfil_wf c z : cwf c z -> cinfil c = Ok (ctext c z).
Proof.
  intros W. pose proof W as [H Hn]. pose proof (clookup_facts _ _ H) as F. pose proof (cf_sz _ _ F) as S.
  unfold cinfil. rewrite (csizage_of_ok _ _ H), bind_Ok. cbv zeta. rewrite (cf_fs _ _ F), N.eqb_refl.
  replace ((hs z + ss z) mod 4 =? 0) with true by lia. cbn [negb orb].
  destruct (pow64_ok (ss z)) as [-> P]; [lia|]. rewrite bind_Ok. replace (64 ^ ss z - 1 <? c_count c) with false by lia.
  rewrite uint_to_b64_exact by (auto; lia). fold (ctext c z). rewrite len_ctext by auto. now rewrite N.eqb_refl.
Qed.

Lemma cinfil_inv c t : cinfil c = Ok t -> exists z, cwf c z /\ t = ctext c z.
Proof.
  intros H. pose proof H as H0. unfold cinfil in H. apply bind_ok in H as (z & Hz & H). apply csizage_of_inv in Hz. cbv zeta in H.
  pose proof (cf_sz _ _ (clookup_facts _ _ Hz)) as S.
  destruct (negb (fs z =? hs z + ss z) || negb ((hs z + ss z) mod 4 =? 0)); try discriminate.
  destruct (pow64_ok (ss z)) as [E P]; [lia|]. rewrite E, bind_Ok in H. destruct (64 ^ ss z - 1 <? c_count c) eqn:E1; try discriminate.
  exists z. assert (cwf c z) as W by (split; auto; lia). split; auto. rewrite (cinfil_wf c z W) in H0. congruence.
Qed.

Lemma bcode_quad t : is_b64s t = true -> len t = 4 \/ len t = 8 -> code_b64_to_b2 t = Ok (bcode t) /\ encode (bcode t) = t /\ 4 * len (bcode t) = 3 * len t.
Proof.
  intros Hb HL. destruct (b64val_total t Hb) as (v & Hv). repeat split.
  - rewrite (code_b64_to_b2_spec t v) by (auto; lia). unfold bcode. now rewrite Hv.
  - pose proof (encode_bcode t [] Hb) as E. rewrite app_nil_r in E. rewrite E.
    + assert (len t mod 4 = 0) as -> by lia. change (encode (zeros 0 ++ [])) with (@nil byte). rewrite drop_0. apply app_nil_r.
    + lia.
    + rewrite len_nilb. lia.
  - destruct (bcode_val t v Hv) as [_ ->]; try lia. unfold nbytes. lia.
Qed.

Lemma cbinfil_wf c z : cwf c z -> cbinfil c = Ok (bcode (ctext c z)) /\ encode (bcode (ctext c z)) = ctext c z
  /\ 4 * len (bcode (ctext c z)) = 3 * (hs z + ss z).
Proof.
  intros W. pose proof (cf_sz _ _ (clookup_facts _ _ (proj1 W))) as S. unfold cbinfil. rewrite (cinfil_wf c z W), bind_Ok.
  rewrite <- (len_ctext c z W). apply bcode_quad; [now apply ctext_b64|]. rewrite (len_ctext c z W). lia.
Qed.

Lemma chard_np s : chardage s <> Panic.
Proof. unfold chardage. repeat match goal with |- context [if ?c then _ else _] => destruct c end; discriminate. Qed.
Lemma chard_val s h : chardage s = Ok h -> h = 2 \/ h = 3 \/ h = 5.
Proof. unfold chardage. repeat match goal with |- context [if ?c then _ else _] => destruct c end; intros H; inversion H; auto. Qed.
Lemma cbard_np s : cbardage s <> Panic.
Proof.
  unfold cbardage. destruct s as [|x [|y [|w s]]]; try discriminate.
  repeat match goal with |- context [if ?c then _ else _] => destruct c end; discriminate.
Qed.
Lemma cbard_val s h : cbardage s = Ok h -> h = 2 \/ h = 3 \/ h = 5.
Proof.
  unfold cbardage. destruct s as [|x [|y [|w s]]]; try discriminate.
  repeat match goal with |- context [if ?c then _ else _] => destruct c end; intros H; inversion H; auto.
Qed.

Lemma cexfil_ctext c z r : cwf c z -> utf8 r = true -> cexfil (ctext c z ++ r) = Ok c.
Proof.
  intros W Hr. pose proof W as [H Hn]. pose proof (clookup_facts _ _ H) as F. pose proof (cf_sz _ _ F) as S. pose proof (cf_len _ _ F) as L.
  pose proof (len_ctext c z W) as Lt. assert (ascii (ctext c z) = true) as A by (apply is_b64s_ascii; now apply ctext_b64).
  unfold cexfil. destruct (ctext c z ++ r) as [|x s0] eqn:Es.
  { apply app_eq_nil in Es as [Es _]. rewrite Es, len_nilb in Lt. lia. }
  rewrite <- Es. clear Es x s0.
  rewrite slice_str_ascii_prefix by (auto; lia). rewrite bind_Ok, drop_0.
  assert (take (2 - 0) (ctext c z) = take 2 (c_code c)) as -> by (unfold ctext; rewrite take_app_le by lia; reflexivity).
  rewrite (cf_hard _ _ F), bind_Ok. replace (len (ctext c z ++ r) <? hs z) with false by (rewrite len_app; lia).
  rewrite slice_str_ascii_prefix by (auto; lia). rewrite bind_Ok, drop_0, N.sub_0_r.
  assert (take (hs z) (ctext c z) = c_code c) as -> by (unfold ctext; apply take_app_exact; lia).
  rewrite (csizage_of_ok _ _ H), bind_Ok. cbv zeta. replace (len (ctext c z ++ r) <? hs z + ss z) with false by (rewrite len_app; lia).
  rewrite slice_str_ascii_prefix by (auto; lia). rewrite bind_Ok. replace (hs z + ss z - hs z) with (ss z) by lia.
  assert (take (ss z) (drop (hs z) (ctext c z)) = b64_digits (N.to_nat (ss z)) (c_count c)) as ->.
  { unfold ctext. rewrite drop_app_exact by lia. apply take_all. rewrite len_b64_digits. lia. }
  rewrite (b64_to_u64_exact _ (c_count c)).
  - rewrite bind_Ok. f_equal. destruct c as [code n]; cbn [c_code c_count] in *. f_equal. unfold as_u32. apply N.mod_small.
    assert (64 ^ ss z <= 64 ^ 5) by (apply N.pow_le_mono_r; lia). change (64 ^ 5) with 1073741824 in *. lia.
  - rewrite b64val_digits, N2Nat.id, N.mod_small; auto.
  - rewrite len_b64_digits. lia.
Qed.

Lemma cexfil_inv s c : cexfil s = Ok c -> exists z r, cwf c z /\ s = ctext c z ++ r.
Proof.
  unfold cexfil. destruct s as [|x s0] eqn:Es; try discriminate. rewrite <- Es. clear Es x s0. intros H.
  apply bind_ok in H as (f & Hf & H). apply bind_ok in H as (h & Hh & H). apply chard_val in Hh.
  destruct (len s <? h) eqn:E1; try discriminate. apply bind_ok in H as (hard & Hhard & H).
  apply bind_ok in H as (z & Hz & H). apply csizage_of_inv in Hz. cbv zeta in H.
  destruct (len s <? hs z + ss z) eqn:E2; try discriminate. apply bind_ok in H as (cb & Hcb & H). apply bind_ok in H as (n & Hn & H).
  inversion H; subst c; clear H. pose proof (clookup_facts _ _ Hz) as F. pose proof (cf_sz _ _ F) as S. pose proof (cf_len _ _ F) as L.
  apply slice_str_ok' in Hhard as (_ & Lh & Eh). apply slice_str_ok' in Hcb as (_ & Lc & Ec).
  rewrite drop_0, N.sub_0_r in Eh. subst hard. rewrite len_take in L. assert (h = hs z) as -> by lia.
  assert (len cb = ss z) as Lcb by (rewrite Ec, len_take, len_drop; lia).
  apply b64_to_u64_inv in Hn; [|lia]. pose proof (b64val_lt _ _ Hn) as B. rewrite Lcb in B.
  assert (64 ^ ss z <= 64 ^ 5) as P by (apply N.pow_le_mono_r; lia). change (64 ^ 5) with 1073741824 in P.
  assert (as_u32 n = n) as -> by (unfold as_u32; apply N.mod_small; lia).
  exists z, (drop (hs z + ss z) s). split; [split; auto|].
  unfold ctext. cbn [c_code c_count]. apply b64_digits_val in Hn. replace (length cb) with (N.to_nat (ss z)) in Hn by (unfold len in Lcb; lia).
  rewrite Hn, Ec. replace (hs z + ss z - hs z) with (ss z) by lia. rewrite <- app_assoc.
  rewrite <- drop_drop. rewrite take_drop. now rewrite take_drop.
Qed.

Lemma map_idx l : Forall (fun i => i < 64) l -> map idx (map b64_char l) = l.
Proof.
  induction 1 as [|i l Hi _ IH]; auto. cbn [map]. rewrite IH. f_equal. unfold idx. now rewrite b64_index_char.
Qed.

Lemma nab2 b : 2 <= len b -> nab_sextets b 2 = Ok (map idx (take 2 (encode b))).
Proof.
  intros H. destruct (nab_sextets_spec b 2) as (l & -> & E & F); try lia; [unfold nbytes; change ((2 + 1) * 3 / 4) with 2; lia|].
  rewrite <- E. now rewrite map_idx.
Qed.

Lemma cbexfil_ctext c z r : cwf c z -> cbexfil (bcode (ctext c z) ++ r) = Ok c.
Proof.
  intros W. pose proof W as [H Hn]. pose proof (clookup_facts _ _ H) as F. pose proof (cf_sz _ _ F) as S. pose proof (cf_len _ _ F) as L.
  destruct (cbinfil_wf c z W) as (_ & E & Lb). set (b := bcode (ctext c z)) in *. clearbody b.
  pose proof (len_ctext c z W) as Lt.
  assert (forall k, 1 <= k -> k <= hs z + ss z -> nbytes k <= len b -> take k (encode (b ++ r)) = take k (ctext c z)) as T.
  { intros k K1 K2 K3. rewrite encode_head_app by (auto; lia). now rewrite E. }
  unfold cbexfil. destruct (b ++ r) as [|x s0] eqn:Es.
  { apply app_eq_nil in Es as [-> _]. rewrite len_nilb in Lb. lia. }
  rewrite <- Es in *. clear Es x s0. rewrite nab2 by (rewrite len_app; lia). rewrite bind_Ok.
  rewrite (T 2) by (try lia; unfold nbytes; lia).
  assert (take 2 (ctext c z) = take 2 (c_code c)) as -> by (unfold ctext; rewrite take_app_le by lia; reflexivity).
  destruct (cf_first _ _ F) as (q & Eq). rewrite Eq. change (62 <? 62) with false. cbv iota. rewrite <- Eq.
  rewrite (cf_bard _ _ F), bind_Ok. cbv zeta. fold (nbytes (hs z)). fold (nbytes (hs z + ss z)).
  assert (nbytes (hs z) <= len b) as B1 by (unfold nbytes; lia). assert (nbytes (hs z + ss z) <= len b) as B2 by (unfold nbytes; lia).
  replace (len (b ++ r) <? nbytes (hs z)) with false by (rewrite len_app; lia).
  rewrite code_b2_to_b64_spec by (try rewrite len_app; lia). rewrite bind_Ok, T by lia.
  assert (take (hs z) (ctext c z) = c_code c) as -> by (unfold ctext; apply take_app_exact; lia).
  rewrite (csizage_of_ok _ _ H), bind_Ok. fold (nbytes (hs z + ss z)). replace (len (b ++ r) <? nbytes (hs z + ss z)) with false by (rewrite len_app; lia).
  rewrite code_b2_to_b64_spec by (try rewrite len_app; lia). rewrite bind_Ok, T by lia.
  rewrite take_all by lia.
  rewrite slice_str_ascii by (try apply is_b64s_ascii; try apply ctext_b64; auto; lia). rewrite bind_Ok. replace (hs z + ss z - hs z) with (ss z) by lia.
  assert (take (ss z) (drop (hs z) (ctext c z)) = b64_digits (N.to_nat (ss z)) (c_count c)) as ->.
  { unfold ctext. rewrite drop_app_exact by lia. apply take_all. rewrite len_b64_digits. lia. }
  rewrite (b64_to_u32_exact _ (c_count c)).
  - rewrite bind_Ok. now destruct c.
  - rewrite b64val_digits, N2Nat.id, N.mod_small; auto.
  - rewrite len_b64_digits. lia.
Qed.

Lemma cbexfil_inv b c : cbexfil b = Ok c -> exists z r, cwf c z /\ b = bcode (ctext c z) ++ r.
Proof.
  unfold cbexfil. destruct b as [|x s0] eqn:Es; try discriminate. rewrite <- Es. clear Es x s0. intros H.
  apply bind_ok in H as (sx & _ & H). destruct sx as [|x sx0] eqn:Ex; try discriminate.
  destruct (62 <? x); [destruct (x =? 63); discriminate|]. rewrite <- Ex in H. clear Ex.
  apply bind_ok in H as (h & Hh & H). apply cbard_val in Hh. cbv zeta in H. fold (nbytes h) in H.
  destruct (len b <? nbytes h) eqn:E1; try discriminate. apply bind_ok in H as (hard & Hhard & H).
  apply bind_ok in H as (z & Hz & H). apply csizage_of_inv in Hz. pose proof (clookup_facts _ _ Hz) as F. pose proof (cf_sz _ _ F) as S.
  pose proof (cf_len _ _ F) as L. fold (nbytes (hs z + ss z)) in H.
  destruct (len b <? nbytes (hs z + ss z)) eqn:E2; try discriminate.
  rewrite code_b2_to_b64_spec in Hhard by lia. inversion Hhard; subst hard; clear Hhard.
  rewrite code_b2_to_b64_spec in H by lia. rewrite bind_Ok in H. set (both := take (hs z + ss z) (encode b)) in *.
  assert (hs z + ss z <= len (encode b)) as LB. { rewrite len_encode. unfold nbytes in E2. lia. }
  assert (len both = hs z + ss z) as Lb by (unfold both; rewrite len_take; lia).
  assert (h = hs z) as ->. { rewrite len_take in L. unfold nbytes in *. lia. }
  apply bind_ok in H as (cb & Hcb & H). apply bind_ok in H as (n & Hn & H). inversion H; subst c; clear H.
  apply slice_str_ok' in Hcb as (_ & Lc & Ec). replace (hs z + ss z - hs z) with (ss z) in Ec by lia.
  assert (len cb = ss z) as Lcb by (rewrite Ec, len_take, len_drop; lia).
  apply b64_to_u32_inv in Hn; [|lia]. pose proof (b64val_lt _ _ Hn) as B. rewrite Lcb in B.
  exists z, (drop (nbytes (hs z + ss z)) b). assert (cwf (Ct (take (hs z) (encode b)) n) z) as W by (split; auto). split; auto.
  assert (ctext (Ct (take (hs z) (encode b)) n) z = both) as Et.
  { unfold ctext. cbn [c_code c_count]. apply b64_digits_val in Hn. replace (length cb) with (N.to_nat (ss z)) in Hn by (unfold len in Lcb; lia).
    rewrite Hn, Ec. rewrite (take_all (ss z) (drop (hs z) both)) by (rewrite len_drop; lia).
    assert (take (hs z) (encode b) = take (hs z) both) as -> by (unfold both; rewrite take_take; f_equal; lia). apply take_drop. }
  rewrite Et. assert (encode (bcode both) = both) as Eb. { rewrite <- Et. now apply cbinfil_wf. }
  assert (encode (take (nbytes (hs z + ss z)) b) = both) as Eb2.
  { unfold both. rewrite <- (take_drop (nbytes (hs z + ss z)) b) at 2. rewrite encode_app by (rewrite len_take; unfold nbytes in *; lia).
    rewrite take_app_exact; auto. rewrite len_encode, len_take. unfold nbytes in *. lia. }
  assert (bcode both = take (nbytes (hs z + ss z)) b) as ->; [|now rewrite take_drop].
  pose proof (decode_encode (bcode both)) as D1. rewrite Eb in D1. pose proof (decode_encode (take (nbytes (hs z + ss z)) b)) as D2. rewrite Eb2 in D2. congruence.
Qed.

Lemma csizage_np c : csizage_of c <> Panic.
Proof. unfold csizage_of. destruct (lookup counter_table c); discriminate. Qed.

Lemma cexfil_np s : ascii s = true -> len s <> 1 -> cexfil s <> Panic.
Proof.
  intros A L. unfold cexfil. destruct s as [|x s0] eqn:Es; try discriminate. rewrite <- Es in *.
  assert (2 <= len s) as L2. { subst s. rewrite len_cons in *. lia. } clear Es x s0.
  rewrite slice_str_ascii by (auto; lia). rewrite bind_Ok. apply bind_np; [apply chard_np|]. intros h Hh.
  destruct (len s <? h) eqn:E; try discriminate. rewrite slice_str_ascii by (auto; lia). rewrite bind_Ok.
  apply bind_np; [apply csizage_np|]. intros z Hz. cbv zeta. destruct (len s <? hs z + ss z) eqn:E2; try discriminate.
  rewrite slice_str_ascii by (auto; lia). rewrite bind_Ok. apply bind_np; [apply b64_to_uint_no_panic|]. discriminate.
Qed.

Lemma cbexfil_np b : cbexfil b <> Panic.
Proof.
  unfold cbexfil. destruct b as [|x s0] eqn:Es; try discriminate. rewrite <- Es in *. clear Es x s0.
  destruct (N.ltb_spec (len b) 2) as [L|L].
  { assert (nab_sextets b 2 = Err ETooSmall) as ->. { unfold nab_sextets. change (((2 + 1) * 3) / 4) with 2. now replace (len b <? 2) with true by lia. } discriminate. }
  rewrite nab2 by lia. rewrite bind_Ok.
  destruct (map idx (take 2 (encode b))) as [|x q] eqn:Ex.
  { apply (f_equal (@length N)) in Ex. rewrite map_length in Ex. assert (len (take 2 (encode b)) = 0) as Q by (unfold len; rewrite Ex; reflexivity).
    rewrite len_take, len_encode in Q. lia. }
  destruct (62 <? x); [destruct (x =? 63); discriminate|]. rewrite <- Ex. clear Ex x q.
  apply bind_np; [apply cbard_np|]. intros h Hh. cbv zeta. fold (nbytes h). destruct (len b <? nbytes h) eqn:E1; try discriminate.
  pose proof (cbard_val _ _ Hh) as Hv. rewrite code_b2_to_b64_spec by lia. rewrite bind_Ok.
  apply bind_np; [apply csizage_np|]. intros z Hz. apply csizage_of_inv in Hz. pose proof (clookup_facts _ _ Hz) as F.
  pose proof (cf_sz _ _ F) as S. pose proof (cf_len _ _ F) as L2. fold (nbytes (hs z + ss z)).
  assert (h <= len (encode b)) as LH by (rewrite len_encode; unfold nbytes in *; lia).
  assert (h = hs z) by (rewrite len_take in L2; lia). subst h.
  destruct (len b <? nbytes (hs z + ss z)) eqn:E2; try discriminate. rewrite code_b2_to_b64_spec by lia. rewrite bind_Ok.
  rewrite slice_str_ascii.
  - rewrite bind_Ok. apply bind_np; [apply b64_to_uint_no_panic|]. discriminate.
  - apply ascii_take. apply encode_ascii.
  - lia.
  - rewrite len_take, len_encode. unfold nbytes in *. lia.
Qed.
