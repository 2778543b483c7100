(** Proofs about the binary form of Matter. *)
From Coq Require Import NArith ZArith Bool List Lia ZifyBool ZifyNat ZifyN.
From Verif Require Import Base BaseFacts B64 B64Facts Util UtilFacts Tables Matter MatterFacts.
Import ListNotations.
Open Scope N_scope.
Ltac Zify.zify_post_hook ::= Z.div_mod_to_equations.

Lemma len_nilb : len (@nil byte) = 0. Proof. reflexivity. Qed.

(** Bytes of the code part, pad bits at the low end. *)
Definition bcode (both : bytes) : bytes :=
  match b64val both with
  | Some v => be_bytes (N.to_nat (nbytes (len both))) (v * 2 ^ (2 * (len both mod 4)))
  | None => []
  end.

Definition mbin (m : matter) (z : sizage) : bytes := bcode (mboth m z) ++ zeros (ls z) ++ m_raw m.

Lemma bcode_val both v : b64val both = Some v -> 1 <= len both -> len both <= 8 ->
  be_val (bcode both) = v * 2 ^ (2 * (len both mod 4)) /\ len (bcode both) = nbytes (len both).
Proof.
  intros H H1 H2. unfold bcode. rewrite H. split.
  - apply be_val_be_bytes. rewrite N2Nat.id, pow_nbytes8 by auto. pose proof (b64val_lt _ _ H).
    assert (2 ^ (2 * (len both mod 4)) <> 0) by (now apply N.pow_nonzero). nia.
  - rewrite len_be_bytes. lia.
Qed.

(** The code bytes followed by [pad + ...] material encode to the code followed by the material. *)
Lemma encode_bcode both rest : is_b64s both = true ->
  (len both = 1 \/ len both = 2 \/ len both = 4 \/ len both = 8) ->
  (len both mod 4 + len rest) mod 3 = 0 ->
  encode (bcode both ++ rest) = both ++ drop (len both mod 4) (encode (zeros (len both mod 4) ++ rest)).
Proof.
  intros Hb HL Hm. destruct (b64val_total both Hb) as (v & Hv).
  destruct (bcode_val both v Hv) as (V & L); [lia|lia|].
  pose proof (b64val_lt _ _ Hv) as Bv.
  destruct HL as [HL|[HL|[HL|HL]]]; rewrite HL in *.
  - change (1 mod 4) with 1 in *. change (nbytes 1) with 1 in L. change (2 ^ (2 * 1)) with 4 in V.
    change (64 ^ 1) with 64 in Bv.
    destruct (bcode both) as [|x [|? ?]]; try (rewrite ?len_cons in L; rewrite ?len_nilb in L; lia).
    rewrite be_val_cons in V. change (be_val []) with 0 in V. change (256 ^ len (@nil byte)) with 1 in V.
    destruct rest as [|b [|c r]]; try (vm_compute in Hm; discriminate).
    change (zeros 1) with [x00]. cbn [app]. rewrite !encode_cons3. unfold enc3. cbn [app].
    change (drop 1 (?a :: ?b)) with b.
    destruct both as [|q [|? ?]]; try (rewrite ?len_cons in HL; rewrite ?len_nilb in HL; lia).
    assert (q = b64_char v) as ->.
    { pose proof (b64_digits_val _ _ Hv) as E. cbn [length b64_digits app] in E. inversion E. f_equal. lia. }
    cbn [app]. byte_bounds. change (b2n x00) with 0.
    unfold drop. cbn [N.to_nat skipn]. change (Pos.to_nat 1) with 1%nat. cbn [skipn].
    apply f_equal2; [f_equal; lia|]. apply f_equal2; [f_equal; lia|reflexivity].
  - change (2 mod 4) with 2 in *. change (nbytes 2) with 2 in L. change (2 ^ (2 * 2)) with 16 in V.
    change (64 ^ 2) with 4096 in Bv.
    destruct (bcode both) as [|x [|y [|? ?]]]; try (rewrite ?len_cons in L; rewrite ?len_nilb in L; lia).
    rewrite !be_val_cons in V. change (be_val []) with 0 in V. change (256 ^ len (@nil byte)) with 1 in V.
    change (256 ^ len [y]) with 256 in V.
    destruct rest as [|b r]; try (vm_compute in Hm; discriminate).
    change (zeros 2) with [x00; x00]. cbn [app]. rewrite !encode_cons3. unfold enc3. cbn [app].
    destruct both as [|q [|q' [|? ?]]]; try (rewrite ?len_cons in HL; rewrite ?len_nilb in HL; lia).
    assert (q = b64_char (v / 64) /\ q' = b64_char (v mod 64)) as [-> ->].
    { pose proof (b64_digits_val _ _ Hv) as E. cbn [length b64_digits app] in E. inversion E. split; f_equal; lia. }
    cbn [app]. byte_bounds. change (b2n x00) with 0.
    unfold drop. change (N.to_nat 2) with 2%nat. cbn [skipn].
    apply f_equal2; [f_equal; lia|]. apply f_equal2; [f_equal; lia|]. apply f_equal2; [f_equal; lia|reflexivity].
  - change (4 mod 4) with 0 in *. change (nbytes 4) with 3 in L. change (2 ^ (2 * 0)) with 1 in V.
    rewrite encode_app by (rewrite L; reflexivity). rewrite encode3_digits, V, N.mul_1_r by auto.
    rewrite drop_0. change (zeros 0) with (@nil byte). cbn [app]. f_equal.
    pose proof (b64_digits_val _ _ Hv) as E. assert (length both = 4%nat) as EL by (unfold len in HL; lia).
    now rewrite EL in E.
  - change (8 mod 4) with 0 in *. change (nbytes 8) with 6 in L. change (2 ^ (2 * 0)) with 1 in V.
    rewrite encode_app by (rewrite L; reflexivity). rewrite encode6_digits, V, N.mul_1_r by auto.
    rewrite drop_0. change (zeros 0) with (@nil byte). cbn [app]. f_equal.
    pose proof (b64_digits_val _ _ Hv) as E. assert (length both = 8%nat) as EL by (unfold len in HL; lia).
    now rewrite EL in E.
Qed.

Lemma zeros_app a b : zeros (a + b) = zeros a ++ zeros b.
Proof. unfold zeros. rewrite N2Nat.inj_add. apply repeat_app. Qed.

Lemma cs_cases c z : table_facts c z ->
  hs z + ss z = 1 \/ hs z + ss z = 2 \/ hs z + ss z = 4 \/ hs z + ss z = 8.
Proof.
  intros F. destruct (var z) eqn:Ev.
  - destruct (tf_var _ _ F Ev); lia.
  - destruct (tf_fix _ _ F Ev) as (E & _). pose proof (tf_hs _ _ F). lia.
Qed.

Lemma encode_mbin m z : lookup matter_table (m_code m) = Some z -> raw_len_ok m z -> encode (mbin m z) = mtext m z.
Proof.
  intros H W. pose proof (lookup_facts _ _ H) as F. pose proof (len_mboth m z H) as Lb.
  pose proof (raw_mod3 m z H W) as D. unfold mbin. rewrite encode_bcode.
  - unfold mtext. rewrite Lb. fold (pad z). now rewrite zeros_app, <- app_assoc.
  - now apply mboth_b64.
  - rewrite Lb. eapply cs_cases; eauto.
  - rewrite Lb, len_app, len_zeros. fold (pad z). rewrite N.add_assoc. exact D.
Qed.

Lemma len_mbin m z : lookup matter_table (m_code m) = Some z -> raw_len_ok m z ->
  4 * len (mbin m z) = 3 * mfs m z /\ len (bcode (mboth m z)) = nbytes (hs z + ss z).
Proof.
  intros H W. pose proof (lookup_facts _ _ H) as F. pose proof (cs_cases _ _ F) as HC.
  pose proof (len_mboth m z H) as Lb. pose proof (raw_total m z H W) as (A & B & C).
  destruct (b64val_total _ (mboth_b64 m z H)) as (v & Hv).
  destruct (bcode_val _ v Hv) as (_ & L); [lia|lia|]. rewrite Lb in L.
  unfold mbin. rewrite !len_app, L, len_zeros. split; auto. unfold pad, nbytes in *. lia.
Qed.

Lemma binfil_wf m z : lookup matter_table (m_code m) = Some z -> raw_len_ok m z -> binfil m = Ok (mbin m z).
Proof.
  intros H W. pose proof (lookup_facts _ _ H) as F. pose proof (cs_cases _ _ F) as HC.
  pose proof (len_mboth m z H) as Lb. pose proof (len_mbin m z H W) as (Lm & Lc).
  pose proof (raw_total m z H W) as (A & B & C). pose proof (pad_le _ _ F) as (P1 & P2 & P3).
  destruct (b64val_total _ (mboth_b64 m z H)) as (v & Hv).
  pose proof (b64val_lt _ _ Hv) as Bv. rewrite Lb in Bv.
  unfold binfil. rewrite (proj2 (sizage_of_ok _ _) H), bind_Ok. cbv zeta. fold (var z) (pad z) (nbytes (hs z + ss z)).
  match goal with |- bind ?t _ = _ => assert (t = Ok (mfs m z, mboth m z)) as -> end.
  { unfold mfs, mboth. pose proof W as W'. unfold raw_len_ok in W'. destruct (var z) eqn:Ev.
    - rewrite P2 by auto. change (negb (0 =? 0)) with false. cbv iota.
      assert (ss z <= 4) as Hss by (destruct (tf_var _ _ F Ev); lia). destruct W' as [W1 W2].
      rewrite pow64_small by lia. rewrite bind_Ok.
      replace (64 ^ ss z - 1 <? m_size m) with false by lia. rewrite uint_to_b64_exact by lia. do 2 f_equal. lia.
    - now rewrite app_nil_r. }
  rewrite bind_Ok. cbv iota beta. rewrite Lb, N.eqb_refl. cbn [negb].
  match goal with |- bind ?t _ = _ =>
    assert (exists W8, t = Ok (be_bytes W8 (v * 2 ^ (2 * pad z))) /\ (N.to_nat (nbytes (hs z + ss z)) <= W8)%nat) as (W8 & -> & HW8)
  end.
  { assert (v * 2 ^ (2 * pad z) < 256 ^ nbytes (hs z + ss z)) as HV.
    { rewrite pow_nbytes8 by lia. fold (pad z). assert (2 ^ (2 * pad z) <> 0) by (now apply N.pow_nonzero). nia. }
    destruct (nbytes (hs z + ss z) <=? 3) eqn:E3.
    - exists 4%nat. rewrite (b64_to_u32_exact _ _ Hv) by (rewrite Lb; unfold nbytes in E3; lia).
      rewrite bind_Ok. split; [|lia]. rewrite N.mod_small; auto.
      assert (256 ^ nbytes (hs z + ss z) <= 256 ^ 3) as Q by (apply N.pow_le_mono_r; lia).
      change (256 ^ 3) with 16777216 in Q. lia.
    - exists 8%nat. assert (nbytes (hs z + ss z) <= 6) by (unfold nbytes; lia).
      replace (nbytes (hs z + ss z) <=? 6) with true by lia.
      rewrite (b64_to_u64_exact _ _ Hv) by (rewrite Lb; lia).
      rewrite bind_Ok. split; [|lia]. rewrite N.mod_small; auto.
      assert (256 ^ nbytes (hs z + ss z) <= 256 ^ 6) as Q by (apply N.pow_le_mono_r; lia).
      change (256 ^ 6) with 281474976710656 in Q. lia. }
  rewrite bind_Ok. rewrite len_be_bytes.
  rewrite from_bytes_in by (rewrite len_be_bytes; lia). rewrite bind_Ok.
  assert (drop (N.of_nat W8 - nbytes (hs z + ss z)) (be_bytes W8 (v * 2 ^ (2 * pad z))) = bcode (mboth m z)) as ->.
  { unfold bcode. rewrite Hv, Lb. fold (pad z).
    replace (N.of_nat W8 - nbytes (hs z + ss z)) with (N.of_nat (W8 - N.to_nat (nbytes (hs z + ss z)))) by lia.
    replace W8 with ((W8 - N.to_nat (nbytes (hs z + ss z))) + N.to_nat (nbytes (hs z + ss z)))%nat at 2 by lia.
    apply drop_be_bytes. }
  fold (mbin m z).
  replace (len (mbin m z) mod 3) with 0 by lia. replace (len (mbin m z) * 4 / 3) with (mfs m z) by lia.
  rewrite !N.eqb_refl. reflexivity.
Qed.

(** Leading sextets of the binary form followed by anything. *)
Lemma mbin_head m z rest k : lookup matter_table (m_code m) = Some z -> raw_len_ok m z ->
  1 <= k -> k <= hs z + ss z -> nbytes k <= len (mbin m z) /\ take k (encode (mbin m z ++ rest)) = take k (mtext m z).
Proof.
  intros H W H1 H2. pose proof (lookup_facts _ _ H) as F. pose proof (cs_cases _ _ F) as HC.
  pose proof (len_mbin m z H W) as (Lm & Lc). pose proof (raw_total m z H W) as (A & B & C).
  assert (nbytes k <= len (mbin m z)) as Hk by (unfold nbytes; lia). split; auto.
  rewrite encode_head_app by lia. now rewrite encode_mbin.
Qed.

Lemma take_mtext_hs m z : lookup matter_table (m_code m) = Some z -> take (hs z) (mtext m z) = m_code m.
Proof.
  intros H. pose proof (lookup_facts _ _ H) as F. unfold mtext, mboth. rewrite <- !app_assoc.
  apply take_app_exact. apply (tf_len _ _ F).
Qed.
Lemma take_mtext_cs m z : lookup matter_table (m_code m) = Some z -> take (hs z + ss z) (mtext m z) = mboth m z.
Proof. intros H. unfold mtext. apply take_app_exact. now apply len_mboth. Qed.

Lemma forallb_zeros n : forallb (fun b => Byte.eqb b x00) (zeros n) = true.
Proof. unfold zeros. induction (N.to_nat n) as [|k IH]; auto. Qed.

Lemma forallb_zeros_inv l : forallb (fun b => Byte.eqb b x00) l = true -> l = zeros (len l).
Proof.
  induction l as [|b l IH]; intros H; auto. cbn [forallb] in H. apply andb_true_iff in H as [H1 H2].
  apply byte_eqb_eq in H1. subst b. rewrite IH by auto. rewrite len_cons, len_zeros. rewrite zeros_app. reflexivity.
Qed.

Lemma nth_last_be_bytes n v r : (0 < n)%nat ->
  nth_error (be_bytes n v ++ r) (n - 1) = Some (n2b (v mod 256)).
Proof.
  destruct n as [|n]; [lia|]. intros _. cbn [be_bytes]. rewrite <- app_assoc.
  assert (length (be_bytes n (v / 256)) = n) as L by (pose proof (len_be_bytes n (v / 256)) as E; unfold len in E; lia).
  rewrite nth_error_app2; rewrite L; [|lia]. replace (S n - 1 - n)%nat with 0%nat by lia. reflexivity.
Qed.

Lemma bexfil_mbin m z rest : lookup matter_table (m_code m) = Some z -> raw_len_ok m z ->
  bexfil (mbin m z ++ rest) = Ok m.
Proof.
  intros H W. pose proof (lookup_facts _ _ H) as F. pose proof (cs_cases _ _ F) as HC.
  pose proof (len_mbin m z H W) as (Lm & Lc). pose proof (raw_total m z H W) as (A & B & C).
  pose proof (pad_le _ _ F) as (P1 & P2 & P3). pose proof (tf_hs _ _ F) as Hhs. pose proof (len_mboth m z H) as Lb.
  destruct (tf_first _ _ F) as (f & r & i & Ec & _ & Ei & Ebard).
  assert (len (mbin m z ++ rest) = len (mbin m z) + len rest) as LL by apply len_app.
  unfold bexfil. destruct (mbin m z ++ rest) as [|q qs] eqn:Eq.
  { rewrite len_nilb in LL. unfold pad, nbytes in *. lia. }
  rewrite <- Eq in *. clear q qs Eq.
  destruct (mbin_head m z rest 1 H W) as (N1 & T1); [lia|lia|].
  destruct (nab_sextets_spec (mbin m z ++ rest) 1) as (l & -> & Ml & Fl); [lia|lia|lia|].
  rewrite bind_Ok. rewrite T1 in Ml.
  assert (take 1 (mtext m z) = [f]) as Et. { unfold mtext, mboth. rewrite Ec. reflexivity. }
  rewrite Et in Ml. destruct l as [|j [|? ?]]; try discriminate. cbn [map] in Ml. inversion Ml as [Ej].
  assert (j = i) as ->.
  { apply b64_index_Some in Ei as [Hi <-]. inversion Fl; subst. now apply b64_char_inj. }
  rewrite Ebard, bind_Ok. cbv zeta.
  destruct (mbin_head m z rest (hs z) H W) as (Nh & Th); [lia|lia|].
  assert ((hs z * 3 + 3) / 4 = nbytes (hs z)) as -> by (unfold nbytes; lia).
  replace (len (mbin m z ++ rest) <? nbytes (hs z)) with false by lia.
  rewrite code_b2_to_b64_spec by lia. rewrite bind_Ok, Th, take_mtext_hs by auto.
  rewrite (proj2 (sizage_of_ok _ _) H), bind_Ok. fold (var z) (pad z) (nbytes (hs z + ss z)).
  assert (Nc : nbytes (hs z + ss z) <= len (mbin m z)).
  { destruct (mbin_head m z rest (hs z + ss z) H W); lia. }
  match goal with |- bind ?t _ = _ => assert (t = Ok (mfs m z, m_size m)) as -> end.
  { unfold mfs. pose proof W as W'. unfold raw_len_ok in W'. destruct (var z) eqn:Ev.
    - rewrite P2 by auto. change (negb (0 =? 0)) with false. cbv iota. destruct W' as [W1 W2].
      replace (len (mbin m z ++ rest) <? nbytes (hs z + ss z)) with false by lia.
      assert (ss z <= 4) as Hss by (destruct (tf_var _ _ F Ev); lia).
      destruct (mbin_head m z rest (hs z + ss z) H W) as (_ & Tc); [lia|lia|].
      rewrite code_b2_to_b64_spec by lia. rewrite bind_Ok, Tc, take_mtext_cs by auto.
      rewrite slice_str_ascii; [|apply is_b64s_ascii; now apply mboth_b64|lia|lia]. rewrite bind_Ok.
      unfold mboth. rewrite Ev, drop_app_exact by apply (tf_len _ _ F).
      rewrite take_all by (rewrite len_b64_digits; lia).
      rewrite (b64_to_u32_exact _ (m_size m)).
      2:{ rewrite b64val_digits, N2Nat.id, N.mod_small; auto. }
      2:{ rewrite len_b64_digits. lia. }
      rewrite bind_Ok.
      assert (m_size m < 16777216) as Hsz.
      { assert (64 ^ ss z <= 64 ^ 4) by (apply N.pow_le_mono_r; lia). change (64 ^ 4) with 16777216 in *. lia. }
      rewrite u32_mul_in by (unfold u32_max; lia). rewrite bind_Ok.
      rewrite u32_add_in by (unfold u32_max; lia). rewrite !bind_Ok. do 2 f_equal. lia.
    - now destruct W' as [-> _]. }
  rewrite bind_Ok. cbv iota beta zeta.
  assert ((mfs m z + 1) * 3 / 4 = len (mbin m z)) as -> by lia.
  replace (len (mbin m z ++ rest) <? len (mbin m z)) with false by lia.
  rewrite slice_bytes_in by lia. rewrite bind_Ok, drop_0, N.sub_0_r, take_app_exact by auto.
  destruct (b64val_total _ (mboth_b64 m z H)) as (v & Hv).
  match goal with |- bind ?t _ = _ => assert (t = Ok tt) as -> end.
  { destruct (pad z =? 0) eqn:Ep; cbn [negb].
    - unfold mbin. rewrite take_app_ge by lia. rewrite Lc.
      replace (nbytes (hs z + ss z) + ls z - nbytes (hs z + ss z)) with (ls z) by lia.
      rewrite drop_app_exact by auto. rewrite take_app_exact by apply len_zeros. now rewrite forallb_zeros.
    - unfold mbin, bcode. rewrite Hv, Lb. fold (pad z).
      replace (N.to_nat (nbytes (hs z + ss z) - 1)) with (N.to_nat (nbytes (hs z + ss z)) - 1)%nat by lia.
      rewrite nth_last_be_bytes by (unfold nbytes; lia).
      assert (pad z = 1 \/ pad z = 2) as Hp by lia.
      rewrite b2n_n2b by lia.
      destruct Hp as [Hp|Hp]; rewrite Hp.
      + change (2 ^ (2 * 1)) with 4. replace ((v * 4) mod 256 mod 4 =? 0) with true by lia. reflexivity.
      + change (2 ^ (2 * 2)) with 16. replace ((v * 16) mod 256 mod 16 =? 0) with true by lia. reflexivity. }
  rewrite bind_Ok. rewrite from_bytes_in.
  - unfold mbin. rewrite app_assoc. rewrite drop_app_exact by (rewrite len_app, len_zeros; lia).
    rewrite bind_Ok. now destruct m.
  - unfold mbin. rewrite !len_app, len_zeros. lia.
Qed.

(** ** Inversion of the binary parser *)
Lemma sizage_hs_code c z : lookup matter_table c = Some z -> forall h, len c = h -> h = hs z.
Proof. intros H h <-. apply (tf_len _ _ (lookup_facts _ _ H)). Qed.

Lemma nth_last_take (l : bytes) n b : nth_error l (N.to_nat (n - 1)) = Some b -> 0 < n ->
  take n l = take (n - 1) l ++ [b].
Proof.
  intros H Hn. unfold take. replace (N.to_nat n) with (S (N.to_nat (n - 1))) by lia.
  generalize dependent (N.to_nat (n - 1)). clear. intros k. revert l; induction k as [|k IH]; intros [|x l] H; simpl in *; try discriminate.
  - now inversion H.
  - f_equal. now apply IH.
Qed.

Lemma bexfil_inv b m : bexfil b = Ok m ->
  exists z, lookup matter_table (m_code m) = Some z /\ raw_len_ok m z /\ exists rest, b = mbin m z ++ rest.
Proof.
  intros H. unfold bexfil in H. destruct b as [|b0 bs] eqn:Eb0; try discriminate. rewrite <- Eb0 in *.
  assert (1 <= len b) as Lb1 by (rewrite Eb0, len_cons; lia). clear Eb0 b0 bs.
  apply bind_ok in H as (sx & Hsx & H). apply bind_ok in H as (h & Hh & H). cbv zeta in H.
  destruct (len b <? (h * 3 + 3) / 4) eqn:Ehl; try discriminate.
  apply bind_ok in H as (hard & Hhard & H). apply bind_ok in H as (z & Hz & H).
  apply sizage_of_ok in Hz. pose proof (lookup_facts _ _ Hz) as F. pose proof (cs_cases _ _ F) as HC.
  pose proof (pad_le _ _ F) as (P1 & P2 & P3). pose proof (tf_ls _ _ F) as Hl.
  fold (var z) (pad z) (nbytes (hs z + ss z)) in H.
  (* h = hs z *)
  assert (h = 1 \/ h = 2 \/ h = 4) as Hh3.
  { destruct sx as [|first ?]; try discriminate. unfold bardage in Hh.
    destruct (first <=? 51); [inversion Hh; auto|]. destruct (_ || _); [inversion Hh; auto|].
    destruct (_ || _); [inversion Hh; auto|]. destruct (_ =? 62); try discriminate. destruct (_ =? 63); discriminate. }
  assert ((h * 3 + 3) / 4 = nbytes h) as Enh by (unfold nbytes; lia). rewrite Enh in *.
  rewrite code_b2_to_b64_spec in Hhard by lia. inversion Hhard as [Ehard]. clear Hhard.
  assert (h <= len (encode b)) as Lenc by (rewrite len_encode; unfold nbytes in *; lia).
  assert (h = hs z) as Eh. { eapply sizage_hs_code; eauto. rewrite <- Ehard, len_take. lia. }
  subst h. apply bind_ok in H as ((fs' & size) & Hfs & H).
  destruct (len b <? (fs' + 1) * 3 / 4) eqn:Elen; try discriminate.
  apply bind_ok in H as (trim & Htrim & H). apply slice_bytes_ok in Htrim as (_ & Lt & ->).
  rewrite drop_0, N.sub_0_r in *. apply bind_ok in H as (u & Hchk & H). apply bind_ok in H as (raw & Hraw & H).
  inversion H; subst m; clear H. cbn [m_code m_size m_raw].
  exists z. split; auto. set (m := Mt hard size raw).
  apply from_bytes_ok in Hraw as (Lraw & Eraw). rewrite len_take, N.min_l in Lraw by lia.
  assert (0 < hs z + ss z) as Hcs by lia.
  (* sizes *)
  assert (raw_len_ok m z /\ fs' = mfs m z /\ take (hs z + ss z) (encode b) = mboth m z) as (W & Efs & Eboth).
  { unfold raw_len_ok, mfs, mboth. cbn [m_code m_size m_raw m].
    rewrite Eraw. rewrite len_drop, len_take, N.min_l by lia.
    destruct (var z) eqn:Ev.
    - specialize (P2 eq_refl). rewrite P2 in Hfs. change (negb (0 =? 0)) with false in Hfs. cbv iota in Hfs.
      destruct (len b <? nbytes (hs z + ss z)) eqn:Ec; try discriminate.
      rewrite code_b2_to_b64_spec in Hfs by lia. rewrite bind_Ok in Hfs.
      assert (len (take (hs z + ss z) (encode b)) = hs z + ss z) as Lboth.
      { rewrite len_take, len_encode. unfold nbytes in Ec. lia. }
      set (both := take (hs z + ss z) (encode b)) in *.
      assert (ascii both = true) as Ha by (apply ascii_take, encode_ascii).
      rewrite slice_str_ascii in Hfs by (auto; lia). rewrite bind_Ok in Hfs.
      replace (hs z + ss z - hs z) with (ss z) in Hfs by lia.
      assert (ss z <= 4) as Hss by (destruct (tf_var _ _ F Ev); lia).
      apply bind_ok in Hfs as (sz & Hsz & Hfs). apply bind_ok in Hfs as (q & Hq & Hfs).
      apply bind_ok in Hfs as (f & Hf & Hfs). inversion Hfs; subst f sz; clear Hfs.
      unfold u32_mul in Hq. destruct (size * 4 <=? u32_max); try discriminate. inversion Hq; subst q.
      unfold u32_add in Hf. destruct (_ <=? u32_max); try discriminate. inversion Hf; subst fs'. clear Hf Hq.
      rewrite take_all in Hsz by (rewrite len_drop; lia).
      assert (len (drop (hs z) both) = ss z) as Lsoft by (rewrite len_drop; lia).
      apply b64_to_u32_inv in Hsz; [|lia]. pose proof (b64val_lt _ _ Hsz) as Bsz. rewrite Lsoft in Bsz.
      split; [split; [auto|]|split].
      + unfold nbytes in *. unfold pad in P2. lia.
      + lia.
      + rewrite <- (take_drop (hs z) both). f_equal.
        * rewrite <- Ehard. unfold both. rewrite take_take. f_equal. lia.
        * apply b64_digits_val in Hsz. rewrite <- Hsz. f_equal. unfold len in Lsoft. lia.
    - destruct (tf_fix _ _ F Ev) as (E1 & E2 & E3 & E4 & E5 & E6). inversion Hfs; subst fs' size; clear Hfs.
      rewrite E1, N.add_0_r in *. split; [split; auto|split; auto].
      + unfold nbytes, pad in *. rewrite E1 in *. lia.
      + now rewrite Ehard, app_nil_r. }
  split; auto. exists (drop ((fs' + 1) * 3 / 4) b).
  rewrite <- (take_drop ((fs' + 1) * 3 / 4) b) at 1. f_equal.
  set (trim := take ((fs' + 1) * 3 / 4) b) in *.
  pose proof (len_mbin m z Hz W) as (Lm & Lc). pose proof (raw_total m z Hz W) as (A & B & C).
  assert (len trim = (fs' + 1) * 3 / 4) as Ltrim by (unfold trim; rewrite len_take; lia).
  assert (nbytes (hs z + ss z) <= len trim) as Nc by lia.
  rewrite <- (take_drop (nbytes (hs z + ss z)) trim). unfold mbin.
  assert (take (hs z + ss z) (encode trim) = mboth m z) as Eboth'.
  { rewrite <- Eboth. rewrite <- (take_drop ((fs' + 1) * 3 / 4) b) at 1. fold trim. symmetry. apply encode_head_app; lia. }
  rewrite encode_head in Eboth' by lia. fold (pad z) in Eboth'.
  set (X := be_val (take (nbytes (hs z + ss z)) trim)) in *.
  assert (len (take (nbytes (hs z + ss z)) trim) = nbytes (hs z + ss z)) as LX by (rewrite len_take; lia).
  assert (X < 256 ^ nbytes (hs z + ss z)) as BX by (rewrite <- LX; apply be_val_lt).
  rewrite pow_nbytes8 in BX by lia. fold (pad z) in BX.
  assert (2 ^ (2 * pad z) <> 0) as PN by (now apply N.pow_nonzero).
  assert (b64val (mboth m z) = Some (X / 2 ^ (2 * pad z))) as Vb.
  { rewrite <- Eboth', b64val_digits, N2Nat.id. f_equal. apply N.mod_small. apply N.div_lt_upper_bound; lia. }
  assert (len (mboth m z) = hs z + ss z) as Lboth by (now apply len_mboth).
  f_equal.
  - (* code bytes *)
    assert (X mod 2 ^ (2 * pad z) = 0) as XM.
    { destruct (pad z =? 0) eqn:Ep; cbn [negb] in Hchk.
      - assert (pad z = 0) as -> by lia. change (2 ^ (2 * 0)) with 1. apply N.mod_1_r.
      - destruct (nth_error trim (N.to_nat (nbytes (hs z + ss z) - 1))) as [p|] eqn:En; try discriminate.
        destruct (b2n p mod 2 ^ (2 * pad z) =? 0) eqn:Ez; try discriminate.
        apply nth_last_take in En; [|unfold nbytes; lia].
        unfold X. rewrite En, be_val_app. change (len [p]) with 1. change (256 ^ 1) with 256.
        rewrite be_val_cons. change (be_val []) with 0. change (256 ^ len (@nil byte)) with 1.
        assert (pad z = 1 \/ pad z = 2) as [Hp|Hp] by lia; rewrite Hp in *.
        + change (2 ^ (2 * 1)) with 4 in *. lia.
        + change (2 ^ (2 * 2)) with 16 in *. lia. }
    apply be_val_inj.
    + rewrite LX. symmetry. exact Lc.
    + destruct (bcode_val _ _ Vb) as (-> & _); [lia|lia|]. rewrite Lboth. fold (pad z). fold X.
      rewrite (N.div_mod X (2 ^ (2 * pad z))) at 1 by auto. lia.
  - (* lead and raw *)
    replace (m_raw m) with raw by reflexivity. rewrite Eraw.
    rewrite <- (take_drop (ls z) (drop (nbytes (hs z + ss z)) trim)). rewrite drop_drop. f_equal.
    destruct (pad z =? 0) eqn:Ep; cbn [negb] in Hchk.
    + rewrite take_drop_comm. destruct (forallb _ _) eqn:Ef in Hchk; [|destruct (ls z =? 1); discriminate].
      apply forallb_zeros_inv in Ef. rewrite Ef. f_equal. rewrite len_drop, len_take. lia.
    + assert (ls z = 0) as -> by (destruct (ls z); auto; lia). reflexivity.
Qed.
