(** Truncation, streams, pad bits and construction of Matter. *)
From Coq Require Import NArith ZArith Bool List Lia ZifyBool ZifyNat ZifyN.
From Verif Require Import Base BaseFacts B64 B64Facts Util UtilFacts Tables Matter MatterFacts MatterBin MatterText.
Import ListNotations.
Open Scope N_scope.
Ltac Zify.zify_post_hook ::= Z.div_mod_to_equations.

(** ** Truncation *)
Lemma exfil_truncated m z k : lookup matter_table (m_code m) = Some z -> raw_len_ok m z -> k < mfs m z ->
  exists e, exfil (take k (mtext m z)) = Err e.
Proof.
  intros H W Hk. pose proof (lookup_facts _ _ H) as F. pose proof (pad_le _ _ F) as (P1 & P2 & P3).
  pose proof (raw_total m z H W) as (A & B & C). pose proof (len_mtext m z H W) as Lt.
  pose proof (mtext_ascii m z H W) as Ha. pose proof (len_mboth m z H) as Lb. pose proof (cs_cases _ _ F) as HC.
  destruct (tf_first _ _ F) as (f & r & i & Ec & Hhard & _ & _).
  destruct (N.eq_dec k 0) as [K0|K0]. { subst k. eexists. reflexivity. }
  set (s := take k (mtext m z)).
  assert (len s = k) as Ls by (unfold s; rewrite len_take; lia).
  assert (exists s0, s = f :: s0) as (s0 & Es0).
  { unfold s, mtext, mboth. rewrite Ec. cbn [app]. unfold take. destruct (N.to_nat k) as [|k'] eqn:Ek; [lia|]. cbn [firstn]. eauto. }
  assert (ascii s = true) as Has by now apply ascii_take.
  unfold exfil. rewrite Es0. rewrite Hhard, bind_Ok. rewrite <- Es0. rewrite Ls.
  destruct (N.ltb_spec k (hs z)) as [Q|Q]; [eexists; reflexivity|].
  rewrite slice_str_ascii by (auto; lia). rewrite bind_Ok, drop_0, N.sub_0_r.
  assert (take (hs z) s = m_code m) as ->.
  { unfold s. rewrite take_take. rewrite N.min_l by lia. now apply take_mtext_hs. }
  rewrite (proj2 (sizage_of_ok _ _) H), bind_Ok. cbv zeta. fold (var z) (pad z).
  unfold mfs in *. unfold raw_len_ok in W. destruct (var z) eqn:Ev.
  - rewrite P2 by auto. change (negb (0 =? 0)) with false. cbv iota.
    destruct (N.ltb_spec k (hs z + ss z)) as [Q'|Q']; [eexists; reflexivity|].
    rewrite slice_str_ascii by (auto; lia). rewrite bind_Ok.
    assert (take (hs z + ss z - hs z) (drop (hs z) s) = b64_digits (N.to_nat (ss z)) (m_size m)) as ->.
    { rewrite take_drop_comm. replace (hs z + (hs z + ss z - hs z)) with (hs z + ss z) by lia.
      unfold s. rewrite take_take, N.min_l by lia. rewrite take_mtext_cs by auto.
      unfold mboth. rewrite Ev. apply drop_app_exact. apply (tf_len _ _ F). }
    assert (ss z <= 4) as Hss by (destruct (tf_var _ _ F Ev); lia). destruct W as [W1 W2].
    rewrite (b64_to_u32_exact _ (m_size m)).
    2:{ rewrite b64val_digits, N2Nat.id, N.mod_small; auto. }
    2:{ rewrite len_b64_digits. lia. }
    rewrite bind_Ok.
    assert (m_size m < 16777216) as Hsz.
    { assert (64 ^ ss z <= 64 ^ 4) by (apply N.pow_le_mono_r; lia). change (64 ^ 4) with 16777216 in *. lia. }
    rewrite u32_mul_in by (unfold u32_max; lia). rewrite bind_Ok.
    rewrite u32_add_in by (unfold u32_max; lia). rewrite !bind_Ok. cbv iota beta.
    replace (k <? m_size m * 4 + (hs z + ss z)) with true by lia. eexists. reflexivity.
  - rewrite bind_Ok. cbv iota beta. replace (k <? fs z) with true by lia. eexists. reflexivity.
Qed.

Lemma bexfil_truncated m z k : lookup matter_table (m_code m) = Some z -> raw_len_ok m z -> k < len (mbin m z) ->
  exists e, bexfil (take k (mbin m z)) = Err e.
Proof.
  intros H W Hk. pose proof (lookup_facts _ _ H) as F. pose proof (pad_le _ _ F) as (P1 & P2 & P3).
  pose proof (raw_total m z H W) as (A & B & C). pose proof (len_mbin m z H W) as (Lm & Lc).
  pose proof (len_mboth m z H) as Lb. pose proof (cs_cases _ _ F) as HC. pose proof (tf_hs _ _ F) as Hhs.
  destruct (tf_first _ _ F) as (f & r & i & Ec & _ & Ei & Ebard).
  destruct (N.eq_dec k 0) as [K0|K0]. { subst k. eexists. reflexivity. }
  set (s := take k (mbin m z)).
  assert (len s = k) as Ls by (unfold s; rewrite len_take; lia).
  assert (forall j, 1 <= j -> j <= hs z + ss z -> nbytes j <= k -> take j (encode s) = take j (mtext m z)) as TK.
  { intros j H1 H2 H3. rewrite <- encode_mbin by auto. rewrite <- (take_drop k (mbin m z)) at 1. fold s.
    symmetry. apply encode_head_app; lia. }
  clearbody s. unfold bexfil. destruct s as [|q qs] eqn:Eq. { rewrite len_nilb in Ls. lia. } rewrite <- Eq in *. clear q qs Eq.
  destruct (nab_sextets_spec s 1) as (l & -> & Ml & Fl); [lia|lia|unfold nbytes; lia|]. rewrite bind_Ok.
  rewrite TK in Ml by (unfold nbytes; lia).
  assert (take 1 (mtext m z) = [f]) as Et. { unfold mtext, mboth. rewrite Ec. reflexivity. }
  rewrite Et in Ml. destruct l as [|j [|? ?]]; try discriminate. cbn [map] in Ml. inversion Ml as [Ej].
  assert (j = i) as ->. { apply b64_index_Some in Ei as [Hi <-]. inversion Fl; subst. now apply b64_char_inj. }
  rewrite Ebard, bind_Ok. cbv zeta.
  assert ((hs z * 3 + 3) / 4 = nbytes (hs z)) as -> by (unfold nbytes; lia). rewrite Ls.
  destruct (N.ltb_spec k (nbytes (hs z))) as [Q|Q]; [eexists; reflexivity|].
  rewrite code_b2_to_b64_spec by lia. rewrite bind_Ok, TK, take_mtext_hs by (auto; lia).
  rewrite (proj2 (sizage_of_ok _ _) H), bind_Ok. fold (var z) (pad z) (nbytes (hs z + ss z)).
  unfold mfs in *. unfold raw_len_ok in W. destruct (var z) eqn:Ev.
  - rewrite P2 by auto. change (negb (0 =? 0)) with false. cbv iota.
    destruct (N.ltb_spec k (nbytes (hs z + ss z))) as [Q'|Q']; [eexists; reflexivity|].
    assert (ss z <= 4) as Hss by (destruct (tf_var _ _ F Ev); lia). destruct W as [W1 W2].
    rewrite code_b2_to_b64_spec by lia. rewrite bind_Ok, TK, take_mtext_cs by (auto; lia).
    rewrite slice_str_ascii; [|apply is_b64s_ascii; now apply mboth_b64|lia|lia]. rewrite bind_Ok.
    unfold mboth. rewrite Ev, drop_app_exact by apply (tf_len _ _ F).
    rewrite take_all by (rewrite len_b64_digits; lia).
    rewrite (b64_to_u32_exact _ (m_size m)).
    2:{ rewrite b64val_digits, N2Nat.id, N.mod_small; auto. }
    2:{ rewrite len_b64_digits. lia. }
    rewrite bind_Ok.
    assert (m_size m < 16777216) as Hsz.
    { assert (64 ^ ss z <= 64 ^ 4) by (apply N.pow_le_mono_r; lia). change (64 ^ 4) with 16777216 in *. lia. }
    rewrite u32_mul_in by (unfold u32_max; lia). rewrite bind_Ok.
    rewrite u32_add_in by (unfold u32_max; lia). rewrite !bind_Ok. cbv iota beta.
    replace (k <? (m_size m * 4 + (hs z + ss z) + 1) * 3 / 4) with true by (symmetry; apply N.ltb_lt; lia). eexists. reflexivity.
  - rewrite bind_Ok. cbv iota beta. replace (k <? (fs z + 1) * 3 / 4) with true by (symmetry; apply N.ltb_lt; lia). eexists. reflexivity.
Qed.

(** ** full_size *)
Lemma full_size_wf m z : lookup matter_table (m_code m) = Some z -> raw_len_ok m z -> full_size m = Ok (mfs m z).
Proof.
  intros H W. unfold full_size. rewrite (proj2 (sizage_of_ok _ _) H), bind_Ok. fold (var z). unfold mfs, raw_len_ok in *.
  pose proof (lookup_facts _ _ H) as F. destruct (var z) eqn:Ev; cbn [negb]; auto.
  destruct W as [W1 W2]. assert (ss z <= 4 /\ hs z <= 4) as [Hss Hhs] by (destruct (tf_var _ _ F Ev); lia).
  assert (64 ^ ss z <= 64 ^ 4) by (apply N.pow_le_mono_r; lia). change (64 ^ 4) with 16777216 in *.
  rewrite u32_mul_in by (unfold u32_max; lia). rewrite bind_Ok, u32_add_in by (unfold u32_max; lia). f_equal. lia.
Qed.

(** ** Construction *)
Lemma construct_fixed code z raw : lookup matter_table code = Some z -> var z = false ->
  let n := (fs z - hs z) * 3 / 4 - ls z in
  matter_of_code_raw code raw = if len raw <? n then Err EShortage else Ok (Mt code 0 (take n raw)).
Proof.
  intros H Ev n. pose proof (lookup_facts _ _ H) as F. pose proof (lookup_first _ _ H) as G. unfold first_ok in G.
  destruct (tf_fix _ _ F Ev) as (E1 & E2 & E3 & E4 & E5 & E6).
  unfold matter_of_code_raw. destruct code as [|f r]; try discriminate.
  apply andb_true_iff in G as [G _]. rewrite Ev in G. destruct (is_small_vrz f || is_large_vrz f); try discriminate.
  unfold raw_size. rewrite (proj2 (sizage_of_ok _ _) H), bind_Ok. fold (var z). rewrite Ev, E1, N.add_0_r.
  rewrite u32_sub_in by lia. rewrite bind_Ok. rewrite u32_sub_in by lia. rewrite bind_Ok. rewrite bind_Ok. cbv iota beta. fold n.
  destruct (len raw <? n) eqn:E; auto. rewrite slice_bytes_in by lia. rewrite bind_Ok, drop_0, N.sub_0_r. reflexivity.
Qed.

Lemma construct_unknown code raw m : lookup matter_table code = None ->
  (forall f r, code = f :: r -> is_small_vrz f = false /\ is_large_vrz f = false) ->
  matter_of_code_raw code raw <> Ok m /\ matter_of_code_raw code raw <> Panic.
Proof.
  intros H Hf. unfold matter_of_code_raw. destruct code as [|f r]; [split; discriminate|].
  destruct (Hf f r eq_refl) as [-> ->]. cbn [orb]. unfold raw_size, sizage_of. rewrite H. split; discriminate.
Qed.
