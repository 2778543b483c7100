(** Proofs of C98: primitives in arbitrary states. *)
From Coq Require Import String.
From Coq Require Import NArith ZArith Bool List Lia ZifyBool ZifyNat ZifyN.
From Verif Require Import Base BaseFacts B64 B64Facts Util UtilFacts Tables Matter MatterFacts MatterBin MatterText MatterMore.
From Verif Require Import Spec MatterThms Indexer IndexerFacts IndexerMore SpecIndexer IndexerThms Prims State SpecState.
Import ListNotations.
Open Scope N_scope.
Ltac Zify.zify_post_hook ::= Z.div_mod_to_equations.

(** The code table in the vocabulary of the statements. *)
Definition state_ok (e : bytes * sizage) : bool :=
  let '(c, z) := e in
  if var z then
    (existsb (beq c) small_codes || existsb (beq c) large_codes) && existsb (beq c) (small_codes ++ large_codes)
    && (lead c =? ls z) && (size_limit c =? 64 ^ ss z) && (header c =? hs z + ss z)
    && negb (existsb (fun p => beq c (fst p)) fixed_codes)
  else
    existsb (fun p => beq c (fst p) && (snd p =? (fs z - hs z) * 3 / 4 - ls z)) fixed_codes
    && negb (existsb (beq c) (small_codes ++ large_codes)).
Lemma state_table : forallb state_ok matter_table = true.
Proof. vm_compute. reflexivity. Qed.
Lemma exists_code c l : existsb (beq c) l = true <-> In c l.
Proof.
  rewrite existsb_exists. split.
  - intros (x & H & E). apply beq_eq in E. now subst.
  - intros H. exists c. split; auto. apply beq_refl.
Qed.
Lemma state_lookup c z : lookup matter_table c = Some z ->
  (var z = true /\ variable c /\ lead c = ls z /\ size_limit c = 64 ^ ss z /\ header c = hs z + ss z
   /\ (forall n, ~ In (c, n) fixed_codes) /\ forall s, seen_size c s = s)
  \/ (var z = false /\ In (c, (fs z - hs z) * 3 / 4 - ls z) fixed_codes /\ ~ variable c /\ forall s, seen_size c s = 0).
Proof.
  intros H. apply lookup_In in H. pose proof state_table as T. rewrite forallb_forall in T. apply T in H.
  unfold state_ok in H. destruct (var z).
  - left. rewrite !andb_true_iff in H. destruct H as (((((H1 & H2) & H3) & H4) & H5) & H6).
    split; auto. split. { apply orb_true_iff in H1. destruct H1 as [H1|H1]; apply exists_code in H1; [left|right]; auto. }
    split; [lia|]. split; [lia|]. split; [lia|]. split.
    + intros n Hin. apply negb_true_iff in H6. assert (existsb (fun p => beq c (fst p)) fixed_codes = true) as X; [|congruence].
      apply existsb_exists. exists (c, n). split; auto. apply beq_refl.
    + intros s. unfold seen_size. now rewrite H2.
  - right. apply andb_true_iff in H as [H1 H2]. apply negb_true_iff in H2. split; auto. split; [|split].
    + apply existsb_exists in H1 as ((c' & n) & Hin & E). apply andb_true_iff in E as [E1 E2]. cbn [fst snd] in *.
      apply beq_eq in E1. subst c'. replace ((fs z - hs z) * 3 / 4 - ls z) with n by lia. auto.
    + intros Hv. assert (existsb (beq c) (small_codes ++ large_codes) = true) as X; [|congruence].
      apply exists_code, in_or_app. exact Hv.
    + intros s. unfold seen_size. now rewrite H2.
Qed.
Lemma var_known c : variable c -> exists z, lookup matter_table c = Some z /\ var z = true.
Proof.
  intros H. assert (In c matter_codes) as K.
  { unfold matter_codes. apply in_or_app. right. apply in_or_app. exact H. }
  apply code_known in K as (z & Hz). exists z. split; auto.
  destruct (state_lookup _ _ Hz) as [(E & _)|(_ & _ & N & _)]; [exact E|now elim N].
Qed.
Lemma fixed_once c n n' : In (c, n) fixed_codes -> In (c, n') fixed_codes -> n = n'.
Proof.
  intros H H'. apply fixed_known in H as (z & Hz & _ & <-). apply fixed_known in H' as (z' & Hz' & _ & <-). congruence.
Qed.
Lemma announces_val c z size n : lookup matter_table c = Some z -> announces c size n ->
  (var z = true /\ ls z + n = 3 * size) \/ (var z = false /\ n = (fs z - hs z) * 3 / 4 - ls z).
Proof.
  intros H A. destruct (state_lookup c z H) as [(V & _ & L & _ & _ & NF & _)|(V & F & NV & _)].
  - left. split; auto. destruct A as [A|(_ & A)]; [now apply NF in A|]. lia.
  - right. split; auto. destruct A as [A|(A & _)]; [|now elim NV]. eapply fixed_once; eauto.
Qed.

(** ** The text of an arbitrary state *)
Lemma infil_cases m z : lookup matter_table (m_code m) = Some z ->
  (exists e, infil m = Err e) \/ (infil m = Panic /\ var z = false /\ (3 - len (m_raw m) mod 3) mod 3 < ls z) \/
  (infil m = Ok (mtext m z) /\ (pad z + ls z + len (m_raw m)) mod 3 = 0 /\ (var z = true -> m_size m < 64 ^ ss z)).
Proof.
  intros H. pose proof (lookup_facts _ _ H) as F. pose proof (pad_le _ _ F) as (P1 & P2 & P3).
  pose proof (tf_ls _ _ F) as Hl.
  unfold infil. rewrite (proj2 (sizage_of_ok _ _) H), bind_Ok. cbv zeta. fold (var z).
  destruct (var z) eqn:Ev.
  - specialize (P2 eq_refl). fold (pad z). rewrite P2. change (negb (0 =? 0)) with false. cbv iota.
    assert (ss z <= 4) as Hss by (destruct (tf_var _ _ F Ev); lia).
    rewrite pow64_small by lia. rewrite bind_Ok.
    destruct (N.ltb_spec (64 ^ ss z - 1) (m_size m)) as [Q|Q]; [left; eauto|].
    assert (64 ^ ss z <> 0) by (now apply N.pow_nonzero).
    rewrite uint_to_b64_exact by lia.
    assert (m_code m ++ b64_digits (N.to_nat (ss z)) (m_size m) = mboth m z) as Eb by (unfold mboth; now rewrite Ev).
    rewrite Eb, len_mboth by auto. fold (pad z). rewrite P2.
    destruct (((ls z <=? (3 - len (m_raw m) mod 3) mod 3) && negb (0 =? (3 - len (m_raw m) mod 3) mod 3 - ls z))
      || (((3 - len (m_raw m) mod 3) mod 3 <? ls z) && negb (0 =? ls z - (3 - len (m_raw m) mod 3) mod 3))) eqn:Q2; [left; eauto|].
    right. right. rewrite len_app, len_zeros. assert ((ls z + len (m_raw m)) mod 3 = 0) as D by lia.
    rewrite D. change (negb (0 =? 0)) with false. cbv iota. split; [|split; [lia|intros; lia]].
    unfold mtext. rewrite P2, drop_0, N.add_0_l. reflexivity.
  - destruct (tf_fix _ _ F Ev) as (E1 & E2 & E3 & E4 & E5 & E6).
    assert (len (m_code m) mod 4 = pad z) as -> by (unfold pad; rewrite (tf_len _ _ F), E1; lia).
    destruct (N.lt_ge_cases ((3 - len (m_raw m) mod 3) mod 3) (ls z)) as [Q|Q].
    { right. left. split; auto. unfold u32_sub. replace (ls z <=? (3 - len (m_raw m) mod 3) mod 3) with false by lia. reflexivity. }
    rewrite u32_sub_in by lia. rewrite bind_Ok.
    destruct (N.eqb_spec (pad z) ((3 - len (m_raw m) mod 3) mod 3 - ls z)) as [Q2|Q2]; [|left; cbn [negb]; eauto].
    assert ((3 - len (m_raw m) mod 3) mod 3 = pad z + ls z) as -> by lia. cbn [negb].
    rewrite len_app, len_zeros. assert ((pad z + ls z + len (m_raw m)) mod 3 = 0) as D by lia.
    rewrite D. change (negb (0 =? 0)) with false. cbv iota.
    rewrite from_str_encode.
    + rewrite bind_Ok. right. right. split; [|split; auto; discriminate]. unfold mtext, mboth. rewrite Ev, app_nil_r. reflexivity.
    + rewrite len_encode, len_app, len_zeros. lia.
Qed.
Lemma infil_unknown m : lookup matter_table (m_code m) = None -> exists e, infil m = Err e.
Proof. intros H. unfold infil, sizage_of. rewrite H. eexists. reflexivity. Qed.

(** Text of a longer raw starts with the text of the shorter. *)
Lemma mtext_longer c s s' z a b : lookup matter_table c = Some z -> (var z = true -> s = s') ->
  (pad z + ls z + len a) mod 3 = 0 ->
  mtext (Mt c s (a ++ b)) z = mtext (Mt c s' a) z ++ encode b.
Proof.
  intros H E D. pose proof (lookup_facts _ _ H) as F. pose proof (pad_le _ _ F) as (P1 & P2 & P3).
  unfold mtext, mboth. cbn [m_code m_size m_raw].
  replace (if var z then b64_digits (N.to_nat (ss z)) s else []) with (if var z then b64_digits (N.to_nat (ss z)) s' else [])
    by (destruct (var z); auto; now rewrite E).
  rewrite app_assoc, encode_app by (rewrite len_app, len_zeros; exact D).
  rewrite drop_app_le; [now rewrite !app_assoc|].
  rewrite len_encode, len_app, len_zeros. lia.
Qed.

(** The announced raw taken from (or missing in) the actual raw. *)
Lemma wf_announced c z s n : lookup matter_table c = Some z -> announces c s n -> (var z = true -> s < 64 ^ ss z) ->
  forall raw, len raw = n -> raw_len_ok (Mt c (seen_size c s) raw) z.
Proof.
  intros H A Hs raw L. unfold raw_len_ok. cbn [m_size m_raw]. destruct (announces_val c z s n H A) as [(V & E)|(V & E)].
  - destruct (state_lookup c z H) as [(_ & _ & _ & _ & _ & _ & S)|(V' & _)]; [|congruence]. rewrite V, S, L. auto.
  - destruct (state_lookup c z H) as [(V' & _)|(_ & _ & _ & S)]; [congruence|]. rewrite V, S, L. auto.
Qed.
Lemma announced_aligned c z s n : lookup matter_table c = Some z -> announces c s n -> (pad z + ls z + n) mod 3 = 0.
Proof.
  intros H A. pose proof (lookup_facts _ _ H) as F. pose proof (pad_le _ _ F) as (P1 & P2 & P3).
  destruct (announces_val c z s n H A) as [(V & E)|(V & E)].
  - rewrite P2 by auto. lia.
  - destruct (tf_fix _ _ F V) as (E1 & E2 & E3 & E4 & E5 & E6). pose proof (tf_hs _ _ F). unfold pad. rewrite E1. lia.
Qed.
Lemma seen_same c z s : lookup matter_table c = Some z -> var z = true -> s = seen_size c s.
Proof. intros H V. destruct (state_lookup c z H) as [(_ & _ & _ & _ & _ & _ & S)|(V' & _)]; congruence. Qed.

(*# C98_text_read_back
   Take any primitive in any state (code, size and raw set to anything) whose text prints, and let n be the number of raw bytes its code
   (and size field) announce. If the raw has at least n bytes, the printed text reads back as the code, the size and the first n bytes of
   the raw: further bytes are silently lost. If it has fewer, reading the printed text is an error.
##
Example C98_text_case : exists t, infil (set_raw (zeros 35) verfer_default) = Ok t /\ announces (s! "D") 0 32 /\
  exfil t = Ok (Mt (s! "D") 0 (zeros 32)).
Proof. eexists. split; [vm_compute; reflexivity|]. split; [left; vm_compute; tauto|]. vm_compute. reflexivity. Qed.
Example C98_text_short_case : exists t, infil (Mt (s! "4B") 2 (s! "abc")) = Ok t /\ announces (s! "4B") 2 6 /\ exfil t = Err EShortage.
Proof. eexists. split; [vm_compute; reflexivity|]. split; [right; split; [left; vm_compute; tauto|reflexivity]|]. vm_compute. reflexivity. Qed.
#*)
Lemma C98_text_l (code : bytes) (size n : N) (raw t : bytes) : announces code size n ->
  infil (Mt code size raw) = Ok t ->
  (n <= len raw -> exfil t = Ok (Mt code (seen_size code size) (take n raw))) /\
  (len raw < n -> exists e, exfil t = Err e).
Proof.
  intros A H. destruct (lookup matter_table code) as [z|] eqn:Hz.
  2:{ destruct (infil_unknown (Mt code size raw) Hz). congruence. }
  destruct (infil_cases (Mt code size raw) z Hz) as [(e & E)|[(E & _)|(E & D & Hs)]]; try congruence.
  rewrite E in H. injection H as <-. cbn [m_raw m_size] in *. pose proof (announced_aligned _ _ _ _ Hz A) as D'.
  split; intros L.
  - rewrite <- (take_drop n raw) at 1. rewrite (mtext_longer code size (seen_size code size) z); auto.
    + apply exfil_mtext; auto. { eapply wf_announced; eauto. rewrite len_take. lia. } apply utf8_ascii, encode_ascii.
    + eauto using seen_same.
    + rewrite len_take. now replace (N.min n (len raw)) with n by lia.
  - set (r' := raw ++ zeros (n - len raw)).
    assert (raw_len_ok (Mt code (seen_size code size) r') z) as W.
    { eapply wf_announced; eauto. unfold r'. rewrite len_app, len_zeros. lia. }
    assert (mtext (Mt code (seen_size code size) r') z = mtext (Mt code size raw) z ++ encode (zeros (n - len raw))) as E'.
    { unfold r'. apply mtext_longer; auto. intros V. symmetry. eauto using seen_same. }
    pose proof (len_mtext _ _ (Hz : lookup matter_table (m_code (Mt code (seen_size code size) r')) = Some z) W) as Lt.
    replace (mtext (Mt code size raw) z) with (take (len (mtext (Mt code size raw) z)) (mtext (Mt code (seen_size code size) r') z)).
    2:{ rewrite E'. now apply take_app_exact. }
    apply exfil_truncated; auto. rewrite <- Lt, E', len_app, len_encode, len_zeros. lia.
Qed.

(*# C98_text_faithful_refuted
   False as stated (that the printed text represents the value): a key given 35 bytes of raw prints a text which reads back as another key,
   and a text of size 1 given six bytes reads back as its first three.
#*)
Lemma C98_text_refuted_l : exists m t m', infil m = Ok t /\ exfil t = Ok m' /\ m_code m' = m_code m /\ m_raw m' <> m_raw m.
Proof.
  exists (Mt (s! "4B") 1 (s! "abcdef")). eexists. exists (Mt (s! "4B") 1 (s! "abc")). split. { vm_compute. reflexivity. }
  split. { vm_compute. reflexivity. } split; [reflexivity|]. vm_compute. discriminate.
Qed.

(*# C98_text_faithful_partial
   What holds: a state which prints a text of exactly its full size reads back as itself. Missing: states whose text has another length,
   see the refutation and C98_text_read_back.
##
Example C98_faithful_case : infil (set_raw (zeros 16) salt_default) = Ok (s! "0AAAAAAAAAAAAAAAAAAAAAAA") /\
  full_size (set_raw (zeros 16) salt_default) = Ok 24.
Proof. split; vm_compute; reflexivity. Qed.
#*)
Lemma C98_faithful_l (m : matter) (t : bytes) : infil m = Ok t -> full_size m = Ok (len t) ->
  exfil t = Ok (Mt (m_code m) (seen_size (m_code m) (m_size m)) (m_raw m)).
Proof.
  intros H Hf. destruct m as [code size raw]. destruct (lookup matter_table code) as [z|] eqn:Hz.
  2:{ destruct (infil_unknown (Mt code size raw) Hz). congruence. }
  destruct (infil_cases (Mt code size raw) z Hz) as [(e & E)|[(E & _)|(E & D & Hs)]]; try congruence.
  rewrite E in H. injection H as <-. cbn [m_raw m_size m_code] in *.
  pose proof (lookup_facts _ _ Hz) as F. pose proof (pad_le _ _ F) as (P1 & P2 & P3).
  assert (len (mtext (Mt code size raw) z) = hs z + ss z + (4 * ((pad z + ls z + len raw + 2) / 3) - pad z)) as Lt.
  { unfold mtext. rewrite len_app, len_mboth by auto. rewrite len_drop, len_encode, len_app, len_zeros. reflexivity. }
  rewrite Lt in Hf. unfold full_size in Hf. cbn [m_code m_size] in Hf. rewrite (proj2 (sizage_of_ok _ _) Hz), bind_Ok in Hf. fold (var z) in Hf.
  assert (announces code size (len raw)) as A.
  { destruct (state_lookup code z Hz) as [(V & Vc & L & _ & _ & _ & _)|(V & Fc & _)]; rewrite V in Hf; cbn [negb] in Hf.
    - right. split; auto. rewrite L. apply bind_ok in Hf as (q & Hq & Hf).
      unfold u32_mul in Hq. destruct (_ <=? _) in Hq; [|discriminate]. injection Hq as <-.
      unfold u32_add in Hf. destruct (_ <=? _) in Hf; [|discriminate]. injection Hf as Hf. specialize (P2 V). lia.
    - left. injection Hf as Hf. replace (len raw) with ((fs z - hs z) * 3 / 4 - ls z); auto.
      destruct (tf_fix _ _ F V) as (E1 & E2 & E3 & E4 & E5 & E6). pose proof (tf_hs _ _ F). unfold pad in *. rewrite E1 in *. lia. }
  destruct (C98_text_l code size (len raw) raw _ A E) as [T _]. rewrite T by lia. now rewrite take_all.
Qed.

(** ** The binary of an arbitrary state *)
Lemma binfil_any m z : lookup matter_table (m_code m) = Some z -> (var z = true -> m_size m < 64 ^ ss z) ->
  binfil m = if negb (len (mbin m z) mod 3 =? 0) || negb (len (mbin m z) * 4 / 3 =? mfs m z) then Err EInvalidCodeSize else Ok (mbin m z).
Proof.
  intros H W. pose proof (lookup_facts _ _ H) as F. pose proof (cs_cases _ _ F) as HC.
  pose proof (len_mboth m z H) as Lb. pose proof (pad_le _ _ F) as (P1 & P2 & P3).
  destruct (b64val_total _ (mboth_b64 m z H)) as (v & Hv).
  pose proof (b64val_lt _ _ Hv) as Bv. rewrite Lb in Bv.
  unfold binfil. rewrite (proj2 (sizage_of_ok _ _) H), bind_Ok. cbv zeta. fold (var z) (pad z) (nbytes (hs z + ss z)).
  match goal with |- bind ?t _ = _ => assert (t = Ok (mfs m z, mboth m z)) as -> end.
  { unfold mfs, mboth. destruct (var z) eqn:Ev.
    - rewrite P2 by auto. change (negb (0 =? 0)) with false. cbv iota.
      assert (ss z <= 4) as Hss by (destruct (tf_var _ _ F Ev); lia). specialize (W eq_refl).
      rewrite pow64_small by lia. rewrite bind_Ok.
      replace (64 ^ ss z - 1 <? m_size m) with false by lia. rewrite uint_to_b64_exact by lia. do 2 f_equal. lia.
    - now rewrite app_nil_r. }
  rewrite bind_Ok. cbv iota beta. rewrite Lb, N.eqb_refl. cbn [negb].
  match goal with |- bind ?t _ = _ =>
    assert (exists W8, t = Ok (be_bytes W8 (v * 2 ^ (2 * pad z))) /\ (N.to_nat (nbytes (hs z + ss z)) <= W8)%nat) as (W8 & -> & HW8)
  end.
  { assert (v * 2 ^ (2 * pad z) < 256 ^ nbytes (hs z + ss z)) as HV.
    { rewrite pow_nbytes8 by lia. fold (pad z). assert (2 ^ (2 * pad z) <> 0) by (now apply N.pow_nonzero). nia. }
    destruct (nbytes (hs z + ss z) <=? 3) eqn:E3.
    - exists 4%nat. rewrite (b64_to_u32_exact _ _ Hv) by (rewrite Lb; unfold nbytes in E3; lia).
      rewrite bind_Ok. split; [|lia]. rewrite N.mod_small; auto.
      assert (256 ^ nbytes (hs z + ss z) <= 256 ^ 3) as Q by (apply N.pow_le_mono_r; lia).
      change (256 ^ 3) with 16777216 in Q. lia.
    - exists 8%nat. assert (nbytes (hs z + ss z) <= 6) by (unfold nbytes; lia).
      replace (nbytes (hs z + ss z) <=? 6) with true by lia.
      rewrite (b64_to_u64_exact _ _ Hv) by (rewrite Lb; lia).
      rewrite bind_Ok. split; [|lia]. rewrite N.mod_small; auto.
      assert (256 ^ nbytes (hs z + ss z) <= 256 ^ 6) as Q by (apply N.pow_le_mono_r; lia).
      change (256 ^ 6) with 281474976710656 in Q. lia. }
  rewrite bind_Ok. rewrite len_be_bytes.
  rewrite from_bytes_in by (rewrite len_be_bytes; lia). rewrite bind_Ok.
  assert (drop (N.of_nat W8 - nbytes (hs z + ss z)) (be_bytes W8 (v * 2 ^ (2 * pad z))) = bcode (mboth m z)) as ->.
  { unfold bcode. rewrite Hv, Lb. fold (pad z).
    replace (N.of_nat W8 - nbytes (hs z + ss z)) with (N.of_nat (W8 - N.to_nat (nbytes (hs z + ss z)))) by lia.
    replace W8 with ((W8 - N.to_nat (nbytes (hs z + ss z))) + N.to_nat (nbytes (hs z + ss z)))%nat at 2 by lia.
    apply drop_be_bytes. }
  fold (mbin m z). reflexivity.
Qed.
Lemma binfil_big m z : lookup matter_table (m_code m) = Some z -> var z = true -> 64 ^ ss z <= m_size m -> exists e, binfil m = Err e.
Proof.
  intros H V Hs. pose proof (lookup_facts _ _ H) as F. pose proof (pad_le _ _ F) as (P1 & P2 & P3).
  unfold binfil. rewrite (proj2 (sizage_of_ok _ _) H), bind_Ok. cbv zeta. fold (var z) (pad z). rewrite V, P2 by auto.
  change (negb (0 =? 0)) with false. cbv iota.
  assert (ss z <= 4) as Hss by (destruct (tf_var _ _ F V); lia). rewrite pow64_small by lia. rewrite bind_Ok.
  assert (64 ^ ss z <> 0) by (now apply N.pow_nonzero).
  replace (64 ^ ss z - 1 <? m_size m) with true by lia. eexists. reflexivity.
Qed.
Lemma binfil_cases m : (exists e, binfil m = Err e) \/ exists z, lookup matter_table (m_code m) = Some z /\
  (var z = true -> m_size m < 64 ^ ss z) /\ binfil m = Ok (mbin m z) /\ 4 * len (mbin m z) = 3 * mfs m z.
Proof.
  destruct (lookup matter_table (m_code m)) as [z|] eqn:Hz.
  2:{ left. unfold binfil, sizage_of. rewrite Hz. eexists. reflexivity. }
  destruct (N.lt_ge_cases (m_size m) (64 ^ ss z)) as [Q|Q].
  - rewrite (binfil_any m z Hz) by auto. destruct (negb _ || negb _) eqn:E; [left; eauto|]. right. exists z. repeat split; auto. lia.
  - destruct (var z) eqn:V; [left; eapply binfil_big; eauto|].
    assert (true = false -> m_size m < 64 ^ ss z) as T by discriminate.
    rewrite (binfil_any m z Hz) by (rewrite V; discriminate). destruct (negb _ || negb _) eqn:E; [left; eauto|]. right. exists z. repeat split; auto; [congruence|]. lia.
Qed.
Lemma len_mbin_any m z : lookup matter_table (m_code m) = Some z -> len (mbin m z) = nbytes (hs z + ss z) + ls z + len (m_raw m).
Proof.
  intros H. pose proof (lookup_facts _ _ H) as F. pose proof (cs_cases _ _ F) as HC. pose proof (len_mboth m z H) as Lb.
  destruct (b64val_total _ (mboth_b64 m z H)) as (v & Hv). destruct (bcode_val _ v Hv) as (_ & L); [lia|lia|]. rewrite Lb in L.
  unfold mbin. rewrite !len_app, L, len_zeros. lia.
Qed.

(*# C98_binary_faithful
   Take any primitive in any state whose binary form prints. Then the binary reads back as the code, the size and the whole raw, it has
   three quarters of the full size, and the text form prints too and is its base64. Printing the binary form never panics.
##
Example C98_binary_case : binfil (Mt (s! "5B") 1 (s! "hi")) = Ok [xe4; x10; x01; x00; x68; x69] /\ binfil (Mt (s! "4B") 1 (s! "abcdef")) = Err EInvalidCodeSize.
Proof. split; vm_compute; reflexivity. Qed.
#*)
Lemma C98_binary_l (m : matter) : binfil m <> Panic /\ forall b, binfil m = Ok b ->
  bexfil b = Ok (Mt (m_code m) (seen_size (m_code m) (m_size m)) (m_raw m)) /\
  (exists n, full_size m = Ok n /\ 4 * len b = 3 * n) /\ infil m = Ok (encode b).
Proof.
  split. { destruct (binfil_cases m) as [(e & ->)|(z & _ & _ & -> & _)]; discriminate. }
  intros b Hb. destruct (binfil_cases m) as [(e & E)|(z & Hz & Hs & E & L)]; [congruence|].
  rewrite E in Hb. injection Hb as <-. destruct m as [code size raw]. cbn [m_code m_size m_raw] in *.
  pose proof (lookup_facts _ _ Hz) as F. pose proof (pad_le _ _ F) as (P1 & P2 & P3).
  rewrite len_mbin_any in L by auto. cbn [m_raw] in L.
  set (m' := Mt code (seen_size code size) raw).
  assert (mbin (Mt code size raw) z = mbin m' z /\ mtext (Mt code size raw) z = mtext m' z /\ infil (Mt code size raw) = infil m'
    /\ full_size (Mt code size raw) = full_size m') as (Eb & Et & Ei & Ef).
  { destruct (state_lookup code z Hz) as [(V & _ & _ & _ & _ & _ & S)|(V & _)]; unfold m'.
    - rewrite S. auto.
    - unfold mbin, mtext, mboth, infil, full_size. cbn [m_code m_size m_raw]. rewrite V, (proj2 (sizage_of_ok _ _) Hz), !bind_Ok.
      fold (var z). rewrite V. auto. }
  assert (raw_len_ok m' z) as W.
  { unfold raw_len_ok, m', mfs, nbytes, pad in *. cbn [m_size m_raw m_code] in *.
    destruct (state_lookup code z Hz) as [(V & _ & _ & _ & _ & _ & S)|(V & _ & _ & S)]; rewrite S; rewrite V in *.
    - split; auto. destruct (tf_var _ _ F V) as [[X Y]|[X Y]]; rewrite X, Y in L; lia.
    - split; auto. destruct (tf_fix _ _ F V) as (E1 & E2 & E3 & E4 & E5 & E6). pose proof (tf_hs _ _ F) as Hh. rewrite E1 in *.
      destruct Hh as [Hh|[Hh|Hh]]; rewrite Hh in *; lia. }
  rewrite Eb, Ei, Ef. split; [|split].
  - now apply bexfil_mbin0.
  - exists (mfs m' z). split; [now apply full_size_wf|]. apply (len_mbin m' z Hz W).
  - rewrite encode_mbin by auto. now apply infil_wf.
Qed.

(*# C98_text_panics
   Printing the text form of a primitive in an arbitrary state panics exactly for the two lead-byte fixed codes with a raw length that does
   not fit them: "2AAA" with a multiple of three bytes, "3AAA" with anything but one more than a multiple of three.
##
Example C98_panic_case : infil (set_code (s! "2AAA") salt_default) = Panic /\ infil verfer_default = Err EInvalidCodeSize.
Proof. split; vm_compute; reflexivity. Qed.
#*)
Lemma C98_panic_l (m : matter) : infil m = Panic <->
  (m_code m = s! "2AAA" /\ len (m_raw m) mod 3 = 0) \/ (m_code m = s! "3AAA" /\ len (m_raw m) mod 3 <> 1).
Proof.
  assert (forallb (fun e => var (snd e) || (ls (snd e) =? 0) || (beq (fst e) (s! "2AAA") && (ls (snd e) =? 1))
     || (beq (fst e) (s! "3AAA") && (ls (snd e) =? 2))) matter_table = true) as T by (vm_compute; reflexivity).
  rewrite forallb_forall in T. split.
  - intros H. destruct (lookup matter_table (m_code m)) as [z|] eqn:Hz.
    2:{ destruct (infil_unknown m Hz). congruence. }
    destruct (infil_cases m z Hz) as [(e & E)|[(_ & V & D)|(E & _)]]; try congruence.
    apply lookup_In in Hz. apply T in Hz. cbn [fst snd] in Hz. rewrite V in Hz. cbn [orb] in Hz.
    apply orb_true_iff in Hz as [Hz|Hz]; [apply orb_true_iff in Hz as [Hz|Hz]|].
    + lia.
    + apply andb_true_iff in Hz as [E L]. apply beq_eq in E. left. split; auto. lia.
    + apply andb_true_iff in Hz as [E L]. apply beq_eq in E. right. split; auto. lia.
  - intros [(E & D)|(E & D)]; unfold infil; rewrite E.
    + rewrite (proj2 (sizage_of_ok (s! "2AAA") (Szg 4 0 8 1)) eq_refl), bind_Ok. cbv zeta. cbn [fs ls].
      change (8 =? u32_max) with false. cbv iota. rewrite D. reflexivity.
    + rewrite (proj2 (sizage_of_ok (s! "3AAA") (Szg 4 0 8 2)) eq_refl), bind_Ok. cbv zeta. cbn [fs ls].
      change (8 =? u32_max) with false. cbv iota. unfold u32_sub. replace (2 <=? (3 - len (m_raw m) mod 3) mod 3) with false by lia. reflexivity.
Qed.

Lemma u32_mul_panic a b : u32_mul a b = Panic <-> u32_max < a * b.
Proof. unfold u32_mul. destruct (N.leb_spec (a * b) u32_max); split; intros; try discriminate; auto; lia. Qed.
Lemma u32_add_panic a b : u32_add a b = Panic <-> u32_max < a + b.
Proof. unfold u32_add. destruct (N.leb_spec (a + b) u32_max); split; intros; try discriminate; auto; lia. Qed.
Lemma u32_mul_val a b c : u32_mul a b = Ok c -> c = a * b.
Proof. unfold u32_mul. destruct (a * b <=? u32_max); congruence. Qed.
Lemma full_size_var m z : lookup matter_table (m_code m) = Some z -> var z = true ->
  (full_size m = Panic <-> u32_max < hs z + ss z + 4 * m_size m).
Proof.
  intros Hz V. unfold full_size. rewrite (proj2 (sizage_of_ok _ _) Hz), bind_Ok. fold (var z). rewrite V. cbn [negb].
  pose proof (u32_mul_panic (m_size m) 4) as K. destruct (u32_mul (m_size m) 4) as [q|e|] eqn:E; cbn [bind].
  - apply u32_mul_val in E. rewrite u32_add_panic, E. lia.
  - unfold u32_mul in E. destruct (_ <=? _) in E; discriminate.
  - split; auto. intros _. assert (u32_max < m_size m * 4) by (now apply K). lia.
Qed.
Lemma full_size_fix m z : lookup matter_table (m_code m) = Some z -> var z = false -> full_size m = Ok (fs z).
Proof. intros Hz V. unfold full_size. rewrite (proj2 (sizage_of_ok _ _) Hz), bind_Ok. fold (var z). rewrite V. reflexivity. Qed.

(*# C98_size_panics
   Asking a primitive in an arbitrary state for its full size panics exactly for a variable-size code whose size was set so large that
   header plus four times the size exceeds 32 bits.
##
Example C98_size_case : full_size (set_size 4294967295 bexter_default) = Panic /\ full_size (set_size 4294967295 verfer_default) = Ok 44.
Proof. split; vm_compute; reflexivity. Qed.
#*)
Lemma C98_size_l (m : matter) : full_size m = Panic <-> variable (m_code m) /\ 2 ^ 32 <= header (m_code m) + 4 * m_size m.
Proof.
  assert (2 ^ 32 = u32_max + 1) as -> by reflexivity.
  destruct (lookup matter_table (m_code m)) as [z|] eqn:Hz.
  2:{ split.
      - unfold full_size, sizage_of. rewrite Hz. discriminate.
      - intros (Vc & _). apply var_known in Vc as (z & Hz' & _). congruence. }
  destruct (state_lookup _ z Hz) as [(V & Vc & _ & _ & Hh & _)|(V & _ & NV & _)].
  - rewrite (full_size_var m z Hz V), Hh. generalize u32_max. intros u. split; [intros H; split; [auto|lia]|intros (_ & H); lia].
  - rewrite (full_size_fix m z Hz V). split; [discriminate|]. intros (Vc & _). now elim NV.
Qed.

(*# C98_numbers
   Reading the number of a Number in an arbitrary state panics exactly when its code is a number code and the raw is not exactly that
   code's length; reading the sequence number of a Seqner panics exactly when the raw has fewer than 16 bytes, and otherwise only the
   first 16 bytes count, whatever the code. Both panic on the default value.
##
Example C98_number_case : number_num number_default = Panic /\ seqner_sn salt_default = Panic /\
  seqner_sn (set_raw (zeros 15 ++ [x07; xff]) salt_default) = Ok 7.
Proof. repeat split; vm_compute; reflexivity. Qed.
#*)
Lemma C98_numbers_l (m : matter) :
  (number_num m = Panic <-> exists n, In (m_code m, n) [(s! "M", 2); (s! "0H", 4); (s! "N", 8); (s! "0A", 16)] /\ len (m_raw m) <> n) /\
  (seqner_sn m = Panic <-> len (m_raw m) < 16) /\
  (16 <= len (m_raw m) -> seqner_sn m = Ok (be_val (take 16 (m_raw m)))).
Proof.
  split; [|split].
  - unfold number_num. cbv zeta.
    assert (forall w, (if len (m_raw m) =? w then Ok (be_val (m_raw m)) else Panic) = Panic <-> len (m_raw m) <> w) as K.
    { intros w. destruct (N.eqb_spec (len (m_raw m)) w); split; intros; try congruence; try discriminate. }
    destruct (beq (m_code m) (s! "M")) eqn:E1; [|destruct (beq (m_code m) (s! "0H")) eqn:E2; [|destruct (beq (m_code m) (s! "N")) eqn:E3;
      [|destruct (beq (m_code m) (s! "0A")) eqn:E4]]].
    1-4: rewrite K; match goal with E : beq _ _ = true |- _ => apply beq_eq in E; rewrite E end; split;
      [intros H; eexists; split; [|exact H]; cbn [In]; tauto
      |intros (n & Hin & H); cbn [In] in Hin; repeat (destruct Hin as [Hin|Hin]; [apply pair_equal_spec in Hin as [Hx Hn]; first [now vm_compute in Hx|congruence]|]); destruct Hin].
    split; [discriminate|]. intros (n & Hin & _). cbn [In] in Hin.
    repeat (destruct Hin as [Hin|Hin]; [apply pair_equal_spec in Hin as [Hx _]; rewrite <- Hx in *; now vm_compute in E1, E2, E3, E4|]). destruct Hin.
  - unfold seqner_sn, slice_bytes. destruct (_ && _) eqn:E; cbn [bind]; split; intros; try discriminate; try reflexivity; try (exfalso; lia); lia.
  - intros H. unfold seqner_sn. rewrite slice_bytes_in by lia. now rewrite bind_Ok, drop_0.
Qed.

(** ** Indexed signatures *)
Lemma iinfil_np x z : lookup indexer_table (i_code x) = Some z -> ivar z = false -> ils z = 0 -> iinfil x <> Panic.
Proof.
  intros H V L0. pose proof (ilookup_facts _ _ H) as F. pose proof (ipad_le _ _ F) as (P1 & P2).
  pose proof (if_os _ _ F) as (O1 & O2 & O3 & O4 & O5). pose proof (if_cs _ _ F) as HC.
  unfold iinfil. rewrite (proj2 (isizage_of_ok _ _) H), bind_Ok. cbv zeta. rewrite u32_sub_in by lia. rewrite bind_Ok.
  fold (ims z) (ics z) (ivar z). rewrite V, bind_Ok. rewrite !pow64_small by lia. rewrite bind_Ok.
  destruct (_ <? _); try discriminate. set (u := if 0 <? ios z then _ else _).
  assert (u = Ok tt \/ u = Err EInvalidVarIndex) as [-> | ->].
  { unfold u. destruct (0 <? ios z); auto. rewrite bind_Ok. destruct (_ <? _); auto. }
  2: discriminate.
  rewrite bind_Ok. destruct (negb _); try discriminate. rewrite L0, u32_sub_in by lia. rewrite bind_Ok, N.sub_0_r.
  destruct (negb _); try discriminate. rewrite from_str_encode.
  - rewrite bind_Ok. destruct (negb _); discriminate.
  - rewrite len_encode, len_app, len_zeros. lia.
Qed.
Lemma iinfil_ok_iff c n d e raw index ondex : In (c, (n, d, e)) sig_codes ->
  (exists t, iinfil (Ix c raw index ondex) = Ok t) <-> len raw = n /\ index < 64 ^ d /\ (0 < e -> ondex < 64 ^ e).
Proof.
  intros H. destruct (sig_known _ _ _ _ H) as (z & Hz & Ev & En & Ed & Ek & El & Ec & Eb & E6 & E4). split.
  - intros (t & Ht). apply iinfil_inv in Ht as (z' & Hz' & (R1 & R2) & W). cbn [i_code i_index i_ondex i_raw] in *.
    assert (z' = z) by congruence. subst z'. rewrite Ed, Ek in *. unfold ixfs in W. rewrite Ev, El in W. split; [lia|]. auto.
  - intros (L & Hi & Ho). exists (itext (Ix c raw index ondex) z). apply iinfil_wf; auto. split.
    + split; cbn [i_index i_ondex]; rewrite ?Ed, ?Ek; auto.
    + unfold ixfs. cbn [i_raw]. rewrite Ev, El, L. lia.
Qed.
Lemma b64_digits_inj k a b : a < 64 ^ N.of_nat k -> b < 64 ^ N.of_nat k -> b64_digits k a = b64_digits k b -> a = b.
Proof.
  intros Ha Hb E. pose proof (b64val_digits k a) as A. rewrite E, b64val_digits, !N.mod_small in A by auto. congruence.
Qed.
Lemma app_eq_head {A} (a b c d : list A) : length a = length b -> a ++ c = b ++ d -> a = b /\ c = d.
Proof.
  revert b. induction a as [|x a IH]; intros [|y b] L E; try discriminate; auto. cbn in *. injection E as -> E.
  destruct (IH b) as [-> ->]; auto.
Qed.

(*# C98_indexed_text
   For an indexed signature in an arbitrary state with one of the signature codes (code, raw, index and other index set to anything): the
   text never panics; it prints exactly when the raw has the code's length and both indices fit their fields; and then it reads back as
   the code, the raw, the index and the other index, except that a code without a field for the other index reads back with the index
   (or 0 for the current-only codes), and that a current-only code with a field for it and an other index different from 0 prints a text
   that is refused.
##
Example C98_indexed_case : exists t, iinfil (iset_index 5 (iset_raw (zeros 64) siger_default)) = Ok t /\
  iexfil t = Ok (Ix (s! "A") (zeros 64) 5 5) /\ iinfil siger_default = Err EInvalidCodeSize.
Proof. eexists. split; [vm_compute; reflexivity|]. split; vm_compute; reflexivity. Qed.
Example C98_indexed_refused_case : exists t, iinfil (Ix (s! "2B") (zeros 64) 5 7) = Ok t /\ is_err (iexfil t) = true.
Proof. eexists. split; [vm_compute; reflexivity|]. vm_compute; reflexivity. Qed.
#*)
Lemma C98_indexed_l (code : bytes) (n d e : N) (raw : bytes) (index ondex : N) : In (code, (n, d, e)) sig_codes ->
  let x := Ix code raw index ondex in
  iinfil x <> Panic /\
  ((exists t, iinfil x = Ok t) <-> len raw = n /\ index < 64 ^ d /\ (0 < e -> ondex < 64 ^ e)) /\
  forall t, iinfil x = Ok t ->
    (e = 0 -> In code current_codes -> iexfil t = Ok (Ix code raw index 0)) /\
    (e = 0 -> ~ In code current_codes -> iexfil t = Ok (Ix code raw index index)) /\
    (0 < e -> ~ In code current_codes \/ ondex = 0 -> iexfil t = Ok x) /\
    (0 < e -> In code current_codes -> ondex <> 0 -> exists r, iexfil t = Err r).
Proof.
  intros H x. destruct (sig_known _ _ _ _ H) as (z & Hz & Ev & En & Ed & Ek & El & Ec & Eb & E6 & E4).
  split; [eapply iinfil_np; eauto|]. split; [now apply iinfil_ok_iff|].
  intros t Ht. pose proof (iinfil_inv _ _ Ht) as (z' & Hz' & W). cbn [i_code] in Hz'. assert (z' = z) by (unfold x in Hz'; cbn [i_code] in Hz'; congruence). subst z'. clear Hz'.
  rewrite (iinfil_wf x z Hz W) in Ht. injection Ht as <-.
  assert (forall o, (ios z = 0 \/ o = ondex) -> iond_ok (Ix code raw index o) z -> iexfil (itext x z) = Ok (Ix code raw index o)) as K.
  { intros o Ho Io. assert (itext x z = itext (Ix code raw index o) z) as ->.
    { unfold itext, itext_l, iboth, x. cbn [i_code i_raw i_index i_ondex]. destruct Ho as [Ho| ->]; auto. now rewrite Ho. }
    rewrite <- (app_nil_r (itext _ z)). apply iexfil_itext; auto. destruct W as [[R1 R2] W]. split; auto. split; auto.
    cbn [i_ondex]. destruct Ho as [Ho| ->]; auto. intros. lia. }
  unfold iond_ok in K. cbn [i_code i_index i_ondex] in K. split; [|split; [|split]].
  - intros E0 C. apply K; [left; lia|]. replace (ios z =? 0) with true by lia. apply Ec in C. now rewrite C.
  - intros E0 C. apply K; [left; lia|]. replace (ios z =? 0) with true by lia. destruct (current_sig code); auto. elim C. now apply Ec.
  - intros E0 C. apply K; auto. replace (ios z =? 0) with false by lia. intros C'. apply Ec in C'. destruct C as [C|C]; auto. now elim C.
  - intros E0 C Ho. pose proof (itext_ascii x z Hz W) as Ha.
    destruct (iexfil (itext x z)) as [x'|r|] eqn:Ex; [|eauto|now apply iexfil_np in Ex]. exfalso.
    apply iexfil_inv in Ex as (z' & rest & Hz' & (R1 & R2) & Io & E & _).
    pose proof (ilookup_facts _ _ Hz) as F. pose proof (ilookup_facts _ _ Hz') as F'.
    destruct (if_first _ _ F) as (f & r & i & Ef & Eh & _). destruct (if_first _ _ F') as (f' & r' & i' & Ef' & Eh' & _).
    unfold itext, itext_l, iboth in E. rewrite <- !app_assoc in E. cbn [i_code x] in Ef.
    assert (f' = f) as ->. { rewrite Ef' in E. unfold x in E. cbn [i_code] in E. rewrite Ef in E. cbn [app] in E. congruence. }
    assert (ihs z = ihs z') as Eq by congruence.
    apply app_eq_head in E as [E1 E2].
    2:{ pose proof (if_len _ _ F) as A. pose proof (if_len _ _ F') as B. unfold len in A, B. unfold x. cbn [i_code] in *. lia. }
    unfold x in E1. cbn [i_code] in E1. assert (z' = z) by congruence. subst z'.
    assert (forall k a, length (b64_digits k a) = k) as Ld.
    { intros k a. pose proof (len_b64_digits k a) as A. unfold len in A. lia. }
    apply app_eq_head in E2 as [_ E2]; [|now rewrite !Ld]. apply app_eq_head in E2 as [E2 _]; [|now rewrite !Ld].
    unfold iond_ok in Io. replace (ios z =? 0) with false in Io by lia. rewrite <- E1 in Io. rewrite Io in E2 by (now apply Ec).
    apply b64_digits_inj in E2; rewrite ?N2Nat.id.
    + unfold x in E2. cbn [i_ondex] in E2. lia.
    + destruct W as [[_ R] _]. apply R. lia.
    + rewrite <- Io by (now apply Ec). apply R2. lia.
Qed.

(*# C98_indexed_sizes
   Asking an indexed signature in an arbitrary state for its full size never panics for the signature codes, and is the length of its text
   whenever that prints; printing the binary form panics exactly for the big Ed448 codes, whatever the state.
##
Example C98_indexed_binary_case : ibinfil (iset_code (s! "3A") siger_default) = Panic /\ ibinfil siger_default = Err EInvalidCodeSize /\
  ifull_size siger_default = Ok 88.
Proof. repeat split; vm_compute; reflexivity. Qed.
#*)
Lemma C98_indexed_sizes_l (x : indexer) (n d e : N) : In (i_code x, (n, d, e)) sig_codes ->
  (exists k, ifull_size x = Ok k /\ forall t, iinfil x = Ok t -> len t = k) /\
  (ibinfil x = Panic <-> In (i_code x) big448_codes).
Proof.
  intros H. destruct (sig_known _ _ _ _ H) as (z & Hz & Ev & En & Ed & Ek & El & Ec & Eb & E6 & E4). split.
  - exists (ifs z). split.
    + unfold ifull_size. rewrite (proj2 (isizage_of_ok _ _) Hz), bind_Ok. fold (ivar z). now rewrite Ev.
    + intros t Ht. pose proof (iinfil_inv _ _ Ht) as (z' & Hz' & W). assert (z' = z) by congruence. subst z'.
      rewrite (iinfil_wf x z Hz W) in Ht. injection Ht as <-. rewrite len_itext by auto. unfold ixfs. now rewrite Ev.
  - rewrite <- E6. split; [|now apply ibinfil_panics]. intros Hp.
    pose proof (ilookup_facts _ _ Hz) as F. pose proof (if_os _ _ F) as (O1 & O2 & O3 & O4 & O5). pose proof (if_cs _ _ F) as HC.
    destruct (N.eq_dec (iss z) 6) as [Q|Q]; auto. exfalso. revert Hp.
    unfold ibinfil. rewrite (proj2 (isizage_of_ok _ _) Hz), bind_Ok. cbv zeta. rewrite u32_sub_in by lia. rewrite bind_Ok.
    fold (ims z) (ics z) (ivar z). rewrite Ev. rewrite !pow64_small by lia. rewrite bind_Ok.
    destruct (_ <? _); try discriminate. set (u := if ios z =? 1 then _ else _).
    assert (u = Ok tt \/ u = Err EInvalidVarIndex) as [-> | ->].
    { unfold u. destruct (ios z =? 1); auto. rewrite bind_Ok. destruct (_ <? _); auto. }
    2: discriminate.
    rewrite !bind_Ok. set (both := i_code x ++ _). destruct (N.eqb_spec (len both) (ics z)) as [Lb|]; cbn [negb]; [|discriminate].
    rewrite El, u32_sub_in by lia. rewrite bind_Ok.
    destruct (negb (ics z mod 4 =? _)); try discriminate. fold (nbytes (ics z)). set (full := if nbytes (ics z) <=? 3 then _ else _).
    assert (match full with Ok f => nbytes (ics z) <= len f | Err _ => True | Panic => False end) as Kf.
    { unfold full. destruct (nbytes (ics z) <=? 3) eqn:E3.
      - pose proof (b64_to_uint_no_panic (2 ^ 32) 0 both) as NP. unfold b64_to_u32. destruct (b64_to_uint_from _ _ both) as [v|r|]; cbn [bind]; auto.
        + rewrite len_be_bytes. lia.
      - destruct (nbytes (ics z) <=? 6) eqn:E6'; cbn [bind]; auto.
        pose proof (b64_to_uint_no_panic (2 ^ 64) 0 both) as NP. unfold b64_to_u64. destruct (b64_to_uint_from _ _ both) as [v|r|]; cbn [bind]; auto.
        + rewrite len_be_bytes. lia. }
    clearbody full. destruct full as [fb|r|]; cbn [bind] in *; [|discriminate|destruct Kf].
    rewrite from_bytes_in by lia. rewrite bind_Ok. destruct (negb _ || negb _); discriminate.
Qed.

(*# C98_readers
   Reading the date-time of a Dater in an arbitrary state panics exactly when printing its text does, so never for the date-time code;
   reading the text of a Bexter in an arbitrary state never panics.
##
Example C98_readers_case : dater_dts dater_default = Ok [] /\ bext_of (set_code (s! "6A") bexter_default) = Ok (s! "=") /\
  dater_dts (set_code (s! "3AAA") dater_default) = Panic.
Proof. repeat split; vm_compute; reflexivity. Qed.
#*)
Lemma C98_readers_l (m : matter) :
  (dater_dts m = Panic <-> infil m = Panic) /\ (m_code m = s! "1AAG" -> dater_dts m <> Panic) /\ bext_of m <> Panic.
Proof.
  assert (dater_dts m = Panic <-> infil m = Panic) as D.
  { unfold dater_dts. destruct (lookup matter_table (m_code m)) as [z|] eqn:Hz.
    2:{ destruct (infil_unknown m Hz) as (e & ->). unfold sizage_of. rewrite Hz. split; discriminate. }
    rewrite (proj2 (sizage_of_ok _ _) Hz), bind_Ok. pose proof (lookup_facts _ _ Hz) as F.
    destruct (infil_cases m z Hz) as [(e & ->)|[(-> & _)|(-> & D & _)]]; cbn [bind]; try (split; auto; discriminate).
    assert (ascii (mtext m z) = true) as Ha.
    { unfold mtext. rewrite ascii_app. rewrite (is_b64s_ascii _ (mboth_b64 m z Hz)). apply is_b64s_ascii, is_b64s_drop, encode_b64s.
      rewrite len_app, len_zeros. exact D. }
    rewrite from_str_ascii; auto.
    - split; discriminate.
    - unfold mtext. rewrite len_app, len_mboth by auto. lia. }
  split; auto. split.
  - intros E H. apply D, C98_panic_l in H as [(H & _)|(H & _)]; rewrite E in H; vm_compute in H; discriminate.
  - unfold bext_of. destruct (lookup matter_table (m_code m)) as [z|] eqn:Hz.
    2:{ unfold sizage_of. rewrite Hz. discriminate. }
    rewrite (proj2 (sizage_of_ok _ _) Hz), bind_Ok. pose proof (lookup_facts _ _ Hz) as F. pose proof (tf_ls _ _ F) as L.
    pose proof (encode_ascii (zeros (ls z) ++ m_raw m)) as Ha. pose proof (len_encode (zeros (ls z) ++ m_raw m)) as Le.
    rewrite len_app, len_zeros in Le. set (b := encode _) in *. destruct (N.eqb_spec (ls z) 0) as [E|E].
    + destruct b as [|c r] eqn:Eb. { cbn [bind]. vm_compute. discriminate. }
      rewrite slice_str_ascii by (auto; rewrite ?len_cons; lia). cbn [bind]. rewrite from_str_ascii; auto; [discriminate|].
      rewrite len_cons. destruct (beq _ _); lia.
    + cbn [bind]. rewrite from_str_ascii; auto; [discriminate|]. lia.
Qed.
