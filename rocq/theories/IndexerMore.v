(** Binary parsing, truncation, panics and construction of indexed primitives. *)
From Coq Require Import String.
From Coq Require Import NArith ZArith Bool List Lia ZifyBool ZifyNat ZifyN.
From Verif Require Import Base BaseFacts B64 B64Facts Util UtilFacts Tables Matter MatterFacts MatterBin MatterText Indexer IndexerFacts.
Import ListNotations.
Open Scope N_scope.
Ltac Zify.zify_post_hook ::= Z.div_mod_to_equations.

Lemma ihardage_np f : ihardage f <> Panic.
Proof. unfold ihardage. cbv zeta. repeat match goal with |- context [if ?c then _ else _] => destruct c end; discriminate. Qed.
Lemma ihardage_val f h : ihardage f = Ok h -> h = 1 \/ h = 2.
Proof.
  unfold ihardage. cbv zeta.
  repeat match goal with |- context [if ?c then _ else _] => destruct c end; intros H; inversion H; auto.
Qed.
Lemma ibardage_np f : ibardage f <> Panic.
Proof. unfold ibardage. repeat match goal with |- context [if ?c then _ else _] => destruct c end; discriminate. Qed.
Lemma ibardage_val f h : ibardage f = Ok h -> h = 1 \/ h = 2.
Proof. unfold ibardage. repeat match goal with |- context [if ?c then _ else _] => destruct c end; intros H; inversion H; auto. Qed.
Lemma read_ondex_np hard z index odx : read_ondex hard z index odx <> Panic.
Proof.
  unfold read_ondex. destruct (current_sig hard), (negb (ios z =? 0)); try discriminate; try apply b64_to_uint_no_panic.
  apply bind_np; [apply b64_to_uint_no_panic|]. intros w _. destruct (negb (w =? 0)); discriminate.
Qed.

Lemma itext_l_split l x z : itext_l l x z = i_code x ++ b64_digits (N.to_nat (ims z)) (i_index x) ++
  b64_digits (N.to_nat (ios z)) (i_ondex x) ++ drop (ipad z) (encode (zeros (ipad z + l) ++ i_raw x)).
Proof. unfold itext_l, iboth. now rewrite <- !app_assoc. Qed.

Lemma take_iboth_hs x z : lookup indexer_table (i_code x) = Some z -> take (ihs z) (iboth x z) = i_code x.
Proof. intros H. pose proof (ilookup_facts _ _ H) as F. unfold iboth. apply take_app_exact. apply (if_len _ _ F). Qed.
Lemma iboth_index x z : lookup indexer_table (i_code x) = Some z ->
  take (ims z) (drop (ihs z) (iboth x z)) = b64_digits (N.to_nat (ims z)) (i_index x).
Proof.
  intros H. pose proof (ilookup_facts _ _ H) as F. unfold iboth. rewrite drop_app_exact by apply (if_len _ _ F).
  apply take_app_exact. rewrite len_b64_digits. lia.
Qed.
Lemma iboth_ondex x z : lookup indexer_table (i_code x) = Some z ->
  take (ios z) (drop (ihs z + ims z) (iboth x z)) = b64_digits (N.to_nat (ios z)) (i_ondex x).
Proof.
  intros H. pose proof (ilookup_facts _ _ H) as F. unfold iboth. rewrite <- drop_drop.
  rewrite drop_app_exact by apply (if_len _ _ F). rewrite drop_app_exact by (rewrite len_b64_digits; lia).
  apply take_all. rewrite len_b64_digits. lia.
Qed.

(** ** Parsing binary, up to the point where the size is known *)
Definition ib_rest (z : isizage) (hard : bytes) (index ondex f : N) (b : bytes) : R indexer :=
  let bcs := nbytes (ics z) in
  let bfs := ((f + 1) * 3) / 4 in
  if len b <? bfs then Err EShortage
  else
    let* trim := slice_bytes b 0 bfs in
    let* _u :=
      if negb (ipad z =? 0) then
        match nth_error trim (N.to_nat (bcs - 1)) with
        | Some p => if negb (b2n p mod 2 ^ (2 * ipad z) =? 0) then Err ENonZeroedPadBits else Ok tt
        | None => Panic
        end
      else
        if forallb (fun b => Byte.eqb b x00) (drop bcs (take (bcs + ils z) trim)) then Ok tt
        else (if ils z =? 1 then Err ENonZeroedLeadByte else Err ENonZeroedLeadBytes) in
    let* raw := from_bytes trim (bcs + ils z) in
    Ok (Ix hard raw index ondex).

Lemma ibexfil_head x z b : lookup indexer_table (i_code x) = Some z -> irange x z -> 
  nbytes (ics z) <= len b -> take (ics z) (encode b) = iboth x z ->
  ibexfil b = let* ondex := read_ondex (i_code x) z (i_index x) (b64_digits (N.to_nat (ios z)) (i_ondex x)) in
              ib_rest z (i_code x) (i_index x) ondex (ixfs x z) b.
Proof.
  intros H Rg Lb Eb. pose proof (ilookup_facts _ _ H) as F. pose proof (if_cs _ _ F) as HC. pose proof (if_hs _ _ F) as Hhs.
  pose proof (if_os _ _ F) as (O1 & O2 & O3 & O4 & O5). pose proof (len_iboth x z H) as Lbo.
  destruct (if_first _ _ F) as (f & r & i & Ec & _ & Ei & Ebard).
  assert (ics z = ihs z + (ims z + ios z)) as Ecs by (unfold ics, ims; lia).
  assert (forall k, 1 <= k -> k <= ics z -> nbytes k <= len b /\ take k (encode b) = take k (iboth x z)) as TK.
  { intros k H1 H2. split; [unfold nbytes in *; lia|]. rewrite <- Eb, take_take. f_equal. lia. }
  unfold ibexfil. destruct b as [|q qs] eqn:Eq. { rewrite len_nilb in Lb. unfold nbytes in Lb. lia. }
  rewrite <- Eq in *. clear q qs Eq. destruct (TK 1) as (N1 & T1); [lia|lia|].
  destruct (nab_sextets_spec b 1) as (l & -> & Ml & Fl); [lia|lia|lia|]. rewrite bind_Ok. rewrite T1 in Ml.
  assert (take 1 (iboth x z) = [f]) as Et. { unfold iboth. rewrite Ec. reflexivity. }
  rewrite Et in Ml. destruct l as [|j [|? ?]]; try discriminate. cbn [map] in Ml. inversion Ml as [Ej].
  assert (j = i) as ->. { apply b64_index_Some in Ei as [Hi <-]. inversion Fl; subst. now apply b64_char_inj. }
  rewrite Ebard, bind_Ok. cbv zeta. destruct (TK (ihs z)) as (Nh & Th); [lia|lia|].
  assert ((ihs z * 3 + 3) / 4 = nbytes (ihs z)) as -> by (unfold nbytes; lia).
  replace (len b <? nbytes (ihs z)) with false by lia.
  rewrite code_b2_to_b64_spec by lia. rewrite bind_Ok, Th, take_iboth_hs by auto.
  rewrite (proj2 (isizage_of_ok _ _) H), bind_Ok. rewrite u32_sub_in by lia. rewrite bind_Ok. fold (ics z) (ims z). fold (ipad z) (nbytes (ics z)).
  replace (len b <? nbytes (ics z)) with false by lia. rewrite code_b2_to_b64_spec by lia. rewrite bind_Ok, Eb.
  assert (ascii (iboth x z) = true) as Ha by (apply is_b64s_ascii; now apply iboth_b64).
  rewrite slice_str_ascii by (auto; lia). rewrite bind_Ok. replace (ihs z + ims z - ihs z) with (ims z) by lia.
  rewrite iboth_index by auto. rewrite (b64_u32_digits _ (ims z)) by (try lia; destruct Rg; auto). rewrite bind_Ok.
  rewrite slice_str_ascii by (auto; lia). rewrite bind_Ok. replace (ihs z + (ims z + ios z) - (ihs z + ims z)) with (ios z) by lia.
  rewrite iboth_ondex by auto. destruct (read_ondex _ _ _ _); auto. rewrite !bind_Ok.
  rewrite ifs_step' by (auto; eapply index_small; eauto). rewrite bind_Ok. reflexivity.
Qed.

Lemma ibexfil_ibin x z rest : lookup indexer_table (i_code x) = Some z -> iraw_ok x z -> iond_ok x z ->
  ibexfil (ibin x z ++ rest) = Ok x.
Proof.
  intros H W Ho. pose proof (ilookup_facts _ _ H) as F. pose proof (if_cs _ _ F) as HC.
  pose proof (len_ibin x z H W) as Lm. pose proof (len_bcode_iboth x z H) as Lc. pose proof (encode_ibin x z H W) as Et.
  destruct (ixfs_facts x z H) as (A & B & _). pose proof (len_iboth x z H) as Lb.
  pose proof (ipad_le _ _ F) as (P1 & P2). pose proof (if_ls _ _ F) as (Hl1 & Hl2).
  assert (nbytes (ics z) <= len (ibin x z)) as Nc by (unfold ibin; rewrite len_app, Lc; lia).
  rewrite (ibexfil_head x z); auto.
  - rewrite read_ondex_wf by (auto; apply W). rewrite bind_Ok. unfold ib_rest. cbv zeta.
    assert ((ixfs x z + 1) * 3 / 4 = len (ibin x z)) as -> by lia.
    rewrite len_app. replace (len (ibin x z) + len rest <? len (ibin x z)) with false by lia.
    rewrite slice_bytes_in by (rewrite ?len_app; lia). rewrite bind_Ok, drop_0, N.sub_0_r, take_app_exact by auto.
    destruct (b64val_total _ (iboth_b64 x z H)) as (v & Hv).
    match goal with |- bind ?t _ = _ => assert (t = Ok tt) as -> end.
    { destruct (ipad z =? 0) eqn:Ep; cbn [negb].
      - unfold ibin. rewrite take_app_ge by lia. rewrite Lc.
        replace (nbytes (ics z) + ils z - nbytes (ics z)) with (ils z) by lia.
        rewrite drop_app_exact by auto. rewrite take_app_exact by apply len_zeros. now rewrite forallb_zeros.
      - unfold ibin, bcode. rewrite Hv, Lb. fold (ipad z).
        replace (N.to_nat (nbytes (ics z) - 1)) with (N.to_nat (nbytes (ics z)) - 1)%nat by lia.
        rewrite nth_last_be_bytes by (unfold nbytes; lia).
        assert (ipad z = 1 \/ ipad z = 2) as Hp by lia. rewrite b2n_n2b by lia.
        destruct Hp as [Hp|Hp]; rewrite Hp.
        + change (2 ^ (2 * 1)) with 4. replace ((v * 4) mod 256 mod 4 =? 0) with true by lia. reflexivity.
        + change (2 ^ (2 * 2)) with 16. replace ((v * 16) mod 256 mod 16 =? 0) with true by lia. reflexivity. }
    rewrite bind_Ok. rewrite from_bytes_in.
    + unfold ibin. rewrite app_assoc. rewrite drop_app_exact by (rewrite len_app, len_zeros; lia).
      rewrite bind_Ok. now destruct x.
    + unfold ibin. rewrite !len_app, len_zeros. lia.
  - apply W.
  - rewrite len_app. lia.
  - rewrite encode_head_app by lia. rewrite Et. unfold itext, itext_l. apply take_app_exact. auto.
Qed.

Lemma ibexfil_truncated x z k : lookup indexer_table (i_code x) = Some z -> iraw_ok x z -> k < len (ibin x z) ->
  exists e, ibexfil (take k (ibin x z)) = Err e.
Proof.
  intros H W Hk. pose proof (ilookup_facts _ _ H) as F. pose proof (if_cs _ _ F) as HC. pose proof (if_hs _ _ F) as Hhs.
  pose proof (len_ibin x z H W) as Lm. pose proof (len_bcode_iboth x z H) as Lc. pose proof (encode_ibin x z H W) as Et.
  destruct (ixfs_facts x z H) as (A & B & _). pose proof (len_iboth x z H) as Lb.
  pose proof (if_os _ _ F) as (O1 & O2 & O3 & O4 & O5).
  set (s := take k (ibin x z)). assert (len s = k) as Ls by (unfold s; rewrite len_take; lia).
  assert (forall j, 1 <= j -> j <= ics z -> nbytes j <= k -> take j (encode s) = take j (iboth x z)) as TK.
  { intros j H1 H2 H3. replace (take j (iboth x z)) with (take j (itext x z)) by (unfold itext, itext_l; apply take_app_le; lia).
    rewrite <- Et. rewrite <- (take_drop k (ibin x z)) at 1. fold s.
    symmetry. apply encode_head_app; lia. }
  destruct (N.leb_spec (nbytes (ics z)) k) as [Q|Q].
  - rewrite (ibexfil_head x z); auto; [|apply W|lia|rewrite TK by lia; apply take_all; lia].
    pose proof (read_ondex_np (i_code x) z (i_index x) (b64_digits (N.to_nat (ios z)) (i_ondex x))) as Np.
    destruct (read_ondex _ _ _ _) as [o|e|]; [|eexists; reflexivity|congruence].
    rewrite bind_Ok. unfold ib_rest. cbv zeta.
    replace (len s <? (ixfs x z + 1) * 3 / 4) with true by (symmetry; apply N.ltb_lt; lia). eexists. reflexivity.
  - destruct (if_first _ _ F) as (f & r & i & Ec & _ & Ei & Ebard).
    clearbody s. unfold ibexfil. destruct s as [|q qs] eqn:Eq; [eexists; reflexivity|]. rewrite <- Eq in *.
    assert (1 <= k) as K1 by (rewrite <- Ls, Eq, len_cons; lia). clear q qs Eq.
    destruct (nab_sextets_spec s 1) as (l & -> & Ml & Fl); [lia|lia|unfold nbytes; lia|]. rewrite bind_Ok.
    rewrite TK in Ml by (unfold nbytes; lia).
    assert (take 1 (iboth x z) = [f]) as Et1. { unfold iboth. rewrite Ec. reflexivity. }
    rewrite Et1 in Ml. destruct l as [|j [|? ?]]; try discriminate. cbn [map] in Ml. inversion Ml as [Ej].
    assert (j = i) as ->. { apply b64_index_Some in Ei as [Hi <-]. inversion Fl; subst. now apply b64_char_inj. }
    rewrite Ebard, bind_Ok. cbv zeta.
    assert ((ihs z * 3 + 3) / 4 = nbytes (ihs z)) as -> by (unfold nbytes; lia). rewrite Ls.
    destruct (N.ltb_spec k (nbytes (ihs z))) as [Q'|Q']; [eexists; reflexivity|].
    rewrite code_b2_to_b64_spec by lia. unfold ics in *. rewrite bind_Ok, TK, take_iboth_hs by (auto; lia).
    rewrite (proj2 (isizage_of_ok _ _) H), bind_Ok. rewrite u32_sub_in by lia. rewrite bind_Ok.
    fold (nbytes (ihs z + iss z)). replace (k <? nbytes (ihs z + iss z)) with true by lia. eexists. reflexivity.
Qed.

(** ** Truncated text *)
Lemma iexfil_truncated x z k : lookup indexer_table (i_code x) = Some z -> iraw_ok x z -> k < len (itext x z) ->
  exists e, iexfil (take k (itext x z)) = Err e.
Proof.
  intros H W Hk. pose proof (ilookup_facts _ _ H) as F. pose proof (if_cs _ _ F) as HC. pose proof (if_hs _ _ F) as Hhs.
  pose proof (len_itext x z H W) as Lt. pose proof (itext_ascii x z H W) as Ha.
  pose proof (if_os _ _ F) as (O1 & O2 & O3 & O4 & O5). destruct (ixfs_facts x z H) as (A & B & _).
  pose proof (len_iboth x z H) as Lb. assert (len (i_code x) = ihs z) as Lh by apply (if_len _ _ F).
  destruct (if_first _ _ F) as (f & r & i & Ec & Hhard & _ & _).
  destruct (N.eq_dec k 0) as [K0|K0]. { subst k. eexists. reflexivity. }
  assert (ics z = ihs z + (ims z + ios z)) as Ecs by (unfold ics, ims; lia).
  set (s := take k (itext x z)). assert (len s = k) as Ls by (unfold s; rewrite len_take; lia).
  assert (exists s0, s = f :: s0) as (s0 & Es0).
  { unfold s. unfold itext. rewrite itext_l_split, Ec. cbn [app]. unfold take. destruct (N.to_nat k) as [|k'] eqn:Ek; [lia|]. cbn [firstn]. eauto. }
  assert (ascii s = true) as Has by now apply ascii_take.
  unfold iexfil. rewrite Es0. rewrite Hhard, bind_Ok. rewrite <- Es0. rewrite Ls.
  destruct (N.ltb_spec k (ihs z)) as [Q|Q]; [eexists; reflexivity|].
  rewrite slice_str_ascii by (auto; lia). rewrite bind_Ok, drop_0, N.sub_0_r.
  assert (forall a n, a + n <= ics z -> a + n <= k -> take n (drop a s) = take n (drop a (iboth x z))) as TB.
  { intros a n L1 L2. rewrite !take_drop_comm. f_equal. unfold s. rewrite take_take, N.min_l by lia.
    unfold itext, itext_l. apply take_app_le. lia. }
  assert (take (ihs z) s = i_code x) as ->.
  { rewrite <- (drop_0 s). rewrite TB by lia. rewrite drop_0. now apply take_iboth_hs. }
  rewrite (proj2 (isizage_of_ok _ _) H), bind_Ok. cbv zeta. rewrite u32_sub_in by lia. rewrite bind_Ok. fold (ics z) (ims z). fold (ipad z).
  destruct (N.ltb_spec k (ics z)) as [Q'|Q']; [eexists; reflexivity|].
  rewrite slice_str_ascii by (auto; lia). rewrite bind_Ok. replace (ihs z + ims z - ihs z) with (ims z) by lia.
  rewrite TB, iboth_index by (auto; lia). destruct W as [Rg W].
  rewrite (b64_u32_digits _ (ims z)) by (try lia; destruct Rg; auto). rewrite bind_Ok.
  rewrite slice_str_ascii by (auto; lia). rewrite bind_Ok. replace (ihs z + (ims z + ios z) - (ihs z + ims z)) with (ios z) by lia.
  rewrite TB, iboth_ondex by (auto; lia).
  pose proof (read_ondex_np (i_code x) z (i_index x) (b64_digits (N.to_nat (ios z)) (i_ondex x))) as Np.
  destruct (read_ondex _ _ _ _) as [o|e|]; [|eexists; reflexivity|congruence]. rewrite bind_Ok.
  rewrite ifs_step' by (auto; eapply index_small; eauto). rewrite bind_Ok.
  replace (k <? ixfs x z) with true by lia. eexists. reflexivity.
Qed.

(** ** Inversion of the binary parser *)
Lemma ibexfil_split b x0 : ibexfil b = x0 -> (exists e, x0 = Err e) \/
  exists x z, lookup indexer_table (i_code x) = Some z /\ irange x z /\ iond_ok x z /\
    nbytes (ics z) <= len b /\ take (ics z) (encode b) = iboth x z /\
    x0 = ib_rest z (i_code x) (i_index x) (i_ondex x) (ixfs x z) b.
Proof.
  intros H. unfold ibexfil in H. destruct b as [|b0 bs] eqn:Eb0; [left; eauto|]. rewrite <- Eb0 in *.
  assert (1 <= len b) as Lb1 by (rewrite Eb0, len_cons; lia). clear Eb0 b0 bs.
  destruct (nab_sextets_spec b 1) as (l & Hl1 & Ml & _); [lia|lia|unfold nbytes; lia|].
  rewrite Hl1, bind_Ok in H. assert (len (take 1 (encode b)) = 1) as L1 by (rewrite len_take, len_encode; lia).
  destruct l as [|first l]; [rewrite <- Ml in L1; discriminate|].
  destruct (ibardage first) as [h|e|] eqn:Hh; [|left; eauto|now apply ibardage_np in Hh]. rewrite bind_Ok in H. cbv zeta in H.
  apply ibardage_val in Hh. assert ((h * 3 + 3) / 4 = nbytes h) as Enh by (unfold nbytes; lia). rewrite Enh in *.
  destruct (len b <? nbytes h) eqn:Ehl; [left; eauto|].
  rewrite code_b2_to_b64_spec, bind_Ok in H by lia. set (hard := take h (encode b)) in *.
  assert (len hard = h) as Lh by (unfold hard; rewrite len_take, len_encode; unfold nbytes in *; lia).
  destruct (isizage_of hard) as [z|e|] eqn:Hz; [|left; eauto|now apply isizage_of_np in Hz]. apply isizage_of_ok in Hz.
  rewrite bind_Ok in H. pose proof (ilookup_facts _ _ Hz) as F. pose proof (if_cs _ _ F) as HC.
  pose proof (if_os _ _ F) as (O1 & O2 & O3 & O4 & O5).
  assert (h = ihs z) as Eh. { rewrite <- (if_len _ _ F). auto. } clear Enh. rewrite Eh in *.
  rewrite u32_sub_in, bind_Ok in H by lia. fold (ims z) (ics z) in H. fold (ipad z) (nbytes (ics z)) in H.
  destruct (len b <? nbytes (ics z)) eqn:Elc; [left; eauto|].
  rewrite code_b2_to_b64_spec, bind_Ok in H by lia. set (both := take (ics z) (encode b)) in *.
  assert (len both = ics z) as Lboth by (unfold both; rewrite len_take, len_encode; unfold nbytes in *; lia).
  assert (ascii both = true) as Ha by (apply ascii_take, encode_ascii).
  assert (ics z = ihs z + (ims z + ios z)) as Ecs by (unfold ics, ims; lia).
  rewrite slice_str_ascii, bind_Ok in H by (auto; lia). replace (ihs z + ims z - ihs z) with (ims z) in H by lia.
  set (is := take (ims z) (drop (ihs z) both)) in *. assert (len is = ims z) as Lis by (unfold is; rewrite len_take, len_drop; lia).
  destruct (b64_to_u32 is) as [index|e|] eqn:Hi; [|left; eauto|now apply b64_to_uint_no_panic in Hi]. rewrite bind_Ok in H.
  rewrite slice_str_ascii, bind_Ok in H by (auto; lia). replace (ihs z + (ims z + ios z) - (ihs z + ims z)) with (ios z) in H by lia.
  set (odx := take (ios z) (drop (ihs z + ims z) both)) in *. assert (len odx = ios z) as Lodx by (unfold odx; rewrite len_take, len_drop; lia).
  destruct (read_ondex hard z index odx) as [ondex|e|] eqn:Ho; [|left; eauto|now apply read_ondex_np in Ho]. rewrite bind_Ok in H.
  apply read_ondex_inv in Ho as (Ho & Ro & Eo); auto.
  apply b64_to_u32_inv in Hi; [|lia]. pose proof (b64val_lt _ _ Hi) as Bi. rewrite Lis in Bi.
  apply b64_digits_val in Hi. replace (length is) with (N.to_nat (ims z)) in Hi by (unfold len in Lis; lia).
  right. set (x := Ix hard [] index ondex). exists x, z. split; auto. assert (irange x z) as Rg by (split; auto).
  split; auto. split; [exact Ho|]. split; [lia|]. split.
  - fold both. unfold iboth. cbn [x i_code i_index i_ondex]. rewrite Hi, <- Eo. unfold is, odx.
    rewrite <- (take_drop (ihs z) both) at 1. f_equal; [unfold both, hard; rewrite take_take; f_equal; lia|].
    rewrite <- (take_drop (ims z) (drop (ihs z) both)) at 1. f_equal. rewrite drop_drop. symmetry. apply take_all. rewrite len_drop. lia.
  - pose proof (index_small x z Rg O4) as Hsm. change index with (i_index x) in H. rewrite ifs_step' in H by auto. rewrite bind_Ok in H.
    symmetry. exact H.
Qed.

Lemma ibexfil_np b : ibexfil b <> Panic.
Proof.
  intros H. apply ibexfil_split in H as [(e & H)|(x & z & Hz & Rg & Ho & Lb & Eb & H)]; [discriminate|]. symmetry in H.
  pose proof (ilookup_facts _ _ Hz) as F. pose proof (if_cs _ _ F) as HC. pose proof (if_ls _ _ F) as (Hl1 & Hl2).
  destruct (ixfs_facts x z Hz) as (A & B & _).
  unfold ib_rest in H. cbv zeta in H. destruct (len b <? (ixfs x z + 1) * 3 / 4) eqn:E; try discriminate.
  rewrite slice_bytes_in, bind_Ok, drop_0, N.sub_0_r in H by lia. set (trim := take ((ixfs x z + 1) * 3 / 4) b) in *.
  assert (len trim = (ixfs x z + 1) * 3 / 4) as Lt by (unfold trim; rewrite len_take; lia).
  assert (nbytes (ics z) + ils z <= len trim) as Ln.
  { unfold ixfs in *. destruct (ivar z) eqn:Ev; [destruct (if_var _ _ F Ev)|destruct (if_fix _ _ F Ev)]; unfold nbytes in *; lia. }
  apply bind_panic in H as [H|(u & _ & H)].
  - destruct (ipad z =? 0) eqn:Ep; cbn [negb] in H.
    + destruct (forallb _ _); try discriminate. destruct (ils z =? 1); discriminate.
    + destruct (nth_error _ _) eqn:En in H; [destruct (negb _); discriminate|]. apply nth_error_None in En. unfold len in Ln, Lt. unfold nbytes in *. lia.
  - rewrite from_bytes_in, bind_Ok in H by lia. discriminate.
Qed.

Lemma ibexfil_inv b x : ibexfil b = Ok x ->
  exists z, lookup indexer_table (i_code x) = Some z /\ iraw_ok x z /\ iond_ok x z /\ exists rest, b = ibin x z ++ rest.
Proof.
  intros H. apply ibexfil_split in H as [(e & H)|(x' & z & Hz & Rg & Ho & Lb & Eb & H)]; [discriminate|]. symmetry in H.
  pose proof (ilookup_facts _ _ Hz) as F. pose proof (if_cs _ _ F) as HC. pose proof (if_ls _ _ F) as (Hl1 & Hl2).
  pose proof (ipad_le _ _ F) as (P1 & P2). destruct (ixfs_facts x' z Hz) as (A & B & _).
  unfold ib_rest in H. cbv zeta in H. set (bfs := (ixfs x' z + 1) * 3 / 4) in *. destruct (len b <? bfs) eqn:E; try discriminate.
  rewrite slice_bytes_in, bind_Ok, drop_0, N.sub_0_r in H by lia. set (trim := take bfs b) in *.
  assert (len trim = bfs) as Lt by (unfold trim; rewrite len_take; lia).
  apply bind_ok in H as (u & Hchk & H). apply bind_ok in H as (raw & Hraw & H). inversion H; subst x; clear H.
  apply from_bytes_ok in Hraw as (Lraw & Eraw). cbn [i_code]. exists z. split; auto.
  set (x := Ix (i_code x') raw (i_index x') (i_ondex x')) in *.
  assert (ixfs x' z = ixfs x z) as Efs by reflexivity. assert (iboth x' z = iboth x z) as Ebo by reflexivity. rewrite Efs, Ebo in *.
  assert (iraw_ok x z) as W.
  { split; [exact Rg|]. change (i_raw x) with raw. rewrite Eraw, len_drop. change (ixfs x' z) with (ixfs x z) in bfs. clear - Lt HC A B Lraw. unfold bfs, nbytes, ipad in *. lia. }
  split; auto. split; [exact Ho|]. exists (drop bfs b). rewrite <- (take_drop bfs b) at 1. f_equal. fold trim.
  assert (nbytes (ics z) <= len trim) as Nc by lia.
  rewrite <- (take_drop (nbytes (ics z)) trim). unfold ibin.
  assert (take (ics z) (encode trim) = iboth x z) as Eb'.
  { rewrite <- Eb. rewrite <- (take_drop bfs b) at 1. fold trim. symmetry. apply encode_head_app; lia. }
  rewrite encode_head in Eb' by lia. fold (ipad z) in Eb'.
  set (X := be_val (take (nbytes (ics z)) trim)) in *.
  assert (len (take (nbytes (ics z)) trim) = nbytes (ics z)) as LX by (rewrite len_take; lia).
  assert (X < 256 ^ nbytes (ics z)) as BX by (rewrite <- LX; apply be_val_lt).
  rewrite pow_nbytes8 in BX by lia. fold (ipad z) in BX.
  assert (2 ^ (2 * ipad z) <> 0) as PN by (now apply N.pow_nonzero).
  assert (b64val (iboth x z) = Some (X / 2 ^ (2 * ipad z))) as Vb.
  { rewrite <- Eb', b64val_digits, N2Nat.id. f_equal. apply N.mod_small. apply N.div_lt_upper_bound; lia. }
  assert (len (iboth x z) = ics z) as Lboth by (now apply len_iboth).
  f_equal.
  - assert (X mod 2 ^ (2 * ipad z) = 0) as XM.
    { destruct (ipad z =? 0) eqn:Ep; cbn [negb] in Hchk.
      - assert (ipad z = 0) as -> by lia. change (2 ^ (2 * 0)) with 1. apply N.mod_1_r.
      - destruct (nth_error trim (N.to_nat (nbytes (ics z) - 1))) as [p|] eqn:En; try discriminate.
        destruct (b2n p mod 2 ^ (2 * ipad z) =? 0) eqn:Ez; try discriminate.
        apply nth_last_take in En; [|unfold nbytes; lia].
        unfold X. rewrite En, be_val_app. change (len [p]) with 1. change (256 ^ 1) with 256.
        rewrite be_val_cons. change (be_val []) with 0. change (256 ^ len (@nil byte)) with 1.
        assert (ipad z = 1 \/ ipad z = 2) as [Hp|Hp] by lia; rewrite Hp in *.
        + change (2 ^ (2 * 1)) with 4 in *. lia.
        + change (2 ^ (2 * 2)) with 16 in *. lia. }
    apply be_val_inj.
    + rewrite LX. symmetry. now apply len_bcode_iboth.
    + destruct (bcode_val _ _ Vb) as (-> & _); [lia|lia|]. rewrite Lboth. fold (ipad z). fold X.
      rewrite (N.div_mod X (2 ^ (2 * ipad z))) at 1 by auto. lia.
  - change (i_raw x) with raw. rewrite Eraw.
    rewrite <- (take_drop (ils z) (drop (nbytes (ics z)) trim)). rewrite drop_drop. f_equal.
    destruct (ipad z =? 0) eqn:Ep; cbn [negb] in Hchk.
    + rewrite take_drop_comm. destruct (forallb _ _) eqn:Ef in Hchk; [|destruct (ils z =? 1); discriminate].
      apply forallb_zeros_inv in Ef. rewrite Ef. f_equal. rewrite len_drop, len_take. lia.
    + assert (ils z = 0) as -> by lia. reflexivity.
Qed.

(** ** Text parsing never panics on ASCII *)
Lemma iexfil_np s : ascii s = true -> iexfil s <> Panic.
Proof.
  intros Ha H. unfold iexfil in H. destruct s as [|first s0] eqn:Es0; try discriminate. rewrite <- Es0 in *. clear Es0 s0.
  apply bind_panic in H as [H|(h & Hh & H)]; [now apply ihardage_np in H|].
  destruct (len s <? h) eqn:Elh; try discriminate.
  rewrite slice_str_ascii, bind_Ok in H by (auto; lia). rewrite drop_0, N.sub_0_r in H. set (hard := take h s) in *.
  apply bind_panic in H as [H|(z & Hz & H)]; [now apply isizage_of_np in H|]. apply isizage_of_ok in Hz.
  pose proof (ilookup_facts _ _ Hz) as F. pose proof (if_cs _ _ F) as HC. pose proof (if_ls _ _ F) as (Hl1 & Hl2).
  pose proof (if_os _ _ F) as (O1 & O2 & O3 & O4 & O5). pose proof (ipad_le _ _ F) as (P1 & P2).
  assert (h = ihs z) as Eh. { rewrite <- (if_len _ _ F). unfold hard. rewrite len_take. lia. } rewrite Eh in *.
  cbv zeta in H. rewrite u32_sub_in, bind_Ok in H by lia. fold (ims z) (ics z) in H. fold (ipad z) in H.
  destruct (len s <? ics z) eqn:Elc; try discriminate.
  assert (ics z = ihs z + (ims z + ios z)) as Ecs by (unfold ics, ims; lia).
  rewrite slice_str_ascii, bind_Ok in H by (auto; lia). replace (ihs z + ims z - ihs z) with (ims z) in H by lia.
  apply bind_panic in H as [H|(index & Hi & H)]; [now apply b64_to_uint_no_panic in H|].
  rewrite slice_str_ascii, bind_Ok in H by (auto; lia).
  apply bind_panic in H as [H|(ondex & Ho & H)]; [now apply read_ondex_np in H|].
  assert (index < 64 ^ ims z) as Bi.
  { assert (len (take (ims z) (drop (ihs z) s)) = ims z) as L by (rewrite len_take, len_drop; lia).
    apply b64_to_u32_inv in Hi; [|lia]. apply b64val_lt in Hi. now rewrite L in Hi. }
  assert (index < 262144) as Bi'.
  { assert (64 ^ ims z <= 64 ^ 3) by (apply N.pow_le_mono_r; lia). change (64 ^ 3) with 262144 in *. lia. }
  set (x := Ix hard [] index ondex) in *. change index with (i_index x) in H. change hard with (i_code x) in Hz.
  rewrite ifs_step', bind_Ok in H by auto. destruct (ixfs_facts x z Hz) as (A & B & _).
  destruct (len s <? ixfs x z) eqn:Elf; try discriminate.
  rewrite slice_str_ascii, bind_Ok, drop_0, N.sub_0_r in H by (auto; lia).
  assert (len (take (ixfs x z) s) = ixfs x z) as Lt by (rewrite len_take; lia).
  apply bind_panic in H as [H|(raw & _ & H)]; [|discriminate].
  assert (ipad z <> 0 \/ 0 < ils z -> ics z + 4 < ixfs x z) as Big.
  { intros Q. unfold ixfs. destruct (ivar z) eqn:Ev.
    - destruct (if_var _ _ F Ev) as (? & ? & ? & _). rewrite P2 in Q by auto. lia.
    - destruct (if_fix _ _ F Ev). lia. }
  rewrite from_str_ascii in H by (try apply ascii_take; auto; lia). rewrite bind_Ok in H. rewrite bind_Ok in H.
  destruct (ipad z =? 0) eqn:Ep; cbn [negb] in H.
  - apply bind_panic in H as [H|(paw & Hp & H)]; [now apply decode_np in H|].
    apply decode_iff in Hp. pose proof (len_encode paw) as Q. rewrite <- Hp, len_drop, Lt in Q.
    rewrite slice_bytes_in, bind_Ok in H by lia. destruct (negb _); [destruct (ils z =? 1); discriminate|].
    rewrite from_bytes_in in H by lia. discriminate.
  - apply bind_panic in H as [H|(paw & Hp & H)]; [now apply decode_np in H|].
    apply decode_iff in Hp. pose proof (len_encode paw) as Q. rewrite <- Hp, len_app, len_drop, Lt, len_repeat in Q.
    rewrite slice_bytes_in, bind_Ok in H by lia. destruct (negb _); [discriminate|].
    rewrite from_bytes_in in H by lia. discriminate.
Qed.

(** ** Construction *)
Definition other_index (code : bytes) (index : N) (ondex : option N) : N :=
  match ondex with Some o => o | None => if both_sig code then index else 0 end.

Lemma indexer_construct code z raw index ondex : lookup indexer_table code = Some z ->
  let n := (ixfs (Ix code [] index 0) z - ics z) * 3 / 4 in
  indexer_of_code_raw code raw index ondex =
  if 64 ^ ims z <=? index then Err EInvalidVarIndex
  else if match ondex with Some o => (0 <? ios z) && (64 ^ ios z <=? o) | None => false end then Err EInvalidVarIndex
  else if match ondex with Some _ => current_sig code | None => false end then Err EInvalidVarIndex
  else if match ondex with Some o => negb (both_sig code) && negb (o =? index) && (ios z =? 0) | None => false end then Err EInvalidVarIndex
  else if len raw <? n then Err EShortage
  else Ok (Ix code (take n raw) index (other_index code index ondex)).
Proof.
  intros H. cbv zeta. pose proof (ilookup_facts _ _ H) as F. pose proof (if_os _ _ F) as (O1 & O2 & O3 & O4 & O5).
  unfold indexer_of_code_raw. destruct code as [|c0 cr] eqn:Ec.
  { destruct (if_first _ _ F) as (? & ? & ? & E & _). discriminate. }
  rewrite <- Ec in *. clear c0 cr Ec. set (n := (ixfs (Ix code [] index 0) z - ics z) * 3 / 4).
  rewrite (proj2 (isizage_of_ok _ _) H), bind_Ok. cbv zeta. rewrite u32_sub_in by lia. rewrite bind_Ok. fold (ims z) (ics z).
  rewrite pow64_small by lia. rewrite bind_Ok. assert (64 ^ ims z <> 0) as Pn by (now apply N.pow_nonzero).
  replace (64 ^ ims z - 1 <? index) with (64 ^ ims z <=? index) by lia.
  destruct (64 ^ ims z <=? index) eqn:Ei; auto.
  match goal with |- bind ?t _ = _ => assert (t = if match ondex with Some o => (0 <? ios z) && (64 ^ ios z <=? o) | None => false end
     then Err EInvalidVarIndex else Ok tt) as -> end.
  { destruct ondex as [o|]; auto. destruct (0 <? ios z); cbn [andb]; auto. rewrite pow64_small by lia. rewrite bind_Ok.
    assert (64 ^ ios z <> 0) as Pn' by (now apply N.pow_nonzero). now replace (64 ^ ios z - 1 <? o) with (64 ^ ios z <=? o) by lia. }
  destruct (match ondex with Some o => (0 <? ios z) && (64 ^ ios z <=? o) | None => false end); auto. rewrite bind_Ok.
  assert (current_sig code && match ondex with Some _ => true | None => false end =
          match ondex with Some _ => current_sig code | None => false end) as ->.
  { destruct ondex; [apply andb_true_r|apply andb_false_r]. }
  destruct (match ondex with Some _ => current_sig code | None => false end); auto.
  match goal with |- bind ?t _ = _ => assert (t =
     if match ondex with Some o => negb (both_sig code) && negb (o =? index) && (ios z =? 0) | None => false end then Err EInvalidVarIndex
     else Ok (if both_sig code then Some (other_index code index ondex) else ondex)) as -> end.
  { unfold other_index. destruct ondex as [o|]; destruct (both_sig code); cbn [negb andb]; auto. }
  destruct (match ondex with Some o => negb (both_sig code) && negb (o =? index) && (ios z =? 0) | None => false end); auto. rewrite bind_Ok.
  set (x := Ix code [] index 0). change index with (i_index x) at 1. change code with (i_code x) in H.
  assert (index < 262144) as Hs.
  { assert (64 ^ ims z <= 64 ^ 3) by (apply N.pow_le_mono_r; lia). change (64 ^ 3) with 262144 in *. lia. }
  rewrite ifs_step by auto. rewrite bind_Ok. destruct (ixfs_facts x z H) as (A & B & C).
  rewrite u32_sub_in by lia. rewrite bind_Ok. rewrite u32_mul_in by (unfold u32_max; specialize (C Hs); lia). rewrite bind_Ok.
  fold x in n. fold n. destruct (len raw <? n) eqn:E; auto. rewrite slice_bytes_in by lia. rewrite bind_Ok, drop_0, N.sub_0_r.
  do 2 f_equal. unfold other_index. destruct (both_sig code), ondex; reflexivity.
Qed.

Lemma ifull_size_wf x z : lookup indexer_table (i_code x) = Some z -> i_index x < 262144 -> ifull_size x = Ok (ixfs x z).
Proof.
  intros H Hi. unfold ifull_size. rewrite (proj2 (isizage_of_ok _ _) H), bind_Ok. fold (ivar z). unfold ixfs.
  pose proof (ilookup_facts _ _ H) as F. destruct (ivar z) eqn:Ev; cbn [negb]; auto.
  destruct (if_var _ _ F Ev) as (E & _). unfold ics in E. rewrite u32_mul_in by (unfold u32_max; lia).
  rewrite bind_Ok, u32_add_in by (unfold u32_max; lia). unfold ics. f_equal. lia.
Qed.
