(** Proofs about parsing Matter text: inversion, panics, truncation. *)
From Coq Require Import NArith ZArith Bool List Lia ZifyBool ZifyNat ZifyN.
From Verif Require Import Base BaseFacts B64 B64Facts Util UtilFacts Tables Matter MatterFacts MatterBin.
Import ListNotations.
Open Scope N_scope.
Ltac Zify.zify_post_hook ::= Z.div_mod_to_equations.

Lemma encode_lead_zero paw ps rest : ps <= 2 -> encode paw = repeat x41 (N.to_nat ps) ++ rest ->
  ps <= len paw -> be_val (take ps paw) mod 2 ^ (2 * ps) = 0 -> take ps paw = zeros ps.
Proof.
  intros Hp E L V. assert (ps = 0 \/ ps = 1 \/ ps = 2) as Hc by lia. destruct Hc as [Hc|[Hc|Hc]]; subst ps.
  - reflexivity.
  - destruct paw as [|x r]; [rewrite len_nilb in L; lia|].
    change (take 1 (x :: r)) with [x] in *. change (2 ^ (2 * 1)) with 4 in V.
    rewrite be_val_cons in V. change (be_val []) with 0 in V. change (256 ^ len (@nil byte)) with 1 in V.
    change (repeat x41 (N.to_nat 1)) with [x41] in E. cbn [app] in E. change x41 with (b64_char 0) in E.
    assert (b2n x < 4) as Hx.
    { destruct r as [|y [|z r]]; cbn [encode] in E; unfold enc3 in E; cbn [app] in E; inversion E as [[H1 H2]];
      byte_bounds; apply b64_char_inj in H1; lia. }
    change (zeros 1) with [x00]. f_equal. apply b2n_inj. change (b2n x00) with 0. lia.
  - destruct paw as [|x [|y r]]; [rewrite len_nilb in L; lia|rewrite len_cons, len_nilb in L; lia|].
    change (take 2 (x :: y :: r)) with [x; y] in *. change (2 ^ (2 * 2)) with 16 in V.
    rewrite !be_val_cons in V. change (be_val []) with 0 in V. change (256 ^ len (@nil byte)) with 1 in V.
    change (256 ^ len [y]) with 256 in V.
    change (repeat x41 (N.to_nat 2)) with [x41; x41] in E. cbn [app] in E. change x41 with (b64_char 0) in E.
    assert (b2n x = 0 /\ b2n y < 16) as [Hx Hy].
    { destruct r as [|z r]; cbn [encode] in E; unfold enc3 in E; cbn [app] in E; inversion E as [[H1 H2 H3]];
      byte_bounds; apply b64_char_inj in H1; try lia; apply b64_char_inj in H2; lia. }
    change (zeros 2) with [x00; x00]. f_equal; [|f_equal]; apply b2n_inj; change (b2n x00) with 0; lia.
Qed.

Lemma be_val_zero_zeros l : be_val l = 0 -> l = zeros (len l).
Proof. intros H. apply be_val_inj; [now rewrite len_zeros|]. rewrite H. symmetry. rewrite <- (app_nil_r (zeros _)). now rewrite be_val_zeros. Qed.

Lemma slice_str_ok' s a b r : slice_str s a b = Ok r -> a <= b /\ b <= len s /\ r = take (b - a) (drop a s).
Proof. intros H. apply slice_str_ok in H. tauto. Qed.
Lemma from_str_ok' s a r : from_str s a = Ok r -> a <= len s /\ r = drop a s.
Proof.
  intros H. unfold from_str in H. apply slice_str_ok' in H as (A & _ & ->). split; auto. apply take_all. rewrite len_drop. lia.
Qed.

Definition size_ok (m : matter) (z : sizage) : Prop := if var z then m_size m < 64 ^ ss z else m_size m = 0.

(** Everything the text parser accepts is the text of what it returns. *)
Lemma exfil_inv s m : exfil s = Ok m ->
  exists z rest, lookup matter_table (m_code m) = Some z /\ size_ok m z /\ s = mtext m z ++ rest /\
    len (mtext m z) = mfs m z.
Proof.
  intros H. unfold exfil in H. destruct s as [|first s0] eqn:Es0; try discriminate. rewrite <- Es0 in *. clear Es0 s0.
  apply bind_ok in H as (h & Hh & H). destruct (len s <? h) eqn:Elh; try discriminate.
  apply bind_ok in H as (hard & Hhard & H). apply bind_ok in H as (z & Hz & H). apply sizage_of_ok in Hz.
  pose proof (lookup_facts _ _ Hz) as F. pose proof (cs_cases _ _ F) as HC.
  pose proof (pad_le _ _ F) as (P1 & P2 & P3). pose proof (tf_ls _ _ F) as Hl.
  apply slice_str_ok' in Hhard as (_ & _ & Ehard). rewrite drop_0, N.sub_0_r in Ehard.
  assert (h = hs z) as Eh. { eapply sizage_hs_code; eauto. rewrite Ehard, len_take. lia. } subst h.
  cbv zeta in H. fold (var z) (pad z) in H.
  apply bind_ok in H as ((fs' & size) & Hfs & H). destruct (len s <? fs') eqn:Elf; try discriminate.
  apply bind_ok in H as (trim & Htrim & H). apply slice_str_ok' in Htrim as (_ & _ & Etrim).
  rewrite drop_0, N.sub_0_r in Etrim.
  apply bind_ok in H as (raw & Hraw & H). inversion H; subst m; clear H. cbn [m_code].
  set (m := Mt hard size raw). exists z, (drop fs' s). split; auto.
  assert (size_ok m z /\ fs' = mfs m z /\ take (hs z + ss z) s = mboth m z) as (Hsz & Efs & Eboth).
  { unfold size_ok, mfs, mboth. cbn [m_code m_size m_raw m]. destruct (var z) eqn:Ev.
    - rewrite P2 in Hfs by auto. change (negb (0 =? 0)) with false in Hfs. cbv iota in Hfs.
      destruct (len s <? hs z + ss z) eqn:Ec; try discriminate.
      apply bind_ok in Hfs as (soft & Hsoft & Hfs). apply slice_str_ok' in Hsoft as (_ & _ & Esoft).
      replace (hs z + ss z - hs z) with (ss z) in Esoft by lia.
      assert (ss z <= 4) as Hss by (destruct (tf_var _ _ F Ev); lia).
      apply bind_ok in Hfs as (sz & Hs & Hfs). apply bind_ok in Hfs as (q & Hq & Hfs).
      apply bind_ok in Hfs as (f & Hf & Hfs). inversion Hfs; subst f sz; clear Hfs.
      unfold u32_mul in Hq. destruct (size * 4 <=? u32_max); try discriminate. inversion Hq; subst q.
      unfold u32_add in Hf. destruct (_ <=? u32_max); try discriminate. inversion Hf; subst fs'. clear Hf Hq.
      assert (len soft = ss z) as Lsoft by (rewrite Esoft, len_take, len_drop; lia).
      apply b64_to_u32_inv in Hs; [|lia]. pose proof (b64val_lt _ _ Hs) as Bsz. rewrite Lsoft in Bsz.
      repeat split; auto; [lia|]. rewrite <- (take_drop (hs z) (take (hs z + ss z) s)). f_equal.
      + rewrite Ehard, take_take. f_equal. lia.
      + rewrite <- take_drop_comm, <- Esoft. apply b64_digits_val in Hs. rewrite <- Hs. f_equal. unfold len in Lsoft. lia.
    - destruct (tf_fix _ _ F Ev) as (E1 & _). inversion Hfs; subst fs' size. repeat split; auto.
      rewrite E1, N.add_0_r, app_nil_r. now symmetry. }
  split; auto.
  assert (take fs' s = mtext m z) as ET.
  { rewrite <- Etrim. rewrite <- (take_drop (hs z + ss z) trim). unfold mtext. 
    assert (len trim = fs') as Ltrim by (rewrite Etrim, len_take; lia).
    assert (hs z + ss z <= fs' /\ take (hs z + ss z) trim = mboth m z) as (Lcs & Ecs).
    { assert (hs z + ss z <= fs') as Q.
      { destruct (pad z =? 0) eqn:Ep; cbn [negb] in Hraw;
        apply bind_ok in Hraw as (rest & Hrest & _); apply from_str_ok' in Hrest; lia. }
      split; auto. rewrite <- Eboth, Etrim, take_take. f_equal. lia. }
    rewrite Ecs. f_equal. replace (m_raw m) with raw by reflexivity.
    destruct (pad z =? 0) eqn:Ep; cbn [negb] in Hraw.
    - assert (pad z = 0) as P0 by lia. rewrite P0, N.add_0_l, drop_0.
      apply bind_ok in Hraw as (rest & Hrest & Hraw). apply from_str_ok' in Hrest as (_ & Erest).
      apply bind_ok in Hraw as (paw & Hpaw & Hraw). apply decode_iff in Hpaw.
      apply bind_ok in Hraw as (lead & Hlead & Hraw). apply slice_bytes_ok in Hlead as (_ & Ll & Elead).
      rewrite drop_0, N.sub_0_r in Elead.
      destruct (be_val lead =? 0) eqn:Ez; cbn [negb] in Hraw; [|destruct (ls z =? 1); discriminate].
      apply from_bytes_ok in Hraw as (_ & Eraw). rewrite Eraw.
      assert (zeros (ls z) = take (ls z) paw) as ->.
      { rewrite <- Elead. rewrite (be_val_zero_zeros lead) by lia. f_equal. rewrite Elead, len_take. lia. }
      rewrite take_drop. rewrite <- Erest. now symmetry.
    - assert (ls z = 0) as L0 by lia. rewrite L0, N.add_0_r.
      apply bind_ok in Hraw as (rest & Hrest & Hraw). apply from_str_ok' in Hrest as (_ & Erest).
      apply bind_ok in Hraw as (paw & Hpaw & Hraw). apply decode_iff in Hpaw.
      apply bind_ok in Hraw as (lead & Hlead & Hraw). apply slice_bytes_ok in Hlead as (_ & Ll & Elead).
      rewrite drop_0, N.sub_0_r in Elead.
      destruct (be_val lead mod 2 ^ (2 * pad z) =? 0) eqn:Ez; cbn [negb] in Hraw; try discriminate.
      apply from_bytes_ok in Hraw as (_ & Eraw). rewrite Eraw.
      rewrite <- (encode_lead_zero paw (pad z) rest); auto; [|subst lead; lia].
      rewrite take_drop. rewrite <- Hpaw. rewrite drop_app_exact; [now symmetry|].
      unfold len. rewrite repeat_length. lia. }
  rewrite <- ET. split; [symmetry; apply take_drop|]. rewrite len_take. lia.
Qed.

(** ** Which parsed values have the prescribed raw size *)
Lemma whole_raw_len m z : lookup matter_table (m_code m) = Some z -> size_ok m z -> len (mtext m z) = mfs m z ->
  (pad z + ls z + len (m_raw m)) mod 3 = 0 -> raw_len_ok m z.
Proof.
  intros H Hs L D. pose proof (lookup_facts _ _ H) as F. pose proof (pad_le _ _ F) as (P1 & P2 & P3).
  pose proof (tf_ls _ _ F) as Hl. unfold mtext in L. rewrite len_app, len_mboth in L by auto.
  rewrite len_drop, len_encode, len_app, len_zeros in L.
  unfold raw_len_ok, size_ok, mfs in *. destruct (var z) eqn:Ev.
  - rewrite P2 in * by auto. split; auto. lia.
  - destruct (tf_fix _ _ F Ev) as (E & H1 & H2 & H3 & H4 & H5). split; auto. unfold pad in *. rewrite E in *. lia.
Qed.

Lemma infil_ok_mod m z t : lookup matter_table (m_code m) = Some z -> infil m = Ok t ->
  (pad z + ls z + len (m_raw m)) mod 3 = 0.
Proof.
  intros H Hi. pose proof (lookup_facts _ _ H) as F. pose proof (pad_le _ _ F) as (P1 & P2 & P3).
  pose proof (tf_ls _ _ F) as Hl. unfold infil in Hi. rewrite (proj2 (sizage_of_ok _ _) H), bind_Ok in Hi. cbv zeta in Hi.
  fold (var z) (pad z) in Hi. destruct (var z) eqn:Ev.
  - rewrite P2 in * by auto. change (negb (0 =? 0)) with false in Hi. cbv iota in Hi.
    apply bind_ok in Hi as (p & _ & Hi). destruct (p - 1 <? m_size m); try discriminate.
    match type of Hi with (if ?c then _ else _) = _ => destruct c; try discriminate end.
    destruct (len (zeros (ls z) ++ m_raw m) mod 3 =? 0) eqn:E3; cbn [negb] in Hi; try discriminate.
    rewrite len_app, len_zeros in E3. lia.
  - destruct (tf_fix _ _ F Ev) as (E & _). rewrite (tf_len _ _ F) in Hi.
    apply bind_ok in Hi as (d & Hd & Hi). apply u32_sub_ok in Hd as [Hd ->].
    destruct (hs z mod 4 =? (3 - len (m_raw m) mod 3) mod 3 - ls z) eqn:E3; cbn [negb] in Hi; try discriminate.
    unfold pad in *. rewrite E in *. lia.
Qed.

(** Parsed and printable means well formed and printing gives the input back. *)
Lemma exfil_infil s m t : exfil s = Ok m -> infil m = Ok t -> wf_matter m /\ exists rest, s = t ++ rest.
Proof.
  intros H Hi. apply exfil_inv in H as (z & rest & Hz & Hs & E & L).
  assert (raw_len_ok m z) as W by (apply whole_raw_len; auto; eapply infil_ok_mod; eauto).
  rewrite (infil_wf m z Hz W) in Hi. inversion Hi; subst t. split; [exists z; auto|]. now exists rest.
Qed.

Lemma is_b64_pad : is_b64 pad_char = false. Proof. reflexivity. Qed.

Lemma encode_nopad_mod l : ~ In pad_char (encode l) -> len l mod 3 = 0.
Proof.
  induction l as [|a|a b|a b c r IH] using list_ind3; intros H.
  - reflexivity.
  - exfalso. apply H. cbn [encode]. simpl. auto.
  - exfalso. apply H. cbn [encode]. simpl. auto 6.
  - rewrite encode_cons3 in H. assert (len r mod 3 = 0) as Q. { apply IH. intros Hin. apply H. apply in_or_app. now right. }
    rewrite !len_cons. lia.
Qed.

Lemma is_b64s_nopad l : is_b64s l = true -> ~ In pad_char l.
Proof. intros H Hin. unfold is_b64s in H. rewrite forallb_forall in H. apply H in Hin. now rewrite is_b64_pad in Hin. Qed.

Lemma In_drop {A} (x : A) n l : In x (drop n l) -> In x l.
Proof. intros H. rewrite <- (take_drop n l). apply in_or_app. now right. Qed.
Lemma In_take {A} (x : A) n l : In x (take n l) -> In x l.
Proof. intros H. rewrite <- (take_drop n l). apply in_or_app. now left. Qed.

Lemma encode_zeros_any ps raw : ps <= 2 -> exists t, encode (zeros ps ++ raw) = repeat x41 (N.to_nat ps) ++ t.
Proof.
  intros Hp. assert (ps = 0 \/ ps = 1 \/ ps = 2) as Hc by lia. destruct Hc as [Hc|[Hc|Hc]]; subst ps.
  - eexists. reflexivity.
  - change (zeros 1) with [x00]. destruct raw as [|a [|b r]]; cbn [app encode]; unfold enc3; cbn [app]; eexists; reflexivity.
  - change (zeros 2) with [x00; x00]. destruct raw as [|a r]; cbn [app encode]; unfold enc3; cbn [app]; eexists; reflexivity.
Qed.

(** A text without base64 padding characters parses to a well formed primitive. *)
Lemma exfil_nopad_wf s m : exfil s = Ok m -> ~ In pad_char s -> wf_matter m.
Proof.
  intros H Hp. apply exfil_inv in H as (z & rest & Hz & Hs & E & L). exists z. split; auto.
  apply whole_raw_len; auto. pose proof (lookup_facts _ _ Hz) as F. pose proof (pad_le _ _ F) as (P1 & P2 & P3).
  pose proof (encode_nopad_mod (zeros (pad z + ls z) ++ m_raw m)) as Q. rewrite len_app, len_zeros in Q. apply Q.
  intros Hin. apply Hp. rewrite E. apply in_or_app. left. unfold mtext. apply in_or_app. right.
  rewrite zeros_app, <- app_assoc in *. destruct (encode_zeros_any (pad z) (zeros (ls z) ++ m_raw m)) as (t & Et); auto.
  rewrite Et in *. rewrite drop_app_exact by (unfold len; rewrite repeat_length; lia).
  apply in_app_or in Hin as [Hin|Hin]; auto. apply repeat_spec in Hin. discriminate.
Qed.

Lemma wf_nopad m z : lookup matter_table (m_code m) = Some z -> raw_len_ok m z -> ~ In pad_char (mtext m z).
Proof. intros. apply is_b64s_nopad. now apply mtext_b64. Qed.

(** ** Panics *)
Lemma bind_np {A B} (r : R A) (k : A -> R B) : r <> Panic -> (forall a, r = Ok a -> k a <> Panic) -> bind r k <> Panic.
Proof. destruct r; simpl; auto; congruence. Qed.
Lemma bind_panic {A B} (r : R A) (k : A -> R B) : bind r k = Panic -> r = Panic \/ exists a, r = Ok a /\ k a = Panic.
Proof. destruct r; simpl; auto; try discriminate. intros H. right. eauto. Qed.

Lemma decode_np s : decode s <> Panic.
Proof.
  induction s as [|a|a b|a b c|a b c d r IH] using list_ind4; try discriminate.
  destruct r as [|e r].
  - cbn [decode]. unfold dec_last, dec4.
    repeat match goal with |- context [if ?c then _ else _] => destruct c | |- context [match ?c with Some _ => _ | None => _ end] => destruct c end; discriminate.
  - rewrite decode_cons4. apply bind_np.
    + unfold dec4. repeat match goal with |- context [match ?c with Some _ => _ | None => _ end] => destruct c end; discriminate.
    + intros x _. apply bind_np; auto. discriminate.
Qed.

Lemma hardage_np f : hardage f <> Panic.
Proof. unfold hardage. cbv zeta. repeat match goal with |- context [if ?c then _ else _] => destruct c end; discriminate. Qed.
Lemma hardage_val f h : hardage f = Ok h -> h = 1 \/ h = 2 \/ h = 4.
Proof.
  unfold hardage. cbv zeta.
  repeat match goal with |- context [if ?c then _ else _] => destruct c end; intros H; inversion H; auto.
Qed.
Lemma bardage_np f : bardage f <> Panic.
Proof. unfold bardage. repeat match goal with |- context [if ?c then _ else _] => destruct c end; discriminate. Qed.
Lemma bardage_val f h : bardage f = Ok h -> h = 1 \/ h = 2 \/ h = 4.
Proof.
  unfold bardage. repeat match goal with |- context [if ?c then _ else _] => destruct c end; intros H; inversion H; auto.
Qed.

(** Codes with lead bytes and a zero size: the material is too short to hold the lead bytes. *)
Definition degenerate (s : bytes) : Prop :=
  exists code z rest, lookup matter_table code = Some z /\ var z = true /\ 0 < ls z /\
    s = code ++ b64_digits (N.to_nat (ss z)) 0 ++ rest.

Lemma exfil_panic s : ascii s = true -> ~ In pad_char s -> exfil s = Panic -> degenerate s.
Proof.
  intros Ha Hp H. unfold exfil in H. destruct s as [|first s0] eqn:Es0; try discriminate. rewrite <- Es0 in *. clear Es0 s0.
  apply bind_panic in H as [H|(h & Hh & H)]; [now apply hardage_np in H|].
  destruct (len s <? h) eqn:Elh; try discriminate.
  rewrite slice_str_ascii, bind_Ok in H by (auto; lia). rewrite drop_0, N.sub_0_r in H.
  apply bind_panic in H as [H|(z & Hz & H)]; [now apply sizage_of_np in H|]. apply sizage_of_ok in Hz.
  pose proof (lookup_facts _ _ Hz) as F. pose proof (cs_cases _ _ F) as HC.
  pose proof (pad_le _ _ F) as (P1 & P2 & P3). pose proof (tf_ls _ _ F) as Hl.
  assert (h = hs z) as Eh. { eapply sizage_hs_code; eauto. rewrite len_take. lia. } subst h.
  cbv zeta in H. fold (var z) (pad z) in H.
  assert (forall fs' size, (if var z then fs' = size * 4 + (hs z + ss z) /\ (size = 0 -> degenerate s \/ ls z = 0) else fs' = fs z) ->
     (if len s <? fs' then @Err matter EShortage
      else
       let* trim := slice_str s 0 fs' in
       let* raw :=
         if negb (pad z =? 0) then
           let* rest := from_str trim (hs z + ss z) in
           let* paw := decode (repeat x41 (N.to_nat (pad z)) ++ rest) in
           let* lead := slice_bytes paw 0 (pad z) in
           if negb (be_val lead mod 2 ^ (2 * pad z) =? 0) then Err EPrepad else from_bytes paw (pad z)
         else
           let* rest := from_str trim (hs z + ss z) in
           let* paw := decode rest in
           let* lead := slice_bytes paw 0 (ls z) in
           if negb (be_val lead =? 0) then if ls z =? 1 then Err ENonZeroedLeadByte else Err ENonZeroedLeadBytes
           else from_bytes paw (ls z) in
       Ok (Mt (take (hs z) s) size raw)) = Panic -> degenerate s) as Main.
  { clear H. intros fs' size Hf H. destruct (len s <? fs') eqn:Elf; try discriminate.
    rewrite slice_str_ascii, bind_Ok in H by (auto; lia). rewrite drop_0, N.sub_0_r in H.
    assert (Lt : len (take fs' s) = fs') by (rewrite len_take; lia).
    assert (hs z + ss z <= fs' /\ (pad z <> 0 -> pad z <= 3 * ((pad z + fs' - (hs z + ss z)) / 4)) /\
      (pad z = 0 -> fs' mod 4 = 0 /\ (degenerate s \/ ls z <= 3 * ((fs' - (hs z + ss z)) / 4)))) as (Lf & Lp & Lz).
    { destruct (var z) eqn:Ev.
      - destruct Hf as [-> Hf]. rewrite P2 by auto. split; [lia|]. split; [lia|]. intros _. split; [unfold pad in P2; specialize (P2 eq_refl); lia|].
        replace (size * 4 + (hs z + ss z) - (hs z + ss z)) with (size * 4) by lia. rewrite N.div_mul by lia.
        destruct (N.eq_dec size 0) as [E|E]; [destruct (Hf E); [left; auto|right; lia]|right; lia].
      - subst fs'. destruct (tf_fix _ _ F Ev) as (E1 & E2 & E3 & E4 & E5 & E6). unfold pad in *. rewrite E1 in *.
        split; [lia|]. split; [lia|]. intros. split; [lia|]. right. lia. }
    assert (forall n, ~ In pad_char (drop n (take fs' s))) as Hd. { intros n Hin. now apply In_drop, In_take in Hin. }
    apply bind_panic in H as [H|(? & _ & H)]; [|discriminate].
    destruct (pad z =? 0) eqn:Ep; cbn [negb] in H.
    - rewrite from_str_ascii, bind_Ok in H by (try apply ascii_take; auto; lia).
      apply bind_panic in H as [H|(paw & Hpaw & H)]; [now apply decode_np in H|].
      apply decode_iff in Hpaw. assert (len paw mod 3 = 0) as M3. { apply encode_nopad_mod. rewrite <- Hpaw. apply Hd. }
      assert (len paw = 3 * ((fs' - (hs z + ss z)) / 4)) as Lpaw.
      { pose proof (len_encode paw) as Q. rewrite <- Hpaw, len_drop, Lt in Q. lia. }
      destruct Lz as (M4 & [D|Lz]); [lia|auto|].
      rewrite slice_bytes_in, bind_Ok in H by lia.
      destruct (negb _); [destruct (ls z =? 1); discriminate|]. rewrite from_bytes_in in H by lia. discriminate.
    - rewrite from_str_ascii, bind_Ok in H by (try apply ascii_take; auto; lia).
      apply bind_panic in H as [H|(paw & Hpaw & H)]; [now apply decode_np in H|].
      apply decode_iff in Hpaw. assert (len paw mod 3 = 0) as M3.
      { apply encode_nopad_mod. rewrite <- Hpaw. intros Hin. apply in_app_or in Hin as [Hin|Hin].
        - apply repeat_spec in Hin. discriminate.
        - now apply Hd in Hin. }
      assert (len paw = 3 * ((pad z + fs' - (hs z + ss z)) / 4)) as Lpaw.
      { pose proof (len_encode paw) as Q. rewrite <- Hpaw, len_app, len_drop, Lt in Q. unfold len at 1 in Q. rewrite repeat_length in Q. lia. }
      rewrite slice_bytes_in, bind_Ok in H by lia.
      destruct (negb _); [discriminate|]. rewrite from_bytes_in in H by lia. discriminate. }
  destruct (var z) eqn:Ev.
  - rewrite P2 in H by auto. change (negb (0 =? 0)) with false in H. cbv iota in H.
    destruct (len s <? hs z + ss z) eqn:Ec; try discriminate.
    rewrite slice_str_ascii, bind_Ok in H by (auto; lia).
    replace (hs z + ss z - hs z) with (ss z) in H by lia.
    assert (ss z <= 4) as Hss by (destruct (tf_var _ _ F Ev); lia).
    assert (len (take (ss z) (drop (hs z) s)) = ss z) as Lsoft by (rewrite len_take, len_drop; lia).
    destruct (b64_to_u32 (take (ss z) (drop (hs z) s))) as [sz| |] eqn:Es; try discriminate.
    2:{ exfalso. revert Es. apply b64_to_uint_no_panic. }
    rewrite bind_Ok in H. apply b64_to_u32_inv in Es; [|lia]. pose proof (b64val_lt _ _ Es) as Bsz. rewrite Lsoft in Bsz.
    assert (64 ^ ss z <= 64 ^ 4) by (apply N.pow_le_mono_r; lia). change (64 ^ 4) with 16777216 in *.
    rewrite u32_mul_in, bind_Ok in H by (unfold u32_max; lia).
    rewrite u32_add_in, !bind_Ok in H by (unfold u32_max; lia). cbv iota beta in H.
    rewrite P2 in Main by auto.
    apply (Main (sz * 4 + (hs z + ss z)) sz); auto. split; auto. intros ->.
    destruct (N.eq_dec (ls z) 0) as [L0|L0]; [now right|left].
    exists (take (hs z) s), z, (drop (hs z + ss z) s). repeat split; auto; [lia|].
    apply b64_digits_val in Es. replace (length (take (ss z) (drop (hs z) s))) with (N.to_nat (ss z)) in Es by (unfold len in Lsoft; lia).
    rewrite Es. rewrite <- (take_drop (hs z) s) at 1. f_equal. rewrite <- (take_drop (ss z) (drop (hs z) s)) at 1.
    now rewrite drop_drop.
  - rewrite bind_Ok in H. cbv iota beta in H. now apply (Main (fs z) 0).
Qed.

Lemma degenerate_panics s : utf8 s = true -> degenerate s -> exfil s = Panic.
Proof.
  intros Hu (code & z & rest & Hz & Ev & Hl & Es).
  pose proof (lookup_facts _ _ Hz) as F. pose proof (pad_le _ _ F) as (P1 & P2 & P3). pose proof (tf_ls _ _ F) as Hl2.
  destruct (tf_first _ _ F) as (f & r & i & Ec & Hhard & _ & _).
  set (both := code ++ b64_digits (N.to_nat (ss z)) 0) in *.
  assert (s = both ++ rest) as Es' by (unfold both; now rewrite <- app_assoc). clear Es.
  assert (len both = hs z + ss z) as Lb by (unfold both; rewrite len_app, (tf_len _ _ F), len_b64_digits; lia).
  assert (ascii both = true) as Ha.
  { apply is_b64s_ascii. unfold both. now rewrite is_b64s_app, (tf_b64 _ _ F), is_b64s_digits. }
  assert (exists s0, s = f :: s0) as (s0 & Es0) by (rewrite Es'; unfold both; rewrite Ec; cbn [app]; eauto).
  unfold exfil. rewrite Es0. rewrite Hhard, bind_Ok. rewrite <- Es0.
  assert (len s = hs z + ss z + len rest) as Ls by (rewrite Es', len_app; lia).
  replace (len s <? hs z) with false by lia.
  rewrite Es' at 1. rewrite slice_str_ascii_prefix by (try lia; auto; rewrite Es' in Hu; now rewrite utf8_ascii_app in Hu).
  rewrite bind_Ok, drop_0, N.sub_0_r.
  assert (take (hs z) both = code) as -> by (unfold both; apply take_app_exact, (tf_len _ _ F)).
  rewrite (proj2 (sizage_of_ok _ _) Hz), bind_Ok. cbv zeta. fold (var z) (pad z). rewrite Ev, P2 by auto.
  change (negb (0 =? 0)) with false. cbv iota. replace (len s <? hs z + ss z) with false by lia.
  rewrite Es' at 1. rewrite slice_str_ascii_prefix by (try lia; auto; rewrite Es' in Hu; now rewrite utf8_ascii_app in Hu).
  rewrite bind_Ok. unfold both at 1. rewrite drop_app_exact by apply (tf_len _ _ F).
  rewrite take_all by (rewrite len_b64_digits; lia).
  assert (ss z <= 4) as Hss by (destruct (tf_var _ _ F Ev); lia).
  rewrite (b64_to_u32_exact _ 0); [|rewrite b64val_digits, N.mod_small; auto; apply N.neq_0_lt_0, N.pow_nonzero; lia|rewrite len_b64_digits; lia].
  rewrite bind_Ok. cbn [u32_mul]. change (u32_mul 0 4) with (@Ok N 0). rewrite bind_Ok.
  rewrite u32_add_in by (unfold u32_max; destruct (tf_var _ _ F Ev); lia). rewrite !bind_Ok. cbv iota beta.
  rewrite N.add_0_l. replace (len s <? hs z + ss z) with false by lia.
  rewrite Es'. rewrite slice_str_ascii_prefix by (try lia; auto; rewrite Es' in Hu; now rewrite utf8_ascii_app in Hu).
  rewrite bind_Ok, drop_0, N.sub_0_r. rewrite (take_all (hs z + ss z) both) by lia.
  rewrite from_str_ascii by (auto; lia). rewrite drop_all by lia. rewrite bind_Ok. cbn [decode]. rewrite bind_Ok.
  unfold slice_bytes. rewrite len_nilb. replace (ls z <=? 0) with false by lia. now rewrite andb_false_r.
Qed.

Lemma bexfil_panic b : bexfil b = Panic <-> exists code z rest, lookup matter_table code = Some z /\ var z = true /\ 0 < ls z /\
  b = bcode (code ++ b64_digits (N.to_nat (ss z)) 0) ++ rest.
Proof.
  split.
  - intros H. unfold bexfil in H. destruct b as [|b0 bs] eqn:Eb0; try discriminate. rewrite <- Eb0 in *.
    assert (1 <= len b) as Lb1 by (rewrite Eb0, len_cons; lia). clear Eb0 b0 bs.
    destruct (nab_sextets_spec b 1) as (l & Hl1 & Ml & _); [lia|lia|unfold nbytes; lia|].
    rewrite Hl1, bind_Ok in H. assert (len (take 1 (encode b)) = 1) as L1 by (rewrite len_take, len_encode; lia).
    destruct l as [|first l]; [rewrite <- Ml in L1; discriminate|].
    apply bind_panic in H as [H|(h & Hh & H)]; [now apply bardage_np in H|]. cbv zeta in H.
    apply bardage_val in Hh. assert ((h * 3 + 3) / 4 = nbytes h) as Enh by (unfold nbytes; lia). rewrite Enh in *.
    destruct (len b <? nbytes h) eqn:Ehl; try discriminate.
    rewrite code_b2_to_b64_spec, bind_Ok in H by lia.
    apply bind_panic in H as [H|(z & Hz & H)]; [now apply sizage_of_np in H|]. apply sizage_of_ok in Hz.
    pose proof (lookup_facts _ _ Hz) as F. pose proof (cs_cases _ _ F) as HC.
    pose proof (pad_le _ _ F) as (P1 & P2 & P3). pose proof (tf_ls _ _ F) as Hl.
    assert (h = hs z) as Eh. { eapply sizage_hs_code; eauto. rewrite len_take, len_encode. unfold nbytes in *. lia. } subst h.
    fold (var z) (pad z) (nbytes (hs z + ss z)) in H.
    assert (forall fs' size, nbytes (hs z + ss z) <= (fs' + 1) * 3 / 4 ->
       (if len b <? (fs' + 1) * 3 / 4 then @Err matter EShortage
        else
         let* trim := slice_bytes b 0 ((fs' + 1) * 3 / 4) in
         let* _u :=
           if negb (pad z =? 0) then
             match nth_error trim (N.to_nat (nbytes (hs z + ss z) - 1)) with
             | Some p => if negb (b2n p mod 2 ^ (2 * pad z) =? 0) then Err ENonZeroedPadBits else Ok tt
             | None => Panic
             end
           else if forallb (fun b => Byte.eqb b x00) (drop (nbytes (hs z + ss z)) (take (nbytes (hs z + ss z) + ls z) trim))
           then Ok tt else if ls z =? 1 then Err ENonZeroedLeadByte else Err ENonZeroedLeadBytes in
         let* raw := from_bytes trim (nbytes (hs z + ss z) + ls z) in Ok (Mt (take (hs z) (encode b)) size raw)) = Panic ->
       (fs' + 1) * 3 / 4 < nbytes (hs z + ss z) + ls z /\ (fs' + 1) * 3 / 4 <= len b) as Main.
    { clear H. intros fs' size Hf H. destruct (len b <? (fs' + 1) * 3 / 4) eqn:Elf; try discriminate.
      rewrite slice_bytes_in, bind_Ok in H by lia. rewrite drop_0, N.sub_0_r in H.
      apply bind_panic in H as [H|(? & _ & H)].
      - exfalso. destruct (pad z =? 0) eqn:Ep; cbn [negb] in H.
        + destruct (forallb _ _); try discriminate. destruct (ls z =? 1); discriminate.
        + destruct (nth_error _ _) eqn:En in H.
          * destruct (negb _); discriminate.
          * apply nth_error_None in En. change (len (take ((fs' + 1) * 3 / 4) b) <= nbytes (hs z + ss z) - 1) in En || idtac.
            assert (len (take ((fs' + 1) * 3 / 4) b) = (fs' + 1) * 3 / 4) as Q by (rewrite len_take; lia).
            unfold len in Q at 1. unfold nbytes in *. lia.
      - apply bind_panic in H as [H|(? & _ & H)]; [|discriminate].
        destruct (N.leb_spec (nbytes (hs z + ss z) + ls z) ((fs' + 1) * 3 / 4)) as [Q|Q]; [|lia].
        rewrite from_bytes_in in H by (rewrite len_take; lia). discriminate. }
    destruct (var z) eqn:Ev.
    + specialize (P2 eq_refl). rewrite P2 in H. change (negb (0 =? 0)) with false in H. cbv iota in H.
      destruct (len b <? nbytes (hs z + ss z)) eqn:Ec; try discriminate.
      rewrite code_b2_to_b64_spec, bind_Ok in H by lia.
      set (both := take (hs z + ss z) (encode b)) in *.
      assert (len both = hs z + ss z) as Lboth. { unfold both. rewrite len_take, len_encode. unfold nbytes in Ec. lia. }
      rewrite slice_str_ascii, bind_Ok in H by (try apply ascii_take, encode_ascii; lia).
      replace (hs z + ss z - hs z) with (ss z) in H by lia.
      assert (ss z <= 4) as Hss by (destruct (tf_var _ _ F Ev); lia).
      assert (len (take (ss z) (drop (hs z) both)) = ss z) as Lsoft by (rewrite len_take, len_drop; lia).
      destruct (b64_to_u32 (take (ss z) (drop (hs z) both))) as [sz| |] eqn:Es; try discriminate.
      2:{ exfalso. revert Es. apply b64_to_uint_no_panic. }
      rewrite bind_Ok in H. apply b64_to_u32_inv in Es; [|lia]. pose proof (b64val_lt _ _ Es) as Bsz. rewrite Lsoft in Bsz.
      assert (64 ^ ss z <= 64 ^ 4) by (apply N.pow_le_mono_r; lia). change (64 ^ 4) with 16777216 in *.
      rewrite u32_mul_in, bind_Ok in H by (unfold u32_max; lia).
      rewrite u32_add_in, !bind_Ok in H by (unfold u32_max; lia). cbv iota beta in H.
      rewrite P2 in Main. apply Main in H as [H1 H2]; [|unfold nbytes; lia].
      assert (sz = 0 /\ 0 < ls z) as [E0 L0]. { unfold nbytes, pad in *. lia. } subst sz.
      exists (take (hs z) both), z, (drop (nbytes (hs z + ss z)) b).
      assert (take (hs z) both = take (hs z) (encode b)) as Eth by (unfold both; rewrite take_take; f_equal; lia).
      rewrite Eth at 1. split; auto. split; auto. split; auto.
      apply b64_digits_val in Es. replace (length (take (ss z) (drop (hs z) both))) with (N.to_nat (ss z)) in Es by (unfold len in Lsoft; lia).
      rewrite Es. rewrite (take_all (ss z)) by (rewrite len_drop; lia). rewrite take_drop.
      rewrite <- (take_drop (nbytes (hs z + ss z)) b) at 1. f_equal.
      assert (Hcs : 0 < hs z + ss z) by lia.
      assert (len (take (nbytes (hs z + ss z)) b) = nbytes (hs z + ss z)) as LX by (rewrite len_take; lia).
      pose proof (encode_head (hs z + ss z) b) as EH. fold both in EH. rewrite EH in Lboth by lia.
      set (X := be_val (take (nbytes (hs z + ss z)) b)) in *.
      assert (X < 256 ^ nbytes (hs z + ss z)) as BX by (rewrite <- LX; apply be_val_lt).
      rewrite pow_nbytes8 in BX by lia. fold (pad z) in BX, EH. rewrite P2 in *. change (2 ^ (2 * 0)) with 1 in *.
      rewrite N.mul_1_r in BX. rewrite N.div_1_r in EH.
      assert (b64val both = Some X) as Vb. { rewrite EH by lia. rewrite b64val_digits, N2Nat.id. f_equal. now apply N.mod_small. }
      assert (len both = hs z + ss z) as Lboth'. { unfold both. rewrite len_take, len_encode. unfold nbytes in Ec. lia. }
      apply be_val_inj.
      * rewrite LX. destruct (bcode_val _ _ Vb) as (_ & ->); [lia|lia|]. now rewrite Lboth'.
      * destruct (bcode_val _ _ Vb) as (-> & _); [lia|lia|]. rewrite Lboth'. fold (pad z). rewrite P2. change (2 ^ (2 * 0)) with 1. fold X. lia.
    + rewrite bind_Ok in H. cbv iota beta in H. destruct (tf_fix _ _ F Ev) as (E1 & E2 & E3 & E4 & E5 & E6).
      apply Main in H; unfold nbytes, pad in *; rewrite E1 in *; lia.
  - intros (code & z & rest & Hz & Ev & Hl & Eb).
    pose proof (lookup_facts _ _ Hz) as F. pose proof (cs_cases _ _ F) as HC. pose proof (pad_le _ _ F) as (P1 & P2 & P3).
    pose proof (tf_ls _ _ F) as Hl2. destruct (tf_first _ _ F) as (f & r & i & Ec & _ & Ei & Ebard).
    specialize (P2 Ev). set (both := code ++ b64_digits (N.to_nat (ss z)) 0) in *.
    assert (len both = hs z + ss z) as Lboth by (unfold both; rewrite len_app, (tf_len _ _ F), len_b64_digits; lia).
    assert (is_b64s both = true) as Hb64 by (unfold both; now rewrite is_b64s_app, (tf_b64 _ _ F), is_b64s_digits).
    destruct (b64val_total _ Hb64) as (v & Hv). destruct (bcode_val _ _ Hv) as (V & L); [lia|lia|]. rewrite Lboth in *.
    assert (encode (bcode both) = both) as EB.
    { pose proof (encode_bcode both []) as Q. rewrite app_nil_r in Q. rewrite Q; auto; rewrite Lboth; auto; fold (pad z); rewrite P2; auto.
      - change (drop 0 (encode (zeros 0 ++ []))) with (@nil byte). apply app_nil_r. }
    assert (forall k, 1 <= k -> k <= hs z + ss z -> take k (encode b) = take k both /\ nbytes k <= len b) as TK.
    { intros k H1 H2. rewrite Eb. split.
      - rewrite encode_head_app by (try lia; rewrite L; unfold nbytes; lia). now rewrite EB.
      - rewrite len_app, L. unfold nbytes. lia. }
    unfold bexfil. destruct b as [|q qs] eqn:Eq.
    { destruct (TK 1); [lia|lia|]. rewrite len_nilb in *. unfold nbytes in *. lia. }
    rewrite <- Eq in *. clear q qs Eq.
    destruct (TK 1) as (T1 & N1); [lia|lia|].
    destruct (nab_sextets_spec b 1) as (l & -> & Ml & Fl); [lia|lia|lia|]. rewrite bind_Ok. rewrite T1 in Ml.
    assert (take 1 both = [f]) as Et by (unfold both; rewrite Ec; reflexivity).
    rewrite Et in Ml. destruct l as [|j [|? ?]]; try discriminate. cbn [map] in Ml. inversion Ml as [Ej].
    assert (j = i) as ->. { apply b64_index_Some in Ei as [Hi <-]. inversion Fl; subst. now apply b64_char_inj. }
    pose proof (tf_hs _ _ F) as Hhs. rewrite Ebard, bind_Ok. cbv zeta.
    destruct (TK (hs z)) as (Th & Nh); [lia|lia|].
    assert ((hs z * 3 + 3) / 4 = nbytes (hs z)) as -> by (unfold nbytes; lia).
    replace (len b <? nbytes (hs z)) with false by lia.
    rewrite code_b2_to_b64_spec by lia. rewrite bind_Ok, Th.
    assert (take (hs z) both = code) as -> by (unfold both; apply take_app_exact, (tf_len _ _ F)).
    rewrite (proj2 (sizage_of_ok _ _) Hz), bind_Ok. fold (var z) (pad z) (nbytes (hs z + ss z)). rewrite Ev, P2.
    change (negb (0 =? 0)) with false. cbv iota. destruct (TK (hs z + ss z)) as (Tc & Nc); [lia|lia|].
    replace (len b <? nbytes (hs z + ss z)) with false by lia.
    assert (ss z <= 4) as Hss by (destruct (tf_var _ _ F Ev); lia).
    rewrite code_b2_to_b64_spec by lia. rewrite bind_Ok, Tc. rewrite (take_all _ both) by lia.
    rewrite slice_str_ascii by (try (apply is_b64s_ascii; auto); lia). rewrite bind_Ok.
    unfold both at 1. rewrite drop_app_exact by apply (tf_len _ _ F). rewrite take_all by (rewrite len_b64_digits; lia).
    rewrite (b64_to_u32_exact _ 0); [|rewrite b64val_digits, N.mod_small; auto; apply N.neq_0_lt_0, N.pow_nonzero; lia|rewrite len_b64_digits; lia].
    rewrite bind_Ok. change (u32_mul 0 4) with (@Ok N 0). rewrite bind_Ok.
    rewrite u32_add_in by (unfold u32_max; lia). rewrite !bind_Ok. cbv iota beta. rewrite N.add_0_l.
    fold (nbytes (hs z + ss z)). replace (len b <? nbytes (hs z + ss z)) with false by lia.
    rewrite slice_bytes_in by lia. rewrite bind_Ok, drop_0, N.sub_0_r.
    assert (take (nbytes (hs z + ss z)) b = bcode both) as -> by (rewrite Eb; apply take_app_exact; auto).
    rewrite (take_all _ (bcode both)) by lia. rewrite (drop_all _ (bcode both)) by lia. cbn [forallb]. rewrite bind_Ok.
    unfold from_bytes, slice_bytes. rewrite L. replace (nbytes (hs z + ss z) + ls z <=? nbytes (hs z + ss z)) with false by lia. reflexivity.
Qed.
