(** Proofs of the Matter properties in the vocabulary of [Spec]. *)
From Coq Require Import String.
From Coq Require Import NArith ZArith Bool List Lia ZifyBool ZifyNat ZifyN.
From Verif Require Import Base BaseFacts B64 B64Facts Util UtilFacts Tables Matter MatterFacts MatterBin MatterText MatterMore Spec.
Import ListNotations.
Open Scope N_scope.
Ltac Zify.zify_post_hook ::= Z.div_mod_to_equations.

(** ** The published code lists are the table *)
Lemma codes_in_table : forallb (fun c => match lookup matter_table c with Some _ => true | None => false end) matter_codes = true.
Proof. vm_compute. reflexivity. Qed.
Lemma table_in_codes : forallb (fun e => existsb (beq (fst e)) matter_codes) matter_table = true.
Proof. vm_compute. reflexivity. Qed.
Lemma code_known c : In c matter_codes <-> exists z, lookup matter_table c = Some z.
Proof.
  split.
  - intros H. pose proof codes_in_table as T. rewrite forallb_forall in T. apply T in H. destruct (lookup _ _) as [z|]; try discriminate. eauto.
  - intros (z & H). apply lookup_In in H. pose proof table_in_codes as T. rewrite forallb_forall in T. apply T in H. cbn [fst] in H.
    apply existsb_exists in H as (c' & Hin & E). apply beq_eq in E. now subst.
Qed.

Lemma fixed_in_table : forallb (fun e => match lookup matter_table (fst e) with
   | Some z => negb (var z) && ((fs z - hs z) * 3 / 4 - ls z =? snd e) | None => false end) fixed_codes = true.
Proof. vm_compute. reflexivity. Qed.
Lemma fixed_known c n : In (c, n) fixed_codes -> exists z, lookup matter_table c = Some z /\ var z = false /\ (fs z - hs z) * 3 / 4 - ls z = n.
Proof.
  intros H. pose proof fixed_in_table as T. rewrite forallb_forall in T. apply T in H. cbn [fst snd] in H.
  destruct (lookup matter_table c) as [z|]; try discriminate. exists z. destruct (var z); cbn [negb andb] in H; try discriminate.
  repeat split; auto. lia.
Qed.

Lemma built_wf m : built m -> wf_matter m.
Proof. intros (code & raw & Hc & H). apply code_known in Hc as (z & Hz). eapply construct_wf'; eauto. Qed.

(** The forms of a well-formed primitive. *)
Lemma wf_forms m : wf_matter m -> exists z, lookup matter_table (m_code m) = Some z /\ raw_len_ok m z /\
  infil m = Ok (mtext m z) /\ binfil m = Ok (mbin m z).
Proof. intros (z & H & W). exists z. repeat split; auto using infil_wf, binfil_wf. Qed.

Lemma exfil_mtext0 m z : lookup matter_table (m_code m) = Some z -> raw_len_ok m z -> exfil (mtext m z) = Ok m.
Proof. intros H W. pose proof (exfil_mtext m z [] H W eq_refl) as E. now rewrite app_nil_r in E. Qed.
Lemma bexfil_mbin0 m z : lookup matter_table (m_code m) = Some z -> raw_len_ok m z -> bexfil (mbin m z) = Ok m.
Proof. intros H W. pose proof (bexfil_mbin m z [] H W) as E. now rewrite app_nil_r in E. Qed.

(*# C01_matter_text_round_trip
   Every primitive built from a code of the table prints, and its text (as a string or as bytes) parses back to it.
##
Example C01_case : In (s! "6B") matter_codes /\
  matter_of_code_raw (s! "6B") [x61; x62; x63; x64] = Ok (Mt (s! "6B") 2 [x61; x62; x63; x64]) /\
  infil (Mt (s! "6B") 2 [x61; x62; x63; x64]) = Ok (s! "6BACAABhYmNk").
Proof. repeat split; try (vm_compute; reflexivity). vm_compute. tauto. Qed.
#*)
Lemma C01_l (code raw : bytes) (m : matter) :
  In code matter_codes -> matter_of_code_raw code raw = Ok m ->
  exists t, infil m = Ok t /\ exfil t = Ok m /\ exfil_b t = Ok m.
Proof.
  intros Hc H. destruct (wf_forms m) as (z & Hz & W & I & _). { apply built_wf. exists code, raw. auto. }
  exists (mtext m z). repeat split; auto using exfil_mtext0. unfold exfil_b, from_utf8.
  rewrite utf8_ascii by now apply mtext_ascii. rewrite bind_Ok. now apply exfil_mtext0.
Qed.

(*# C02_matter_binary_round_trip
   Every primitive built from a code of the table has a binary form that parses back to it.
##
Example C02_case :
  matter_of_code_raw (s! "0H") [x01; x02; x03; x04] = Ok (Mt (s! "0H") 0 [x01; x02; x03; x04]) /\
  binfil (Mt (s! "0H") 0 [x01; x02; x03; x04]) = Ok [xd0; x70; x01; x02; x03; x04].
Proof. split; (vm_compute; reflexivity). Qed.
#*)
Lemma C02_l (code raw : bytes) (m : matter) :
  In code matter_codes -> matter_of_code_raw code raw = Ok m ->
  exists b, binfil m = Ok b /\ bexfil b = Ok m.
Proof.
  intros Hc H. destruct (wf_forms m) as (z & Hz & W & _ & B). { apply built_wf. exists code, raw. auto. }
  exists (mbin m z). split; auto. now apply bexfil_mbin0.
Qed.

Lemma wf_agree m t b : wf_matter m -> infil m = Ok t -> binfil m = Ok b -> encode b = t /\ len b mod 3 = 0.
Proof.
  intros Hw I B. destruct (wf_forms m Hw) as (z & Hz & W & I' & B'). rewrite I' in I. rewrite B' in B.
  inversion I; inversion B; subst. split; [now apply encode_mbin|]. destruct (len_mbin m z Hz W).
  destruct (raw_total m z Hz W) as (_ & _ & Q). lia.
Qed.

(*# C03_text_and_binary_agree
   The two forms of a built primitive are each other's base64url encoding.
##
Example C03_case : decode (s! "0HABAgME") = Ok [xd0; x70; x01; x02; x03; x04] /\
  encode [xd0; x70; x01; x02; x03; x04] = s! "0HABAgME".
Proof. split; (vm_compute; reflexivity). Qed.
#*)
Lemma C03_l (m : matter) : built m ->
  exists t b, infil m = Ok t /\ binfil m = Ok b /\ decode t = Ok b /\ encode b = t.
Proof.
  intros Hb. apply built_wf in Hb. destruct (wf_forms m Hb) as (z & Hz & W & I & B).
  exists (mtext m z), (mbin m z). assert (encode (mbin m z) = mtext m z) as E by now apply encode_mbin.
  repeat split; auto. rewrite <- E. apply decode_encode.
Qed.

(*# C03_concatenations_agree
   Concatenations of primitives convert between the domains as a whole, without parsing.
#*)
Lemma C03_concat_l (ms : list matter) (ts bs : list bytes) :
  Forall built ms -> Forall2 (fun m t => infil m = Ok t) ms ts -> Forall2 (fun m b => binfil m = Ok b) ms bs ->
  encode (concat bs) = concat ts /\ decode (concat ts) = Ok (concat bs).
Proof.
  intros Hm Ht Hb. assert (encode (concat bs) = concat ts) as E.
  { revert ts bs Ht Hb; induction ms as [|m ms IH]; intros ts bs Ht Hb; inversion Ht; inversion Hb; subst; auto.
    inversion Hm; subst. cbn [concat]. destruct (wf_agree m y y0) as [E1 E2]; auto using built_wf.
    rewrite encode_app, E1 by auto. f_equal. apply IH; auto. }
  split; auto. rewrite <- E. apply decode_encode.
Qed.

(*# C04_length_is_full_size
   The text has full_size characters, a whole number of quadlets; the binary form has three quarters as many bytes.
##
Example C04_case : matter_of_code_raw (s! "4A") (repeat x41 300) = Ok (Mt (s! "4A") 100 (repeat x41 300)) /\
  full_size (Mt (s! "4A") 100 (repeat x41 300)) = Ok 404.
Proof. split; (vm_compute; reflexivity). Qed.
#*)
Lemma C04_l (m : matter) : built m ->
  exists t b, infil m = Ok t /\ binfil m = Ok b /\ full_size m = Ok (len t) /\ len t mod 4 = 0 /\ 4 * len b = 3 * len t.
Proof.
  intros Hb. apply built_wf in Hb. destruct (wf_forms m Hb) as (z & Hz & W & I & B).
  exists (mtext m z), (mbin m z). rewrite len_mtext by auto. destruct (len_mbin m z Hz W). destruct (raw_total m z Hz W) as (_ & _ & Q).
  repeat split; auto. now apply full_size_wf.
Qed.

(*# C05_self_framing_text
   Whatever text follows, the parser returns exactly the primitive whose text comes first.
##
Example C05_case : exfil (s! "MAAB-and more") = Ok (Mt (s! "M") 0 [x00; x01]).
Proof. vm_compute. reflexivity. Qed.
#*)
Lemma C05_l (m : matter) (t rest : bytes) : built m -> infil m = Ok t -> utf8 rest = true ->
  exfil (t ++ rest) = Ok m /\ exfil t = Ok m.
Proof.
  intros Hb I Hu. apply built_wf in Hb. destruct (wf_forms m Hb) as (z & Hz & W & I' & B).
  rewrite I' in I. inversion I; subst. split; [now apply exfil_mtext|now apply exfil_mtext0].
Qed.

Lemma exfil_app s r m : exfil s = Ok m -> utf8 r = true -> exfil (s ++ r) = Ok m.
Proof.
  intros H Hu. unfold exfil in *. destruct s as [|first s0] eqn:Es; try discriminate. rewrite <- Es in *.
  assert (s ++ r = first :: (s0 ++ r)) as Ea by (rewrite Es; reflexivity). rewrite Ea. rewrite <- Ea. clear Ea Es s0.
  apply bind_ok in H as (h & Hh & H). rewrite Hh, bind_Ok. destruct (len s <? h) eqn:E1; try discriminate. rewrite (ltb_app s r h E1).
  apply bind_ok in H as (hard & Hhard & H). rewrite (slice_str_app _ _ _ _ _ Hhard Hu), bind_Ok.
  apply bind_ok in H as (z & Hz & H). rewrite Hz, bind_Ok. cbv zeta in *.
  apply bind_ok in H as ([f size] & Hf & H).
  assert ((if fs z =? u32_max
    then if negb ((hs z + ss z) mod 4 =? 0) then Err EInvalidCodeSize
     else if len (s ++ r) <? hs z + ss z then Err EShortage
      else let* soft := slice_str (s ++ r) (hs z) (hs z + ss z) in
       let* size0 := b64_to_u32 soft in let* q := u32_mul size0 4 in let* f0 := u32_add q (hs z + ss z) in Ok (f0, size0)
    else Ok (fs z, 0)) = Ok (f, size)) as ->.
  { destruct (fs z =? u32_max); auto. destruct (negb ((hs z + ss z) mod 4 =? 0)); auto.
    destruct (len s <? hs z + ss z) eqn:E2; try discriminate. rewrite (ltb_app s r _ E2).
    apply bind_ok in Hf as (soft & Hs & Hf). now rewrite (slice_str_app _ _ _ _ _ Hs Hu), bind_Ok. }
  rewrite bind_Ok. destruct (len s <? f) eqn:E3; try discriminate. rewrite (ltb_app s r _ E3).
  apply bind_ok in H as (trim & Htrim & H). now rewrite (slice_str_app _ _ _ _ _ Htrim Hu), bind_Ok.
Qed.

(*# C05_trailing_text_ignored
   The same for any accepted text, printed by the library or not: what follows never changes the parse.
##
Example C05_trailing_case : exfil (s! "5BABAA==") = exfil (s! "5BABAA==MAAB") /\ is_ok (exfil (s! "5BABAA==")) = true.
Proof. split; (vm_compute; reflexivity). Qed.
#*)
Lemma C05_trailing_l (s rest : bytes) (m : matter) : exfil s = Ok m -> utf8 rest = true -> exfil (s ++ rest) = Ok m.
Proof. apply exfil_app. Qed.

(*# C06_self_framing_binary
   Whatever bytes follow, the parser returns exactly the primitive whose binary form comes first.
##
Example C06_case : bexfil [xd0; x70; x01; x02; x03; x04; xff; x00; x17] = Ok (Mt (s! "0H") 0 [x01; x02; x03; x04]).
Proof. vm_compute. reflexivity. Qed.
#*)
Lemma C06_l (m : matter) (b rest : bytes) : built m -> binfil m = Ok b ->
  bexfil (b ++ rest) = Ok m /\ bexfil b = Ok m.
Proof.
  intros Hb I. apply built_wf in Hb. destruct (wf_forms m Hb) as (z & Hz & W & I' & B).
  rewrite B in I. inversion I; subst. split; [now apply bexfil_mbin|now apply bexfil_mbin0].
Qed.

Lemma reads_det parse step s a b : reads parse step s a -> reads parse step s b -> a = b.
Proof.
  intros H. revert b; induction H as [|s m n ms Hne Hp Hs Hn Hr IH]; intros b Hb; inversion Hb; subst; auto; try congruence.
  assert (m0 = m) as -> by congruence. assert (n0 = n) as -> by congruence. f_equal. now apply IH.
Qed.

Lemma utf8_concat ms ts : Forall built ms -> Forall2 (fun m t => infil m = Ok t) ms ts -> ascii (concat ts) = true.
Proof.
  intros Hm Ht; revert Hm; induction Ht; intros Hm; auto. inversion Hm; subst. cbn [concat].
  unfold ascii. rewrite forallb_app. apply andb_true_iff. split; [|now apply IHHt].
  apply built_wf in H2. destruct (wf_forms x H2) as (z & Hz & W & I & B). rewrite I in H. inversion H; subst. now apply mtext_ascii.
Qed.

(*# C07_stream_of_primitives
   Reading a concatenation of printed primitives recovers exactly the list, in text and in binary, and no other list can be read.
##
Example C07_case : reads exfil full_size (s! "MAAB0HABAgME") [Mt (s! "M") 0 [x00; x01]; Mt (s! "0H") 0 [x01; x02; x03; x04]].
Proof.
  apply reads_cons with (n := 4); [discriminate|vm_compute; reflexivity|vm_compute; reflexivity|vm_compute; discriminate|].
  apply reads_cons with (n := 8); [discriminate|vm_compute; reflexivity|vm_compute; reflexivity|vm_compute; discriminate|].
  apply reads_nil.
Qed.
#*)
Lemma C07_l (ms : list matter) (ts bs : list bytes) :
  Forall built ms -> Forall2 (fun m t => infil m = Ok t) ms ts -> Forall2 (fun m b => binfil m = Ok b) ms bs ->
  (forall ms', reads exfil full_size (concat ts) ms' <-> ms' = ms) /\
  (forall ms', reads bexfil (fun m => let* n := full_size m in Ok (n * 3 / 4)) (concat bs) ms' <-> ms' = ms).
Proof.
  intros Hm Ht Hb.
  assert (reads exfil full_size (concat ts) ms) as R1.
  { revert ts Ht; clear Hb; induction ms as [|m ms IH]; intros ts Ht; inversion Ht; subst; [constructor|].
    inversion Hm; subst. assert (ascii (concat l') = true) as Ha by (eapply utf8_concat; eauto).
    pose proof (built_wf _ H2) as Hw. destruct (wf_forms m Hw) as (z & Hz & W & I & B). rewrite I in H1. inversion H1; subst y.
    pose proof (len_mtext m z Hz W) as L. destruct (raw_total m z Hz W) as (_ & Q & _).
    pose proof (cs_cases _ _ (lookup_facts _ _ Hz)) as HC.
    cbn [concat]. apply reads_cons with (n := mfs m z).
    - intros E. apply app_eq_nil in E as [E _]. rewrite E, len_nilb in L. lia.
    - apply exfil_mtext; auto. now apply utf8_ascii.
    - now apply full_size_wf.
    - rewrite len_app. lia.
    - rewrite drop_app_exact by auto. apply IH; auto. }
  assert (reads bexfil (fun m => let* n := full_size m in Ok (n * 3 / 4)) (concat bs) ms) as R2.
  { revert bs Hb; clear Ht R1; induction ms as [|m ms IH]; intros bs Hb; inversion Hb; subst; [constructor|].
    inversion Hm; subst.
    pose proof (built_wf _ H2) as Hw. destruct (wf_forms m Hw) as (z & Hz & W & I & B). rewrite B in H1. inversion H1; subst y.
    pose proof (len_mbin m z Hz W) as (L & _). destruct (raw_total m z Hz W) as (_ & Q & _).
    pose proof (cs_cases _ _ (lookup_facts _ _ Hz)) as HC.
    cbn [concat]. apply reads_cons with (n := len (mbin m z)).
    - intros E. apply app_eq_nil in E as [E _]. rewrite E, len_nilb in L. lia.
    - apply bexfil_mbin; auto.
    - rewrite (full_size_wf m z) by auto. rewrite bind_Ok. f_equal. lia.
    - rewrite len_app. lia.
    - rewrite drop_app_exact by auto. apply IH; auto. }
  split; intros ms'; split; intros H; try (now subst); eapply reads_det; eauto.
Qed.

(*# C08_prefix_free
   If the text (or binary form) of one built primitive starts with that of another, they are the same primitive.
##
Example C08_case : exists a b s t, built a /\ built b /\ infil a = Ok s /\ infil b = Ok t /\ a <> b.
Proof.
  exists (Mt (s! "M") 0 [x00; x01]), (Mt (s! "M") 0 [x00; x02]), (s! "MAAB"), (s! "MAAC"). split; [|split; [|split; [|split]]].
  - exists (s! "M"), [x00; x01]. split; [vm_compute; tauto|vm_compute; reflexivity].
  - exists (s! "M"), [x00; x02]. split; [vm_compute; tauto|vm_compute; reflexivity].
  - vm_compute. reflexivity.
  - vm_compute. reflexivity.
  - discriminate.
Qed.
#*)
Lemma C08_l (a b : matter) (s t : bytes) : built a -> built b ->
  (infil a = Ok s -> infil b = Ok t -> prefix s t -> a = b) /\
  (binfil a = Ok s -> binfil b = Ok t -> prefix s t -> a = b).
Proof.
  intros Ha Hb. apply built_wf in Ha. apply built_wf in Hb.
  destruct (wf_forms a Ha) as (za & Hza & Wa & Ia & Ba). destruct (wf_forms b Hb) as (zb & Hzb & Wb & Ib & Bb).
  split; intros H1 H2 (r & E).
  - assert (s = mtext a za) as Es by congruence. assert (t = mtext b zb) as Et by congruence. rewrite Es, Et in E. clear Es Et.
    assert (utf8 r = true) as Hu.
    { apply utf8_ascii. pose proof (mtext_ascii b zb Hzb Wb) as Q. rewrite E in Q. unfold ascii in *. rewrite forallb_app in Q.
      now apply andb_true_iff in Q. }
    pose proof (exfil_mtext a za r Hza Wa Hu) as X. rewrite <- E, exfil_mtext0 in X by auto. now inversion X.
  - assert (s = mbin a za) as Es by congruence. assert (t = mbin b zb) as Et by congruence. rewrite Es, Et in E. clear Es Et.
    pose proof (bexfil_mbin a za r Hza Wa) as X. rewrite <- E, bexfil_mbin0 in X by auto. now inversion X.
Qed.

(*# C09_text_not_malleable
   The print of a parsed primitive is exactly the beginning of the text it was parsed from.
##
Example C09_case : exists m, exfil (s! "0HABAgMErest") = Ok m /\ infil m = Ok (s! "0HABAgME").
Proof. eexists. split. { vm_compute. reflexivity. } vm_compute. reflexivity. Qed.
#*)
Lemma C09_l (s t : bytes) (m : matter) : exfil s = Ok m -> infil m = Ok t -> prefix t s.
Proof. intros H I. destruct (exfil_infil s m t H I) as (_ & r & ->). now exists r. Qed.

(*# C10_binary_not_malleable
   Whatever binary parses prints again, and prints as exactly the beginning of the input.
##
Example C10_case : exists m, bexfil [xd0; x70; x01; x02; x03; x04; x99] = Ok m /\ binfil m = Ok [xd0; x70; x01; x02; x03; x04].
Proof. eexists. split. { vm_compute. reflexivity. } vm_compute. reflexivity. Qed.
#*)
Lemma C10_l (b : bytes) (m : matter) : bexfil b = Ok m -> exists p, binfil m = Ok p /\ prefix p b.
Proof.
  intros H. apply bexfil_inv in H as (z & Hz & W & r & E). exists (mbin m z). split; [now apply binfil_wf|]. now exists r.
Qed.

(*# C11_parsed_can_be_printed_refuted
   False as stated: a text using the base64 padding sign parses to a primitive whose raw bytes are too short, and printing it
   returns an error or even panics.
#*)
Lemma C11_refuted_l :
  (exists s m e, exfil s = Ok m /\ len (m_raw m) = 31 /\ raw_size (m_code m) = Ok 32 /\ infil m = Err e) /\
  (exists s m, exfil s = Ok m /\ infil m = Panic).
Proof.
  split.
  - exists (s! "EAAAAAAAAAAAAAAAAAAAAAAAAAAAAAAAAAAAAAAAAAA="). do 2 eexists. split. { vm_compute. reflexivity. } repeat split; (vm_compute; reflexivity).
  - exists (s! "2AAAAA=="). eexists. split. { vm_compute. reflexivity. } vm_compute. reflexivity.
Qed.

Lemma raw_size_fixed m z n : lookup matter_table (m_code m) = Some z -> raw_len_ok m z -> raw_size (m_code m) = Ok n -> n = len (m_raw m).
Proof.
  intros H W Hr. pose proof (lookup_facts _ _ H) as F. unfold raw_size in Hr. rewrite (proj2 (sizage_of_ok _ _) H), bind_Ok in Hr.
  fold (var z) in Hr. unfold raw_len_ok in W. destruct (var z) eqn:Ev; try discriminate.
  destruct (tf_fix _ _ F Ev) as (E1 & _). rewrite E1, N.add_0_r in Hr. apply bind_ok in Hr as (d & Hd & Hr).
  apply u32_sub_ok in Hd as [_ ->]. apply u32_sub_ok in Hr as [_ ->]. lia.
Qed.

(** Lead bytes by first character. *)
Lemma table_lead : forallb (fun e => let '(c, z) := e in
   (zero_bits c =? 2 * pad z + 8 * ls z) && (code_chars c =? hs z + ss z)) matter_table = true.
Proof. vm_compute. reflexivity. Qed.
Lemma lookup_lead c z : lookup matter_table c = Some z -> zero_bits c = 2 * pad z + 8 * ls z /\ code_chars c = hs z + ss z.
Proof. intros H. apply lookup_In in H. pose proof table_lead as T. rewrite forallb_forall in T. apply T in H. cbv beta iota in H. lia. Qed.

(*# C11_parsed_can_be_printed_partial
   What holds: text without the base64 padding sign parses only to primitives which print in both domains and have exactly the raw
   size their code (or, for variable codes, their size field) prescribes. Missing: texts containing '=', see the refutation.
##
Example C11_case : exists m, no_padding_sign (s! "5BABAGhp") /\ exfil (s! "5BABAGhp") = Ok m /\ m_raw m = [x68; x69].
Proof. eexists. split; [intros H; vm_compute in H; intuition discriminate|]. split. { vm_compute. reflexivity. } vm_compute. reflexivity. Qed.
#*)
Lemma C11_partial_l (s : bytes) (m : matter) : no_padding_sign s -> exfil s = Ok m ->
  (exists t b, infil m = Ok t /\ binfil m = Ok b) /\
  (forall n, raw_size (m_code m) = Ok n -> len (m_raw m) = n) /\
  (~ In (m_code m) (map fst fixed_codes) -> zero_bits (m_code m) + 8 * len (m_raw m) = 24 * m_size m).
Proof.
  intros Hp H. apply exfil_nopad_wf in H; auto. destruct (wf_forms m H) as (z & Hz & W & I & B). split; [eauto|]. split.
  - intros n Hn. symmetry. eapply raw_size_fixed; eauto.
  - intros Hv. destruct (lookup_lead _ _ Hz) as (-> & _).
    pose proof (lookup_facts _ _ Hz) as F. unfold raw_len_ok in W. destruct (var z) eqn:Ev.
    + destruct (pad_le _ _ F) as (_ & P & _). rewrite P by auto. lia.
    + exfalso. apply Hv. clear - Hz Ev. revert Hz Ev. generalize (m_code m). intros c Hz Ev.
      assert (forallb (fun e => var (snd e) || existsb (beq (fst e)) (map fst fixed_codes)) matter_table = true) as T by (vm_compute; reflexivity).
      rewrite forallb_forall in T. apply lookup_In in Hz. apply T in Hz. cbn [fst snd] in Hz. rewrite Ev in Hz. cbn [orb] in Hz.
      apply existsb_exists in Hz as (c' & Hin & E). apply beq_eq in E. now subst.
Qed.

(*# C12_truncation_rejected
   Every proper prefix of a printed primitive is refused with an error value in both domains.
##
Example C12_case : exfil (s! "0HABAgM") = Err EShortage /\ bexfil [xd0; x70; x01; x02] = Err EShortage.
Proof. split; (vm_compute; reflexivity). Qed.
#*)
Lemma C12_l (m : matter) (t b : bytes) (k : N) : built m -> infil m = Ok t -> binfil m = Ok b ->
  (k < len t -> exists e, exfil (take k t) = Err e) /\ (k < len b -> exists e, bexfil (take k b) = Err e).
Proof.
  intros Hb I B. apply built_wf in Hb. destruct (wf_forms m Hb) as (z & Hz & W & I' & B').
  rewrite I' in I. rewrite B' in B. inversion I; inversion B; subst. split; intros Hk.
  - rewrite len_mtext in Hk by auto. now apply exfil_truncated.
  - now apply bexfil_truncated.
Qed.

Lemma number_b64val s : base64_number 0 s = b64val s.
Proof. reflexivity. Qed.

(*# C13_zero_bits_text
   In every text that parses, the bits between code and material (pad bits or lead bytes) are all zero: the characters that hold them
   form a number below 2^(6n - zero_bits).
##
Example C13_case : is_err (exfil (s! "MgAA")) = true /\ is_err (exfil (s! "2AAAAPAA")) = false /\ is_err (exfil (s! "2AAAEAAA")) = true.
Proof. repeat split; (vm_compute; reflexivity). Qed.
#*)
Lemma C13_text_l (s : bytes) (m : matter) : exfil s = Ok m ->
  let k := zero_bits (m_code m) in
  let n := (k + 5) / 6 in
  exists v, base64_number 0 (take n (drop (code_chars (m_code m)) s)) = Some v /\ v < 2 ^ (6 * n - k).
Proof.
  intros H k n. apply exfil_inv in H as (z & rest & Hz & _ & E & _).
  destruct (lookup_lead _ _ Hz) as (K & C). fold k in K. rewrite C, number_b64val.
  pose proof (lookup_facts _ _ Hz) as F. pose proof (pad_le _ _ F) as (P1 & P2 & P3). pose proof (tf_ls _ _ F) as Hl.
  rewrite E. unfold mtext. rewrite <- app_assoc. rewrite drop_app_exact by now apply len_mboth.
  assert (pad z = 0 /\ ls z = 0 \/ pad z = 1 /\ ls z = 0 \/ pad z = 2 /\ ls z = 0 \/ pad z = 0 /\ ls z = 1 \/ pad z = 0 /\ ls z = 2)
    as HC by lia.
  set (raw := m_raw m). clearbody k. clearbody raw. subst n.
  destruct HC as [[EP EL]|[[EP EL]|[[EP EL]|[[EP EL]|[EP EL]]]]]; rewrite EP, EL in *; subst k.
  - change ((2 * 0 + 8 * 0 + 5) / 6) with 0. rewrite take_0. exists 0. split; [reflexivity|vm_compute; reflexivity].
  - change ((2 * 1 + 8 * 0 + 5) / 6) with 1. change (zeros (1 + 0)) with [x00].
    change (2 ^ (6 * 1 - (2 * 1 + 8 * 0))) with 16.
    destruct raw as [|a [|b r]]; cbn [app encode]; unfold enc3; cbn [app]; unfold drop, take;
      change (N.to_nat 1) with 1%nat; cbn [skipn firstn app]; unfold b64val; cbn [b64val_acc]; change (b2n x00) with 0;
      byte_bounds; (rewrite b64_index_char by lia); eexists; (split; [reflexivity|lia]).
  - change ((2 * 2 + 8 * 0 + 5) / 6) with 1. change (zeros (2 + 0)) with [x00; x00].
    change (2 ^ (6 * 1 - (2 * 2 + 8 * 0))) with 4.
    destruct raw as [|a r]; cbn [app encode]; unfold enc3; cbn [app]; unfold drop, take;
      change (N.to_nat 1) with 1%nat; change (N.to_nat 2) with 2%nat; cbn [skipn firstn app]; unfold b64val; cbn [b64val_acc]; change (b2n x00) with 0;
      byte_bounds; (rewrite b64_index_char by lia); eexists; (split; [reflexivity|lia]).
  - change ((2 * 0 + 8 * 1 + 5) / 6) with 2. change (zeros (0 + 1)) with [x00].
    change (2 ^ (6 * 2 - (2 * 0 + 8 * 1))) with 16. rewrite drop_0.
    destruct raw as [|a [|b r]]; cbn [app encode]; unfold enc3; cbn [app]; unfold drop, take;
      change (N.to_nat 2) with 2%nat; cbn [skipn firstn app]; unfold b64val; cbn [b64val_acc]; change (b2n x00) with 0;
      byte_bounds; rewrite !b64_index_char by lia; eexists; (split; [reflexivity|lia]).
  - change ((2 * 0 + 8 * 2 + 5) / 6) with 3. change (zeros (0 + 2)) with [x00; x00].
    change (2 ^ (6 * 3 - (2 * 0 + 8 * 2))) with 4. rewrite drop_0.
    destruct raw as [|a r]; cbn [app encode]; unfold enc3; cbn [app]; unfold drop, take;
      change (N.to_nat 3) with 3%nat; cbn [skipn firstn app]; unfold b64val; cbn [b64val_acc]; change (b2n x00) with 0;
      byte_bounds; rewrite !b64_index_char by lia; eexists; (split; [reflexivity|lia]).
Qed.

(*# C13_zero_bits_binary
   In all binary input that parses, the zero_bits bits after the code bits are zero.
##
Example C13_binary_case : is_err (bexfil [x31; x00; x01]) = true /\ is_ok (bexfil [x30; x00; x01]) = true.
Proof. split; (vm_compute; reflexivity). Qed.
#*)
Lemma C13_binary_l (b : bytes) (m : matter) : bexfil b = Ok m ->
  let k := zero_bits (m_code m) in
  be_val (take ((6 * code_chars (m_code m) + k) / 8) b) mod 2 ^ k = 0.
Proof.
  intros H k. apply bexfil_inv in H as (z & Hz & W & rest & E).
  destruct (lookup_lead _ _ Hz) as (K & C). fold k in K. rewrite C.
  pose proof (lookup_facts _ _ Hz) as F. pose proof (pad_le _ _ F) as (P1 & P2 & P3). pose proof (tf_ls _ _ F) as Hl.
  pose proof (cs_cases _ _ F) as HC. pose proof (len_mboth m z Hz) as Lb. destruct (len_mbin m z Hz W) as (_ & Lc).
  destruct (b64val_total _ (mboth_b64 m z Hz)) as (v & Hv). destruct (bcode_val _ _ Hv) as (V & _); [lia|lia|].
  rewrite Lb in V. fold (pad z) in V.
  assert ((6 * (hs z + ss z) + k) / 8 = nbytes (hs z + ss z) + ls z) as ->. { rewrite K. unfold nbytes, pad in *. lia. }
  rewrite E. unfold mbin. rewrite !app_assoc, <- app_assoc. rewrite take_app_exact by (rewrite len_app, len_zeros; lia).
  rewrite be_val_app, V, len_zeros. rewrite <- (app_nil_r (zeros (ls z))), be_val_zeros. change (be_val []) with 0.
  rewrite N.add_0_r, K. assert (ls z = 0 \/ 0 < ls z) as [L0|L0] by lia.
  - rewrite L0, N.mul_0_r, N.add_0_r, N.pow_0_r, N.mul_1_r. apply N.mod_mul. now apply N.pow_nonzero.
  - rewrite P3 by auto. rewrite N.mul_0_r, N.add_0_l, N.pow_0_r, N.mul_1_r. change 256 with (2 ^ 8). rewrite <- N.pow_mul_r.
    apply N.mod_mul. now apply N.pow_nonzero.
Qed.

(** ** Panics *)
Definition lead_head (e : bytes * sizage) : list bytes :=
  let '(c, z) := e in if var z && (0 <? ls z) then [c ++ b64_digits (N.to_nat (ss z)) 0] else [].
Lemma heads_match : flat_map lead_head matter_table = [s! "5AAA"; s! "6AAA"; s! "8AAAAAAA"; s! "9AAAAAAA"; s! "5BAA"; s! "6BAA"; s! "8AABAAAA"; s! "9AABAAAA"].
Proof. vm_compute. reflexivity. Qed.
Lemma lookup_table_ok : forallb (fun e => match lookup matter_table (fst e) with Some z =>
   (hs z =? hs (snd e)) && (ss z =? ss (snd e)) && (fs z =? fs (snd e)) && (ls z =? ls (snd e)) | None => false end) matter_table = true.
Proof. vm_compute. reflexivity. Qed.
Lemma heads_iff w : In w empty_lead_heads <->
  exists code z, lookup matter_table code = Some z /\ var z = true /\ 0 < ls z /\ w = code ++ b64_digits (N.to_nat (ss z)) 0.
Proof.
  transitivity (In w (flat_map lead_head matter_table)).
  - rewrite heads_match. unfold empty_lead_heads. cbn [In]. tauto.
  - rewrite in_flat_map. split.
    + intros ((c & z) & Hin & Hw). pose proof lookup_table_ok as T. rewrite forallb_forall in T. apply T in Hin. cbn [fst snd] in Hin.
      unfold lead_head in Hw. destruct (var z && (0 <? ls z)) eqn:E; [|destruct Hw]. destruct Hw as [<-|[]].
      destruct (lookup matter_table c) as [z'|] eqn:El; try discriminate.
      assert (z' = z) as ->. { apply andb_true_iff in Hin as [Hin ?%N.eqb_eq]. apply andb_true_iff in Hin as [Hin ?%N.eqb_eq]. apply andb_true_iff in Hin as [?%N.eqb_eq ?%N.eqb_eq]. destruct z, z'. cbn in *. congruence. }
      apply andb_true_iff in E as [E1 E2]. exists c, z. repeat split; auto. lia.
    + intros (c & z & Hl & Hv & H0 & ->). exists (c, z). split; [now apply lookup_In|]. unfold lead_head. rewrite Hv.
      replace (0 <? ls z) with true by lia. now left.
Qed.

(*# C14_text_never_panics_refuted
   False as stated: these well-formed UTF-8 texts make the text parser panic (slice out of range, slice inside a character).
#*)
Lemma C14_refuted_l : forall s, In s [s! "5AAA"; s! "3AAAAA=="; s! "6AABAA=="; x30 :: xc3 :: [xa9]] ->
  utf8 s = true /\ exfil s = Panic.
Proof.
  intros s H. repeat (destruct H as [<-|H]; [split; vm_compute; reflexivity|]). destruct H.
Qed.

(*# C14_byte_strings
   Building from the bytes of a text gives what building from the text gives; bytes that are not UTF-8 are an error.
##
Example C14_bytes_case : matter_new None None (Some (s! "MAAA")) None None = Ok (Mt (s! "M") 0 [x00; x00]) /\ matter_new None None (Some (s! "MAA" ++ [xff])) None None = Err EForeign.
Proof. split; vm_compute; reflexivity. Qed.
#*)
Lemma C14_bytes_l (b : bytes) :
  (utf8 b = true -> matter_new None None (Some b) None None = matter_new None None None (Some b) None) /\
  (utf8 b = false -> exists e, matter_new None None (Some b) None None = Err e).
Proof.
  cbn [matter_new]. unfold exfil_b, from_utf8. split; intros ->; [reflexivity|]. eexists. reflexivity.
Qed.

(*# C14_text_never_panics_partial
   What holds: on ASCII text without the padding sign the only panics are the eight heads announcing an empty variable-size primitive that
   needs lead bytes. Missing: non-ASCII text and texts with '=', see the refutation.
##
Example C14_case : ascii (s! "-garbage+/!") = true /\ no_padding_sign (s! "-garbage+/!") /\ exfil (s! "-garbage+/!") = Err EUnexpectedCode.
Proof. repeat split; try (vm_compute; reflexivity). intros H. vm_compute in H. intuition discriminate. Qed.
#*)
Lemma C14_partial_l (s : bytes) : ascii s = true -> no_padding_sign s ->
  (exfil s = Panic <-> exists w, In w empty_lead_heads /\ prefix w s).
Proof.
  intros Ha Hp. split.
  - intros H. apply exfil_panic in H; auto. destruct H as (c & z & r & Hz & Hv & Hl & E).
    exists (c ++ b64_digits (N.to_nat (ss z)) 0). split; [apply heads_iff; eauto 6|]. exists r. now rewrite <- app_assoc.
  - intros (w & Hw & r & E). apply heads_iff in Hw as (c & z & Hz & Hv & Hl & ->). apply degenerate_panics.
    + now apply utf8_ascii.
    + exists c, z, r. repeat split; auto. now rewrite app_assoc.
Qed.

(*# C15_binary_never_panics_refuted
   False as stated: the binary form of an empty variable-size head with lead bytes makes the parser panic.
#*)
Lemma C15_refuted_l : bexfil [xe4; x00; x00] = Panic /\ bexfil [xe8; x00; x00; x41] = Panic.
Proof. split; (vm_compute; reflexivity). Qed.

(*# C15_binary_never_panics_partial
   What holds: the binary parser panics exactly on input starting with one of those eight heads. Missing: those inputs.
##
Example C15_case : bexfil [xff; xff; xff] = Err EUnexpectedCode /\ bexfil [] = Err EEmptyMaterial.
Proof. split; (vm_compute; reflexivity). Qed.
#*)
Lemma C15_partial_l (b : bytes) :
  bexfil b = Panic <-> exists w p, In w empty_lead_heads /\ decode w = Ok p /\ prefix p b.
Proof.
  assert (forall code z, lookup matter_table code = Some z -> var z = true -> 0 < ls z ->
    decode (code ++ b64_digits (N.to_nat (ss z)) 0) = Ok (bcode (code ++ b64_digits (N.to_nat (ss z)) 0))) as D.
  { intros code z Hz Hv Hl. apply decode_iff. pose proof (lookup_facts _ _ Hz) as F.
    pose proof (pad_le _ _ F) as (_ & P2 & _). specialize (P2 Hv).
    set (both := code ++ b64_digits (N.to_nat (ss z)) 0).
    assert (len both = hs z + ss z) as Lb by (unfold both; rewrite len_app, (tf_len _ _ F), len_b64_digits; lia).
    assert (is_b64s both = true) as Hb by (unfold both; now rewrite is_b64s_app, (tf_b64 _ _ F), is_b64s_digits).
    pose proof (encode_bcode both []) as Q. rewrite app_nil_r in Q. rewrite Lb in Q. fold (pad z) in Q. rewrite P2 in Q.
    rewrite Q; auto; [|eapply cs_cases; eauto]. change (drop 0 (encode (zeros 0 ++ []))) with (@nil byte). now rewrite app_nil_r. }
  rewrite bexfil_panic. split.
  - intros (c & z & r & Hz & Hv & Hl & E). exists (c ++ b64_digits (N.to_nat (ss z)) 0). eexists. split; [apply heads_iff; eauto 6|].
    split; [now apply D|]. now exists r.
  - intros (w & p & Hw & Hd & r & E). apply heads_iff in Hw as (c & z & Hz & Hv & Hl & ->). rewrite D in Hd by auto.
    inversion Hd; subst. exists c, z, r. auto.
Qed.

(*# C16_raw_size_enforced
   Fixed-size codes: too little raw material is refused, otherwise exactly the leading prescribed bytes are kept.
##
Example C16_case : In (s! "1AAF", 3) fixed_codes /\ matter_of_code_raw (s! "1AAF") [x01; x02; x03; x04] = Ok (Mt (s! "1AAF") 0 [x01; x02; x03]) /\
  matter_of_code_raw (s! "1AAF") [x01; x02] = Err EShortage.
Proof. repeat split; try (vm_compute; reflexivity). vm_compute. tauto. Qed.
#*)
Lemma C16_l (code raw : bytes) (n : N) : In (code, n) fixed_codes ->
  matter_of_code_raw code raw = if len raw <? n then Err EShortage else Ok (Mt code 0 (take n raw)).
Proof. intros H. destruct (fixed_known _ _ H) as (z & Hz & Hv & <-). now rewrite (construct_fixed code z raw). Qed.

(*# C16_unknown_code_refused
   A code that is neither in the table nor starts with a variable-size digit is refused with an error.
##
Example C16_unknown_case : matter_of_code_raw (s! "Z") [x01] = Err EUnknownSizage /\ matter_of_code_raw (s! "0é") [] = Err EUnknownSizage.
Proof. split; (vm_compute; reflexivity). Qed.
#*)
Lemma C16_unknown_l (code raw : bytes) : ~ In code matter_codes ->
  (forall d, In d (s! "456789") -> ~ prefix [d] code) -> exists e, matter_of_code_raw code raw = Err e.
Proof.
  intros Hn Hd. assert (lookup matter_table code = None) as Hl.
  { destruct (lookup matter_table code) as [z|] eqn:E; auto. exfalso. apply Hn. apply code_known. eauto. }
  assert (forall f r, code = f :: r -> is_small_vrz f = false /\ is_large_vrz f = false) as Hf.
  { intros f r ->. unfold is_small_vrz, is_large_vrz.
    assert (forall d, In d (s! "456789") -> Byte.eqb f d = false) as Q.
    { intros d Hin. destruct (Byte.eqb f d) eqn:E; auto. apply byte_eqb_eq in E. subst. exfalso. apply (Hd d Hin). now exists r. }
    rewrite !Q by (vm_compute; tauto). auto. }
  destruct (matter_of_code_raw code raw) as [m|e|] eqn:E; eauto; exfalso.
  - destruct (construct_unknown code raw m Hl Hf) as [Q _]. now apply Q.
  - destruct (construct_unknown code raw (Mt [] 0 []) Hl Hf) as [_ Q]. now apply Q.
Qed.

(*# C17_variable_code_selection_refuted
   False as stated for raw material of 4 GiB and more: the length is cut to 32 bits, so 2^32 bytes are silently turned into an empty
   primitive.
#*)
Lemma C17_refuted_l : forall raw, len raw = 4294967296 -> matter_of_code_raw (s! "4B") raw = Ok (Mt (s! "4B") 0 []).
Proof.
  intros raw H. unfold matter_of_code_raw. rewrite H. change (as_u32 4294967296) with 0.
  change (list_byte_of_string "4B") with [x34; x42]. cbv iota.
  change (is_small_vrz x34) with true. change (is_large_vrz x34) with false. cbn [orb]. cbv zeta.
  change ((3 - 0 mod 3) mod 3) with 0. change ((0 + 0) / 3) with 0. change (0 <? 4096) with true. cbv iota.
  change (slice_str [x34; x42] 1 2) with (@Ok bytes [x42]). rewrite !bind_Ok. cbv iota beta. change (4294967296 <? 0) with false. cbv iota.
  rewrite slice_bytes_in by lia. rewrite bind_Ok, drop_0. reflexivity.
Qed.

(*# C17_variable_code_selection_partial
   What holds: below 4 GiB all raw bytes are kept, the lead size follows from the length modulo three, small codes are used below 64^2
   quadlets, large ones below 64^4, and more is refused. Missing: 4 GiB and more.
##
Example C17_case : In [x36; x42] small_codes /\ matter_of_code_raw [x36; x42] [x61; x62] = Ok (Mt [x35; x42] 1 [x61; x62]).
Proof. split; [vm_compute; tauto|vm_compute; reflexivity]. Qed.
#*)
Lemma C17_partial_l (raw : bytes) : len raw < 2 ^ 32 ->
  let lead := (3 - len raw mod 3) mod 3 in
  let quads := (len raw + lead) / 3 in
  (forall d t, In [d; t] small_codes ->
     matter_of_code_raw [d; t] raw =
       if quads <? 64 ^ 2 then Ok (Mt [digit_char (4 + lead); t] quads raw)
       else if quads <? 64 ^ 4 then Ok (Mt [digit_char (7 + lead); x41; x41; t] quads raw)
       else Err EInvalidVarRawSize) /\
  (forall d u v t, In [d; u; v; t] large_codes ->
     matter_of_code_raw [d; u; v; t] raw =
       if quads <? 64 ^ 4 then Ok (Mt [digit_char (7 + lead); u; v; t] quads raw)
       else Err EInvalidVarRawSize).
Proof.
  intros H lead quads. change (2 ^ 32) with 4294967296 in H.
  assert (lead <= 2) as Hl by (unfold lead; lia).
  assert (digit_char (4 + lead) = small_vrz lead /\ digit_char (7 + lead) = large_vrz lead) as [D1 D2].
  { assert (lead = 0 \/ lead = 1 \/ lead = 2) as Hc by lia. clearbody lead. destruct Hc as [Hc|[Hc|Hc]]; subst; split; reflexivity. }
  assert (as_u32 (len raw) = len raw) as HA by (unfold as_u32; now apply N.mod_small).
  assert (slice_bytes raw 0 (len raw) = Ok raw) as HS.
  { rewrite slice_bytes_in by lia. rewrite drop_0, N.sub_0_r, take_all by lia. reflexivity. }
  change (64 ^ 2) with 4096. change (64 ^ 4) with 16777216.
  split.
  - intros d t Hin.
    assert (is_small_vrz d = true /\ is_ascii d = true /\ is_ascii t = true) as (Hd & Ad & At).
    { repeat (destruct Hin as [E|Hin]; [inversion E; subst; vm_compute; auto|]). destruct Hin. }
    unfold matter_of_code_raw. rewrite Hd, HA. cbn [orb]. cbv zeta. fold lead. fold quads.
    assert (slice_str [d; t] 1 2 = Ok [t]) as ->.
    { rewrite slice_str_ascii; [reflexivity|unfold ascii; cbn [forallb]; now rewrite Ad, At|lia|vm_compute; discriminate]. }
    rewrite !bind_Ok, D1, D2.
    destruct (quads <? 4096); [|destruct (quads <? 16777216)]; cbn [bind]; try reflexivity; cbv iota beta; rewrite N.ltb_irrefl, HS; reflexivity.
  - intros d u v t Hin.
    assert (is_small_vrz d = false /\ is_large_vrz d = true /\ is_ascii d = true /\ is_ascii u = true /\ is_ascii v = true /\ is_ascii t = true) as (Hd & Hd' & Ad & Au & Av & At).
    { repeat (destruct Hin as [E|Hin]; [inversion E; subst; vm_compute; auto 8|]). destruct Hin. }
    unfold matter_of_code_raw. rewrite Hd, Hd', HA. cbn [orb]. cbv zeta. fold lead. fold quads.
    assert (slice_str [d; u; v; t] 1 4 = Ok [u; v; t]) as ->.
    { rewrite slice_str_ascii; [reflexivity|unfold ascii; cbn [forallb]; now rewrite Ad, Au, Av, At|lia|vm_compute; discriminate]. }
    rewrite !bind_Ok, D2.
    destruct (quads <? 16777216); cbn [bind]; try reflexivity; cbv iota beta; rewrite N.ltb_irrefl, HS; reflexivity.
Qed.

(*# C17_variable_code_truncates
   And from 4 GiB on: the material is cut to its length modulo 2^32, silently, before anything else.
##
Example C17_truncates_case : forall raw, len raw = 2 ^ 32 + 3 -> matter_of_code_raw (s! "4B") raw = Ok (Mt (s! "4B") 1 (take 3 raw)).
Proof. intros raw L. rewrite (C17_truncates_l _ raw) by (vm_compute; tauto). rewrite L. change ((2 ^ 32 + 3) mod 2 ^ 32) with 3.
  assert (len (take 3 raw) = 3) as L3 by (rewrite len_take, L; reflexivity). pose proof (proj1 (C17_partial_l (take 3 raw) ltac:(rewrite L3; reflexivity)) x34 x42) as H. change (s! "4B") with [x34; x42] in *.
  rewrite H by (vm_compute; tauto). rewrite L3. reflexivity. Qed.
#*)
Lemma C17_truncates_l (code raw : bytes) : In code (small_codes ++ large_codes) ->
  matter_of_code_raw code raw = matter_of_code_raw code (take (len raw mod 2 ^ 32) raw).
Proof.
  intros I. assert (exists f r, code = f :: r /\ is_small_vrz f || is_large_vrz f = true) as (f & r & -> & V).
  { cbn in I. repeat (destruct I as [<-|I]; [eexists; eexists; split; [reflexivity|reflexivity]|]). destruct I. }
  unfold matter_of_code_raw. rewrite V. set (n := len raw mod 2 ^ 32). assert (n < 2 ^ 32) as Ln by (apply N.mod_lt; discriminate).
  assert (n <= len raw) as Lr by (apply N.mod_le; discriminate). assert (len (take n raw) = n) as LT by (rewrite len_take; lia).
  assert (as_u32 (len raw) = n) as -> by reflexivity. rewrite LT. assert (as_u32 n = n) as -> by (apply N.mod_small; exact Ln). cbv zeta.
  set (ls := (3 - n mod 3) mod 3). set (q := (n + ls) / 3).
  assert (forall X : R (bytes * N * N), (forall c' s' z', X = Ok (c', s', z') -> z' = n) ->
    (let* t := X in let '(code', size, rize) := t in if len raw <? rize then Err EShortage else let* r0 := slice_bytes raw 0 rize in Ok (Mt code' size r0)) =
    (let* t := X in let '(code', size, rize) := t in if n <? rize then Err EShortage else let* r0 := slice_bytes (take n raw) 0 rize in Ok (Mt code' size r0))) as G.
  { intros X HX. destruct X as [((c' & s') & z')|e|]; try reflexivity. rewrite !bind_Ok. specialize (HX _ _ _ eq_refl). subst z'.
    replace (len raw <? n) with false by lia. replace (n <? n) with false by lia. unfold slice_bytes. rewrite LT.
    replace ((0 <=? n) && (n <=? len raw)) with true by lia. replace ((0 <=? n) && (n <=? n)) with true by lia. cbn [bind].
    f_equal. f_equal. rewrite !N.sub_0_r. change (drop 0 raw) with raw. change (drop 0 (take n raw)) with (take n raw). now rewrite take_take, N.min_id. }
  apply G. intros c' s' z' H. repeat match goal with H : (if ?b then _ else _) = Ok _ |- _ => destruct b; try discriminate end;
  apply bind_ok in H as (? & _ & H); congruence.
Qed.

(*# C18_transferability_refuted
   False as stated: 1AAI, the non-transferable secp256r1 key code, is reported transferable.
#*)
Lemma C18_refuted_l : forall size raw, transferable (Mt (s! "1AAI") size raw) = true.
Proof. reflexivity. Qed.

(*# C18_transferability_partial
   What holds: for every other code the answer is right. Missing: 1AAI.
##
Example C18_case : transferable (Mt (s! "B") 0 []) = false /\ transferable (Mt (s! "D") 0 []) = true.
Proof. split; reflexivity. Qed.
#*)
Lemma C18_partial_l (m : matter) : m_code m <> s! "1AAI" ->
  (transferable m = false <-> In (m_code m) [s! "B"; s! "1AAA"; s! "1AAC"; s! "1AAI"]).
Proof.
  intros Hn. unfold transferable. rewrite negb_false_iff, existsb_exists. split.
  - intros (c & Hin & E). apply beq_eq in E. rewrite E. cbn [In] in *. tauto.
  - intros Hin. exists (m_code m). split; [|apply beq_refl]. cbn [In] in *. intuition.
Qed.
