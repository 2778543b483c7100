(** When making a threshold panics, and when the integer of a parsed number cannot be read: C47, C80. *)
From Coq Require Import String.
From Coq Require Import NArith ZArith Bool List Lia ZifyBool ZifyNat ZifyN.
From Verif Require Import Base BaseFacts B64 B64Facts Util Tables Matter MatterFacts MatterBin MatterText Spec SpecPrims SpecKinds SpecPanic Prims PrimsFacts PrimsThms PanicThms Counter CounterThms Json JsonFacts Tholder SpecCounter SpecTholder TholderFacts TholderThms SpecWeigh WeighThms.
Import ListNotations.
Open Scope N_scope.
Ltac Zify.zify_post_hook ::= Z.div_mod_to_equations.

(** ** Padding signs in parsed texts *)
Lemma parsed_padding s m : exfil s = Ok m -> exists z rest, lookup matter_table (m_code m) = Some z /\ size_ok m z /\ s = mtext m z ++ rest /\ len (mtext m z) = mfs m z /\
  announced s (len (mtext m z)) /\ (raw_len_ok m z <-> no_padding_sign (mtext m z)).
Proof.
  intros H. apply exfil_inv in H as (z & rest & Hz & Hs & E & L). exists z, rest. do 4 (split; auto). split; [rewrite L; eapply parsed_announced; eauto|].
  split; [apply wf_nopad; auto|].
  intros Hp. apply whole_raw_len; auto. pose proof (lookup_facts _ _ Hz) as F. pose proof (pad_le _ _ F) as (P1 & P2 & P3).
  pose proof (encode_nopad_mod (zeros (pad z + ls z) ++ m_raw m)) as Q. rewrite len_app, len_zeros in Q. apply Q.
  intros Hin. apply Hp. unfold mtext. apply in_or_app. right.
  rewrite zeros_app, <- app_assoc in *. destruct (encode_zeros_any (pad z) (zeros (ls z) ++ m_raw m)) as (t & Et); auto.
  rewrite Et in *. rewrite drop_app_exact by (unfold len; rewrite repeat_length; lia).
  apply in_app_or in Hin as [Hin|Hin]; auto. apply repeat_spec in Hin. discriminate.
Qed.
Lemma number_width : forallb (fun e => match lookup matter_table (fst e) with Some z => negb (var z) && (ls z =? 0) && ((fs z - hs z) * 3 / 4 =? snd e) && (4 * (pad z + snd e) =? 3 * (fs z - hs z + pad z)) | None => false end) number_sizes = true.
Proof. vm_compute. reflexivity. Qed.
Lemma number_width_of c w z : In (c, w) number_sizes -> lookup matter_table c = Some z -> var z = false /\ ls z = 0 /\ (fs z - hs z) * 3 / 4 = w /\ 4 * (pad z + w) = 3 * (fs z - hs z + pad z).
Proof.
  intros H L. pose proof number_width as T. rewrite forallb_forall in T. specialize (T _ H). cbn [fst snd] in T. rewrite L in T. apply andb_prop in T as (T & T3). apply andb_prop in T as (T & T2). apply andb_prop in T as (T0 & T1).
  apply negb_true_iff in T0. apply N.eqb_eq in T1, T2, T3. auto.
Qed.
Lemma number_num_of m w : In (m_code m, w) number_sizes -> number_num m = if len (m_raw m) =? w then Ok (be_val (m_raw m)) else Panic.
Proof. intros H. unfold number_num. repeat (destruct H as [H|H]; [injection H as <- <-; reflexivity|]). destruct H. Qed.
(** The raw bytes are never more than the code announces. *)
Lemma number_raw m w z : In (m_code m, w) number_sizes -> lookup matter_table (m_code m) = Some z -> size_ok m z -> len (mtext m z) = mfs m z ->
  len (m_raw m) <= w /\ (raw_len_ok m z <-> len (m_raw m) = w).
Proof.
  intros Hw Hz Hs L. destruct (number_width_of _ _ _ Hw Hz) as (Ev & El & Ew & Ep). unfold raw_len_ok, size_ok, mfs in *. rewrite Ev in *. rewrite El, Ew. split; [|split; [intros (_ & Q); lia|intros Q; split; [auto|lia]]].
  unfold mtext in L. rewrite len_app, (len_mboth m z Hz), len_drop, len_encode, len_app, len_zeros, El in L. pose proof (lookup_facts _ _ Hz) as F. pose proof (tf_fix _ _ F Ev) as (Ess & Q1 & Q2 & Q3 & _). rewrite Ess in *.
  pose proof (pad_le _ _ F) as (P & _). clear - L Ep P Q3. lia.
Qed.
(*# C80_unreadable_exactly
   Exactly when the integer of a number or sequence number parsed from text cannot be read: the characters its code announces hold a padding sign. Then
   reading it panics; otherwise it is the big-endian value of the raw bytes, which are as many as the code prescribes.
##
Example C80_exact_case : exists m m', number_new None None None None None (Some (s! "0HAAAAA=AB")) None = Ok m /\ number_num m = Panic /\
  number_new None None None None None (Some (s! "0HAAAABQ=")) None = Ok m' /\ number_num m' = Ok 80.
Proof. exists (Mt (s! "0H") 0 [x00; x00; x00]), (Mt (s! "0H") 0 [x00; x00; x00; x50]). repeat apply conj; vm_compute; reflexivity. Qed.
#*)
Lemma C80_exact_l (s : bytes) (m : matter) :
  (forall w, number_new None None None None None (Some s) None = Ok m -> In (m_code m, w) number_sizes ->
    exists t rest, s = t ++ rest /\ announced s (len t) /\ (In x3d t <-> number_num m = Panic) /\ (~ In x3d t <-> number_num m = Ok (be_val (m_raw m)) /\ len (m_raw m) = w)) /\
  (seqner_new None None None None None (Some s) None = Ok m ->
    exists t rest, s = t ++ rest /\ announced s (len t) /\ (In x3d t <-> seqner_sn m = Panic) /\ (~ In x3d t <-> seqner_sn m = Ok (be_val (m_raw m)) /\ len (m_raw m) = 16)).
Proof.
  assert (forall w, exfil s = Ok m -> In (m_code m, w) number_sizes -> exists t rest, s = t ++ rest /\ announced s (len t) /\ len (m_raw m) <= w /\ (~ In x3d t <-> len (m_raw m) = w)) as K.
  { intros w H Hw. apply parsed_padding in H as (z & rest & Hz & Hs & E & L & A & P). exists (mtext m z), rest. split; [exact E|]. split; [exact A|]. destruct (number_raw m w z Hw Hz Hs L) as (B & R).
    split; [exact B|]. rewrite <- R, P. reflexivity. }
  assert (forall t : bytes, In x3d t \/ ~ In x3d t) as Dec by (intros t; destruct (in_dec Byte.byte_eq_dec x3d t); auto).
  split.
  - intros w H Hw. assert (exfil s = Ok m) as X by (unfold number_new in H; cbn [is_none andb] in H; destruct (validate _ _); exact H || discriminate).
    destruct (K w X Hw) as (t & rest & E & A & B & R). exists t, rest. split; auto. split; auto. rewrite (number_num_of m w Hw). specialize (Dec t). destruct (len (m_raw m) =? w) eqn:Q.
    + apply N.eqb_eq in Q. split; [split; [intros Hi; exfalso; now apply R in Hi|discriminate]|]. split; auto. intros _. now apply R.
    + apply N.eqb_neq in Q. split; [split; auto; intros _|split; [intros Hi; exfalso; apply Q; now apply R|intros (Hi & _); discriminate]]. destruct Dec as [D|D]; auto. exfalso. apply Q. now apply R.
  - intros H. unfold seqner_new in H. cbn [is_none andb or_else bind] in H. apply bind_ok in H as (m' & X & H). apply bind_ok in H as (u & V & H). inversion H; subst m'. cbn [matter_new] in X.
    assert (m_code m = s! "0A") as C. { unfold validate in V. destruct (has_code _ _) eqn:Hc; [|discriminate]. unfold has_code in Hc. cbn [existsb] in Hc. rewrite orb_false_r in Hc. now apply beq_eq in Hc. }
    assert (In (m_code m, 16) number_sizes) as Hw by (rewrite C; cbn; tauto). destruct (K 16 X Hw) as (t & rest & E & A & B & R). exists t, rest. split; auto. split; auto. specialize (Dec t).
    assert (seqner_sn m = if len (m_raw m) =? 16 then Ok (be_val (m_raw m)) else Panic) as ->.
    { unfold seqner_sn, slice_bytes. change (0 <=? 16) with true. cbn [andb]. destruct (len (m_raw m) =? 16) eqn:Q.
      - apply N.eqb_eq in Q. replace (16 <=? len (m_raw m)) with true by lia. rewrite bind_Ok, drop_0, take_all by (rewrite Q; vm_compute; discriminate). reflexivity.
      - replace (16 <=? len (m_raw m)) with false by lia. reflexivity. }
    destruct (len (m_raw m) =? 16) eqn:Q.
    + apply N.eqb_eq in Q. split; [split; [intros Hi; exfalso; now apply R in Hi|discriminate]|]. split; auto. intros _. now apply R.
    + apply N.eqb_neq in Q. split; [split; auto; intros _|split; [intros Hi; exfalso; apply Q; now apply R|intros (Hi & _); discriminate]]. destruct Dec as [D|D]; auto. exfalso. apply Q. now apply R.
Qed.

(** ** The text form of a weighted threshold *)
Lemma split_nosep sep s : Forall (fun w => ~ In sep w) (split_on sep s).
Proof.
  induction s as [|c s IH]; cbn [split_on]; [constructor; auto|]. destruct (Byte.eqb c sep) eqn:E; [constructor; auto|]. destruct (split_on sep s) as [|p ps]; inversion IH; subst; constructor; auto.
  - intros [->|[]]. rewrite byte_eqb_refl in E. discriminate.
  - intros [->|Q]; auto. rewrite byte_eqb_refl in E. discriminate.
Qed.
Lemma nosep_bool sep w : ~ In sep w <-> forallb (fun c => negb (Byte.eqb c sep)) w = true.
Proof.
  rewrite forallb_forall. split.
  - intros H c Hc. apply negb_true_iff, not_true_iff_false. intros Q. apply byte_eqb_eq in Q. subst. auto.
  - intros H Hc. apply H in Hc. rewrite byte_eqb_refl in Hc. discriminate.
Qed.
Lemma split_sub sep s p : In p (split_on sep s) -> forall c, In c p -> In c s.
Proof.
  revert p; induction s as [|x s IH]; intros p H c Hc; cbn [split_on] in H. { destruct H as [<-|[]]. destruct Hc. } destruct (Byte.eqb x sep).
  - destruct H as [<-|H]; [destruct Hc|]. right. eapply IH; eauto.
  - destruct (split_on sep s) as [|q qs]; [destruct H as [<-|[]]; destruct Hc as [->|[]]; now left|]. destruct H as [<-|H]; [destruct Hc as [->|Hc]; [now left|]|]; right; eapply IH; eauto; cbn; auto.
Qed.
Definition clauses_of (b : bytes) : list (list bytes) := map (split_on x63) (split_on x61 (replace1 x73 x2f b)).
Lemma written_is b ts : written b ts <-> ts = clauses_of b.
Proof.
  unfold written, clauses_of. change (map (fun c => if Byte.eqb c x73 then x2f else c) b) with (replace1 x73 x2f b). change (s! "a") with [x61]. change (s! "c") with [x63]. generalize (replace1 x73 x2f b). intros t. split.
  - intros (N & C & ->). rewrite split_on_join.
    + rewrite map_map. clear N. induction ts as [|c ts IH]; auto. cbn [map]. rewrite <- IH by (intros; apply C; now right). f_equal. destruct (C c (or_introl eq_refl)) as (Nc & Cc). symmetry. apply split_on_join; auto.
      apply Forall_forall. intros w Hw. apply nosep_bool. now apply Cc.
    + destruct ts; [congruence|discriminate].
    + apply Forall_map, Forall_forall. intros c Hc. apply join_forallb; [reflexivity|]. apply Forall_forall. intros w Hw. apply nosep_bool. now apply (C c Hc).
  - intros ->. split; [pose proof (split_on_ne x61 t) as Q; destruct (split_on x61 t); [congruence|discriminate]|]. split.
    + intros c Hc. apply in_map_iff in Hc as (p & <- & Hp). split; [apply split_on_ne|]. intros w Hw. split.
      * intros Q. pose proof (split_nosep x61 t) as S. rewrite Forall_forall in S. apply (S p Hp). eapply split_sub; eauto.
      * pose proof (split_nosep x63 p) as S. rewrite Forall_forall in S. now apply S.
    + rewrite map_map. erewrite map_ext; [|intros; apply split_join]. rewrite map_id. symmetry. apply split_join.
Qed.
Lemma clauses_len t : len (concat (map (split_on x63) (split_on x61 t))) <= len t + 1.
Proof.
  induction t as [|c t IH]; [vm_compute; discriminate|]. rewrite len_cons. cbn [split_on]. destruct (Byte.eqb c x61).
  - cbn [map concat]. rewrite len_app. change (len (split_on x63 [])) with 1. lia.
  - pose proof (split_on_ne x61 t). destruct (split_on x61 t) as [|p ps]; [congruence|]. cbn [map concat] in *. rewrite len_app in *. assert (len (split_on x63 (c :: p)) <= 1 + len (split_on x63 p)) as Q; [|lia].
    cbn [split_on]. destruct (Byte.eqb c x63); [rewrite len_cons; lia|]. destruct (split_on x63 p); rewrite ?len_cons; [vm_compute; discriminate|lia].
Qed.
Lemma text_var : forallb (fun c => match lookup matter_table c with Some z => var z && (ss z <=? 4) && (pad z =? 0) | None => false end) base64_texts = true.
Proof. vm_compute. reflexivity. Qed.
Lemma bext_small s m b : exfil s = Ok m -> In (m_code m) base64_texts -> bext_of m = Ok b -> len b < 2 ^ 26.
Proof.
  intros H Hc Hb. apply exfil_inv in H as (z & rest & Hz & Hs & E & L). pose proof text_var as T. rewrite forallb_forall in T. specialize (T _ Hc). rewrite Hz in T. apply andb_prop in T as (T & T3). apply andb_prop in T as (T1 & T2).
  apply N.leb_le in T2. apply N.eqb_eq in T3. unfold size_ok, mfs in *. rewrite T1 in *. unfold mtext in L. rewrite len_app, (len_mboth m z Hz), T3, drop_0, N.add_0_l in L.
  unfold bext_of in Hb. rewrite (proj2 (sizage_of_ok _ _) Hz), bind_Ok in Hb. cbv zeta in Hb. apply bind_ok in Hb as (ws & _ & Hb). apply from_str_ok' in Hb as (_ & ->). rewrite len_drop.
  assert (64 ^ ss z <= 64 ^ 4) as P by (apply N.pow_le_mono_r; [lia|auto]). change (64 ^ 4) with 16777216 in P. change (2 ^ 26) with 67108864. clear - L P Hs. lia.
Qed.
Lemma bext_np m : In (m_code m) base64_texts -> bext_of m <> Panic.
Proof.
  intros Hc. unfold bext_of. destruct (lookup matter_table (m_code m)) as [z|] eqn:Hz; [|unfold sizage_of; rewrite Hz; discriminate]. rewrite (proj2 (sizage_of_ok _ _) Hz), bind_Ok. cbv zeta.
  assert (forall x, ascii (encode x) = true) as A by (intros; apply encode_ascii).
  assert (forall t k, ascii t = true -> k <= len t -> from_str t k <> Panic) as Fs. { intros t k At Lk. rewrite from_str_ascii; auto. discriminate. }
  pose proof (lookup_facts _ _ Hz) as F. pose proof (tf_ls _ _ F) as Hl. destruct (ls z =? 0) eqn:E.
  - destruct (encode (zeros (ls z) ++ m_raw m)) as [|c r] eqn:Er; [cbn [bind]; apply Fs; [reflexivity|lia]|]. rewrite <- Er at 1. pose proof (A (zeros (ls z) ++ m_raw m)) as A1. rewrite Er in A1.
    rewrite Er. rewrite slice_str_ascii; auto; [|lia|rewrite len_cons; lia]. rewrite !bind_Ok. destruct (beq _ _); apply Fs; auto; rewrite len_cons; lia.
  - rewrite bind_Ok. apply Fs; auto. rewrite len_encode, len_app, len_zeros. clear - Hl E. lia.
Qed.

(** ** The codes *)
Definition limen_codes : list bytes := numbers ++ base64_texts.
Lemma limen_hard : forallb (fun c => match c with f :: _ => match hardage f with Ok h => h =? len c | _ => false end | [] => false end) limen_codes = true.
Proof. vm_compute. reflexivity. Qed.
Lemma limen_hard_of code f r : In code limen_codes -> prefix code (f :: r) -> hardage f = Ok (len code) /\ take (len code) (f :: r) = code.
Proof.
  intros H (q & E). pose proof limen_hard as T. rewrite forallb_forall in T. specialize (T _ H). destruct code as [|f' c]; [discriminate|]. cbn [app] in E. inversion E; subst f' r. destruct (hardage f) as [h| |]; try discriminate.
  apply N.eqb_eq in T. subst h. split; auto. change (f :: c ++ q) with ((f :: c) ++ q). now rewrite take_app_exact.
Qed.
Lemma has_number c : has_code number_codes c = true <-> In c numbers.
Proof.
  unfold has_code. rewrite existsb_exists. change numbers with number_codes. split; [intros (x & Hx & E); apply beq_eq in E; now subst|intros H; exists c; split; auto; apply beq_refl].
Qed.
Lemma has_text c : has_code bexter_codes c = true <-> In c base64_texts.
Proof.
  unfold has_code. rewrite existsb_exists. change base64_texts with bexter_codes. split; [intros (x & Hx & E); apply beq_eq in E; now subst|intros H; exists c; split; auto; apply beq_refl].
Qed.
Lemma exfil_code f r m : exfil (f :: r) = Ok m -> prefix (m_code m) (f :: r) /\ hardage f = Ok (len (m_code m)).
Proof.
  intros H. apply exfil_inv in H as (z & rest & Hz & _ & E & _). pose proof (lookup_facts _ _ Hz) as F. destruct (tf_first _ _ F) as (f' & r' & i & Ec & Hh & _). unfold mtext, mboth in E. rewrite <- !app_assoc in E. split.
  - eexists. exact E. - rewrite Ec in E. cbn [app] in E. inversion E; subst. rewrite Hh, (tf_len _ _ F). reflexivity.
Qed.
Lemma not_both c : In c numbers -> In c base64_texts -> False.
Proof.
  assert (forallb (fun c => negb (has_code bexter_codes c)) numbers = true) as T by (vm_compute; reflexivity). rewrite forallb_forall in T. intros H1 H2. apply T in H1. apply has_text in H2. rewrite H2 in H1. discriminate.
Qed.
Lemma limen_new canon l : tholder_new canon None (Some l) None = match process_limen l with Ok (Some t) => Ok t | Ok None => Err EEmptyMaterial | Err e => Err e | Panic => Panic end.
Proof. unfold tholder_new. cbn [bind]. destruct (process_limen l) as [[t|]|e|]; reflexivity. Qed.
Lemma sith_str canon s : (exists r, s = x5b :: r) /\ process_sith canon (VStr s) = (let* v := value_of_text canon s in sith_array v) \/
  ~ (exists r, s = x5b :: r) /\ process_sith canon (VStr s) <> Panic.
Proof.
  unfold process_sith. cbn [to_i64 to_string]. destruct s as [|c r]; [right; split; [intros (q & Q); discriminate|discriminate]|]. destruct (Byte.byte_eq_dec c x5b) as [->|N]; [left; eauto|]. right. split.
  - intros (q & Q). inversion Q. congruence.
  - assert (match parse_i64_hex (c :: r) with Some z => process_unweighted z | None => Err EForeign end <> Panic) as K by (destruct (parse_i64_hex (c :: r)); [apply process_unweighted_np|discriminate]).
    destruct c; congruence || exact K.
Qed.
Lemma sith_panic_iff v : (forall ts, sith_clauses v ts -> len (concat ts) < 2 ^ 27) -> sith_array v = Panic <-> exists ts, sith_clauses v ts /\ breaks (vals ts).
Proof.
  intros L. assert (forall ts us, sith_clauses v ts -> sith_clauses v us -> ts = us) as Un.
  { intros ts' ts [(N1 & E1)|(c1 & N1 & -> & E1)] [(N2 & E2)|(c2 & N2 & -> & E2)]; unfold texts in *.
    - apply vals_inj. unfold vals. congruence.
    - exfalso. rewrite E1 in E2. destruct ts', c2; try congruence; discriminate.
    - exfalso. rewrite E2 in E1. destruct ts, c1; try congruence; discriminate.
    - f_equal. rewrite E1 in E2. inversion E2 as [E]. clear - E. revert c2 E. induction c1 as [|x c IH]; intros [|y d] E; try discriminate; auto. inversion E. f_equal; auto. }
  destruct (sith_array_eq v) as [(ts & Hs & ->)|((e & ->) & Hn)].
  - rewrite weighted_panic_iff by (rewrite keys_vals; now apply L). split; [eauto|]. intros (us & Hu & B). now rewrite (Un ts us Hs Hu).
  - split; [discriminate|]. intros (ts & Hs & _). exfalso. eauto.
Qed.

(*# C47_panics_exactly
   Exactly when making a threshold panics, from one argument with fewer than 2^27 weights.
   - From a value: its first entry that is not a weight is zero over zero, or all entries are weights and the first clause not reaching one overflows.
   - From a sith that is not a string: the same of its clauses. From a string: it starts with '[' and its reading as JSON panics (see C50) or gives such clauses.
   - From a limen: it is UTF-8 and too short for, or cannot be cut after, the code its first character announces; or it has the code of a number or of
     a Base64 text and reading it panics (see C14); or it is a number whose integer cannot be read (see C80); or it is a Base64 text with such clauses written in it.
##
Example C47_exact_case : tholder_new (fun _ => None) None (Some (s! "4AADA1c1s0a0s0")) None = Err EShortage /\ tholder_new (fun _ => None) None (Some (s! "4AADA1c1c1a0c0s0")) None = Panic /\
  tholder_new (fun _ => None) None (Some (s! "4")) None = Panic /\ tholder_new (fun _ => None) None None (Some (VArr [VStr (s! "0/0")])) = Panic /\
  tholder_new (fun _ => None) (Some (VArr [VArr [VNull; VStr (s! "0/0")]])) None None = Err EConversion.
Proof. repeat apply conj; vm_compute; reflexivity. Qed.
#*)
Lemma C47_exact_l (canon : bytes -> option bytes) (v : value) (s l : bytes) :
  (keys v < 2 ^ 27 -> (tholder_new canon (Some v) None None = Panic <-> breaks v)) /\
  ((forall x, v <> VStr x) -> (forall ts, sith_clauses v ts -> len (concat ts) < 2 ^ 27) ->
    (tholder_new canon None None (Some v) = Panic <-> exists ts u, sith_clauses v ts /\ texts u ts /\ breaks u)) /\
  ((forall x ts, value_of_text canon s = Ok x -> sith_clauses x ts -> len (concat ts) < 2 ^ 27) ->
    (tholder_new canon None None (Some (VStr s)) = Panic <->
      prefix (s! "[") s /\ (value_of_text canon s = Panic \/ exists x ts u, value_of_text canon s = Ok x /\ sith_clauses x ts /\ texts u ts /\ breaks u))) /\
  (tholder_new canon None (Some l) None = Panic <->
    utf8 l = true /\
    ((exists d, In d (s! "0456") /\ prefix [d] l /\ (len l < 2 \/ inside l 2)) \/
     (exists d, In d (s! "123789") /\ prefix [d] l /\ (len l < 4 \/ inside l 4)) \/
     (exists code, In code (numbers ++ base64_texts) /\ prefix code l /\ exfil l = Panic) \/
     (exists m, exfil l = Ok m /\ In (m_code m) numbers /\ number_num m = Panic) \/
     (exists m b ts u, exfil l = Ok m /\ In (m_code m) base64_texts /\ bext_of m = Ok b /\ written b ts /\ texts u ts /\ breaks u))).
Proof.
  split; [intros L; rewrite thold_new; now apply thold_panic_iff|]. split; [|split].
  - intros Ns L. rewrite sith_new. assert ((exists ts u, sith_clauses v ts /\ texts u ts /\ breaks u) <-> exists ts, sith_clauses v ts /\ breaks (vals ts)) as ->.
    { split; [intros (ts & u & A & -> & B); eauto|intros (ts & A & B); exists ts, (vals ts); repeat apply conj; auto; reflexivity]. }
    rewrite <- (sith_panic_iff v L). unfold process_sith. destruct v as [| |z| |x| |]; cbn [to_i64 to_string]; try reflexivity; [|exfalso; now apply (Ns x)].
    split; [intros Q; now apply process_unweighted_np in Q|discriminate].
  - intros L. rewrite sith_new. destruct (sith_str canon s) as [((r & Hr) & ->)|(Hn & Q)].
    + assert (prefix (s! "[") s) as P by (exists r; exact Hr). destruct (value_of_text canon s) as [x|e|] eqn:V; cbn [bind].
      * rewrite (sith_panic_iff x) by (intros ts; now apply L). split.
        -- intros (ts & A & B). split; auto. right. exists x, ts, (vals ts). repeat apply conj; auto; reflexivity.
        -- intros (_ & [Q|(y & ts & u & Q & A & -> & B)]); [discriminate|]. inversion Q; subst. eauto.
      * split; [discriminate|]. intros (_ & [Q|(y & ts & u & Q & _)]); discriminate.
      * split; auto.
    + split; [congruence|]. intros ((r & ->) & _). exfalso. apply Hn. exists r. reflexivity.
  - rewrite limen_new. assert (match process_limen l with Ok (Some t) => Ok t | Ok None => Err EEmptyMaterial | Err e => Err e | Panic => Panic end = Panic <-> process_limen l = Panic) as ->
      by (destruct (process_limen l) as [[t|]|e|]; split; intros Q; try discriminate; reflexivity).
    destruct l as [|f r].
    { split; [discriminate|]. intros (_ & [(d & _ & (q & Q) & _)|[(d & _ & (q & Q) & _)|[(c & _ & _ & Q)|[(m & Q & _)|(m & b & ts & u & Q & _)]]]]); discriminate. }
    remember (f :: r) as l eqn:El. assert (process_limen l = let* limen := from_utf8 l in let* h := hardage f in let* code := slice_str limen 0 h in
      if has_code number_codes code then let* n := number_new None None None None None (Some limen) None in let* k := number_num n in if i64_max <? k then Err EForeign else let* t := process_unweighted (Z.of_N k) in Ok (Some t)
      else if has_code bexter_codes code then let* b := bexter_new None None None None (Some limen) None in let* t := bext_of b in let* t := process_weighted (vals (clauses_of t)) in Ok (Some t)
      else Err EUnexpectedCode) as ->.
    { rewrite El. unfold process_limen, clauses_of, vals. destruct (from_utf8 (f :: r)); auto. cbn [bind]. destruct (hardage f); auto. cbn [bind]. destruct (slice_str _ _ _); auto. cbn [bind]. destruct (has_code number_codes _); auto. destruct (has_code bexter_codes _); auto.
      destruct (bexter_new _ _ _ _ _ _); auto. cbn [bind]. destruct (bext_of _); auto. cbn [bind]. cbv zeta. rewrite map_map. reflexivity. }
    unfold from_utf8. destruct (utf8 l) eqn:U; cbn [bind]; [|split; [discriminate|intros (Q & _); discriminate]].
    assert (forall P, (true = true /\ P) <-> P) as -> by tauto.
    assert (forall d, prefix [d] l -> d = f) as Pf by (intros d (q & Q); subst l; inversion Q; auto).
    assert (prefix [f] l) as Pl by (exists r; auto).
    destruct (hardage f) as [h|e|] eqn:Hh; cbn [bind]; [| |exfalso; now apply hardage_np in Hh].
    2:{ split; [discriminate|]. intros [(d & D & Q & _)|[(d & D & Q & _)|[(c & C & Q & _)|[(m & Q & _)|(m & b & ts & u & Q & _)]]]].
        - apply Pf in Q. subst d. apply hard_two_iff in D. congruence. - apply Pf in Q. subst d. apply hard_four_iff in D. congruence.
        - subst l. apply limen_hard_of in Q as (Q & _); auto. congruence. - subst l. apply exfil_code in Q as (_ & Q). congruence. - subst l. apply exfil_code in Q as (_ & Q). congruence. }
    assert ((len l < h \/ inside l h) -> slice_str l 0 h = Panic /\ (h = 2 \/ h = 4)) as Short.
    { intros S. split.
      - destruct (N.le_gt_cases h (len l)) as [Lh|Lh]. { rewrite slice_np by auto. destruct S as [S|S]; [lia|]. apply inside_iff in S as (_ & ->); auto. }
        unfold slice_str. replace (h <=? len l) with false by lia. rewrite andb_false_r. reflexivity.
      - destruct (hardage_val _ _ Hh) as [->|[->| ->]]; auto. exfalso. rewrite El in S. destruct S as [S|S]; [rewrite len_cons in S; lia|]. revert S. apply (inside_ascii [f] r); [now apply hard_one|change ([f] ++ r) with (f :: r); rewrite <- El; exact U|rewrite len_cons, len_nil; lia]. }
    assert (~ (len l < h \/ inside l h) -> slice_str l 0 h = Ok (take h l)) as Long.
    { intros S. assert (h <= len l) as Lh by (apply N.le_ngt; intros Q; apply S; now left). rewrite slice_np by auto. destruct (cut_cases l h U Lh) as [(-> & _)|(_ & I)]; auto. exfalso. apply S. now right. }
    assert ((len l < h \/ inside l h) \/ ~ (len l < h \/ inside l h)) as [S|S].
    { destruct (N.le_gt_cases h (len l)) as [Lh|Lh]; [|left; now left]. destruct (cut_cases l h U Lh) as [(_ & I)|(_ & I)]; [right|left; now right]. intros [Q|Q]; [lia|auto]. }
    + destruct (Short S) as (-> & Hv). cbn [bind]. split; auto. intros _. destruct Hv as [-> | ->].
      * left. exists f. rewrite hard_two_iff. auto. * right. left. exists f. rewrite hard_four_iff. auto.
    + rewrite (Long S), bind_Ok. assert (forall P Q, ((exists d, In d (s! "0456") /\ prefix [d] l /\ (len l < 2 \/ inside l 2)) \/ (exists d, In d (s! "123789") /\ prefix [d] l /\ (len l < 4 \/ inside l 4)) \/ P <-> Q) <-> (P <-> Q)) as Drop.
      { intros P Q. assert (~ (exists d, In d (s! "0456") /\ prefix [d] l /\ (len l < 2 \/ inside l 2))) as N2. { intros (d & D & Hd & B). apply Pf in Hd. subst d. apply hard_two_iff in D. assert (h = 2) by congruence. subst h. auto. }
        assert (~ (exists d, In d (s! "123789") /\ prefix [d] l /\ (len l < 4 \/ inside l 4))) as N4. { intros (d & D & Hd & B). apply Pf in Hd. subst d. apply hard_four_iff in D. assert (h = 4) by congruence. subst h. auto. } tauto. }
      assert (forall A B : Prop, (A <-> B) <-> (B <-> A)) as Sym by tauto. rewrite Sym, Drop, Sym. clear Drop Sym.
      assert (forall code, In code limen_codes -> prefix code l -> take h l = code) as Only. { intros code C P. rewrite El in P. destruct (limen_hard_of _ _ _ C P) as (Q1 & Q2). assert (h = len code) by congruence. subst h l. exact Q2. }
      assert (prefix (take h l) l) as Pt by (exists (drop h l); now rewrite take_drop).
      assert (forall m, exfil l = Ok m -> m_code m = take h l) as Cm. { intros m X. rewrite El in X. apply exfil_code in X as ((q & Q1) & Q2). assert (h = len (m_code m)) by congruence. subst h. rewrite El, Q1, take_app_exact; auto. }
      destruct (has_code number_codes (take h l)) eqn:Hn; [|destruct (has_code bexter_codes (take h l)) eqn:Hb].
      * apply has_number in Hn. unfold number_new. cbn [is_none andb or_else matter_new]. change (validate number_codes (s! "M")) with (Ok tt). rewrite bind_Ok.
        assert (~ In (take h l) base64_texts) as Nt by (intros Q; eapply not_both; eauto).
        destruct (exfil l) as [m|e|] eqn:X; cbn [bind].
        -- assert (In (m_code m) numbers) as Hm by (rewrite (Cm m); auto). destruct (number_num m) as [k|e|] eqn:K; cbn [bind].
           ++ split.
              ** destruct (i64_max <? k); [discriminate|]. pose proof (process_unweighted_np (Z.of_N k)) as Q. destruct (process_unweighted (Z.of_N k)); cbn [bind]; congruence.
              ** intros [(c & _ & _ & Q)|[(m' & Q & _ & Q2)|(m' & b & ts & u & Q & C & _)]]; [discriminate|inversion Q; subst; congruence|]. inversion Q; subst m'. rewrite (Cm m) in C by auto. contradiction.
           ++ split; [discriminate|]. intros [(c & _ & _ & Q)|[(m' & Q & _ & Q2)|(m' & b & ts & u & Q & C & _)]]; [discriminate|inversion Q; subst; congruence|]. inversion Q; subst m'. rewrite (Cm m) in C by auto. contradiction.
           ++ split; auto. intros _. right. left. exists m. auto.
        -- split; [discriminate|]. intros [(c & _ & _ & Q)|[(m' & Q & _)|(m' & b & ts & u & Q & _)]]; discriminate.
        -- split; auto. intros _. left. exists (take h l). split; auto. apply in_or_app. now left.
      * apply has_text in Hb. unfold bexter_new. cbn [is_none andb or_else matter_new].
        assert (~ In (take h l) numbers) as Nt by (intros Q; eapply not_both; eauto).
        destruct (exfil l) as [m|e|] eqn:X; cbn [bind].
        -- assert (In (m_code m) base64_texts) as Hm by (rewrite (Cm m); auto). assert (validate bexter_codes (m_code m) = Ok tt) as -> by (unfold validate; now rewrite (proj2 (has_text _) Hm)). cbn [bind].
           destruct (bext_of m) as [b|e|] eqn:B; cbn [bind]; [| |exfalso; now apply bext_np in B].
           ++ pose proof (bext_small l m b X Hm B) as Lb. assert (keys (vals (clauses_of b)) < 2 ^ 27) as Lk.
              { rewrite keys_vals. pose proof (clauses_len (replace1 x73 x2f b)) as Q. assert (len (replace1 x73 x2f b) = len b) as Q2 by (unfold replace1, len; now rewrite map_length). unfold clauses_of. change (2 ^ 26) with 67108864 in Lb. change (2 ^ 27) with 134217728. lia. }
              pose proof (weighted_panic_iff _ Lk) as W. split.
              ** intros Q. right. right. exists m, b, (clauses_of b), (vals (clauses_of b)). repeat (split; [auto; reflexivity|]). split; [now apply written_is|]. split; [reflexivity|]. apply W. destruct (process_weighted _); cbn [bind] in Q; try discriminate. reflexivity.
              ** intros [(c & _ & _ & Q)|[(m' & Q & C & _)|(m' & b' & ts & u & Q & _ & Q2 & Wr & -> & Br)]]; [discriminate|inversion Q; subst m'; rewrite (Cm m) in C by auto; contradiction|].
                 inversion Q; subst m'. assert (b' = b) by congruence. subst b'. apply written_is in Wr. subst ts. apply W in Br. rewrite Br. reflexivity.
           ++ split; [discriminate|]. intros [(c & _ & _ & Q)|[(m' & Q & C & _)|(m' & b' & ts & u & Q & _ & Q2 & _)]]; [discriminate|inversion Q; subst m'; rewrite (Cm m) in C by auto; contradiction|]. inversion Q; subst m'. congruence.
        -- split; [discriminate|]. intros [(c & _ & _ & Q)|[(m' & Q & _)|(m' & b & ts & u & Q & _)]]; discriminate.
        -- split; auto. intros _. left. exists (take h l). split; auto. apply in_or_app. now right.
      * assert (~ In (take h l) limen_codes) as Nt. { intros Q. apply in_app_or in Q as [Q|Q]; [apply has_number in Q|apply has_text in Q]; congruence. }
        split; [discriminate|]. intros [(c & C & P & _)|[(m' & Q & C & _)|(m' & b & ts & u & Q & C & _)]]; exfalso; apply Nt.
        -- now rewrite (Only c). -- rewrite <- (Cm m') by auto. apply in_or_app. now left. -- rewrite <- (Cm m') by auto. apply in_or_app. now right.
Qed.
