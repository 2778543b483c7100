(** Proofs of the counter properties. *)
From Coq Require Import String.
From Coq Require Import NArith ZArith Bool List Lia ZifyBool ZifyNat ZifyN.
From Verif Require Import Base BaseFacts B64 B64Facts Util UtilFacts Tables Matter MatterFacts MatterBin MatterText Counter CounterFacts
  Spec SpecCounter.
Import ListNotations.
Open Scope N_scope.
Ltac Zify.zify_post_hook ::= Z.div_mod_to_equations.

Lemma ccodes_ok : forallb (fun e => match lookup counter_table (fst e) with Some z => ss z =? snd e | None => false end) counter_codes = true.
Proof. vm_compute. reflexivity. Qed.
Lemma ccodes_all : forallb (fun e => existsb (fun f => beq (fst e) (fst f) && (ss (snd e) =? snd f)) counter_codes) counter_table = true.
Proof. vm_compute. reflexivity. Qed.
Lemma ccode_known c k : In (c, k) counter_codes <-> exists z, lookup counter_table c = Some z /\ ss z = k.
Proof.
  split.
  - intros H. pose proof ccodes_ok as T. rewrite forallb_forall in T. apply T in H. cbn [fst snd] in H.
    destruct (lookup counter_table c) as [z|]; try discriminate. exists z. split; auto. lia.
  - intros (z & H & E). apply lookup_In in H. pose proof ccodes_all as T. rewrite forallb_forall in T. apply T in H. cbn [fst snd] in H.
    apply existsb_exists in H as ((c' & k') & Hin & H). cbn [fst snd] in H. apply andb_true_iff in H as [H1 H2]. apply beq_eq in H1.
    assert (k = k') by lia. now subst.
Qed.

(*# C30_counter_round_trips
   A built counter prints to four or eight characters and the corresponding three or six bytes; both parse back to it whatever follows.
##
Example C30_case : counter_of_code_count (s! "-0V") 1073741823 = Ok (Ct (s! "-0V") 1073741823) /\
  cinfil (Ct (s! "-0V") 1073741823) = Ok (s! "-0V_____").
Proof. split; (vm_compute; reflexivity). Qed.
#*)
Lemma C30_l (code : bytes) (k n : N) (c : counter) :
  In (code, k) counter_codes -> counter_of_code_count code n = Ok c ->
  exists t b, cinfil c = Ok t /\ cbinfil c = Ok b /\ decode t = Ok b /\ encode b = t /\ cfull_size c = Ok (len t) /\
    len t = (if k =? 2 then 4 else 8) /\
    (forall rest, utf8 rest = true -> cexfil (t ++ rest) = Ok c) /\ cexfil_b t = Ok c /\
    (forall rest, cbexfil (b ++ rest) = Ok c).
Proof.
  intros Hc H. apply ccode_known in Hc as (z & Hz & Ek). rewrite (cconstruct _ _ _ Hz) in H.
  destruct (64 ^ ss z <=? n) eqn:E; try discriminate. inversion H; subst c; clear H.
  assert (cwf (Ct code n) z) as W by (split; auto; cbn [c_count]; lia). destruct (cbinfil_wf _ _ W) as (B1 & B2 & _).
  pose proof (cf_sz _ _ (clookup_facts _ _ Hz)) as S. pose proof (len_ctext _ _ W) as L.
  exists (ctext (Ct code n) z), (bcode (ctext (Ct code n) z)). repeat split; auto.
  - now apply cinfil_wf.
  - rewrite <- B2 at 1. apply decode_encode.
  - unfold cfull_size. cbn [c_code]. rewrite (csizage_of_ok _ _ Hz), bind_Ok, L. f_equal. apply (cf_fs _ _ (clookup_facts _ _ Hz)).
  - rewrite L, <- Ek. destruct (ss z =? 2) eqn:E2; lia.
  - intros rest Hr. now apply cexfil_ctext.
  - unfold cexfil_b, from_utf8. rewrite utf8_ascii by (apply is_b64s_ascii; now apply ctext_b64). rewrite bind_Ok.
    rewrite <- (app_nil_r (ctext (Ct code n) z)). now apply cexfil_ctext.
  - intros rest. now apply cbexfil_ctext.
Qed.

(*# C30_counter_not_malleable
   Whatever parses as a counter can be printed, and prints to exactly the beginning of the input.
##
Example C30_mall_case : cexfil (s! "-AADxyz") = Ok (Ct (s! "-A") 3) /\ cbexfil [xf8; x00; x03; xff] = Ok (Ct (s! "-A") 3).
Proof. split; (vm_compute; reflexivity). Qed.
#*)
Lemma C30_mall_l (s : bytes) (c : counter) :
  (cexfil s = Ok c -> exists t, cinfil c = Ok t /\ prefix t s) /\
  (cbexfil s = Ok c -> exists b, cbinfil c = Ok b /\ prefix b s).
Proof.
  split; intros H.
  - apply cexfil_inv in H as (z & r & W & E). exists (ctext c z). split; [now apply cinfil_wf|now exists r].
  - apply cbexfil_inv in H as (z & r & W & E). exists (bcode (ctext c z)). split; [now apply cbinfil_wf|now exists r].
Qed.

(*# C31_count_bounds
   A counter is built exactly for the codes of the table and counts below 64 to the number of count characters; it holds that code and
   count. Anything else is an error.
##
Example C31_case : is_ok (counter_of_code_count (s! "-A") 4095) = true /\ is_err (counter_of_code_count (s! "-A") 4096) = true.
Proof. split; (vm_compute; reflexivity). Qed.
#*)
Lemma C31_l (code : bytes) (n : N) (c : counter) :
  (counter_of_code_count code n = Ok c <-> c = Ct code n /\ exists k, In (code, k) counter_codes /\ n < 64 ^ k) /\
  counter_of_code_count code n <> Panic.
Proof.
  destruct (lookup counter_table code) as [z|] eqn:Hz.
  - rewrite (cconstruct _ _ _ Hz). destruct (64 ^ ss z <=? n) eqn:E; (split; [split|]); try discriminate.
    + intros (_ & k & Hk & Hn). apply ccode_known in Hk as (z' & Hz' & <-). assert (z' = z) by congruence. subst z'. lia.
    + intros H. inversion H. split; auto. exists (ss z). split; [|lia]. apply ccode_known. eauto.
    + intros (-> & _). reflexivity.
  - unfold counter_of_code_count. destruct code as [|x code0] eqn:Ec.
    + split; [split; try discriminate|discriminate]. intros (_ & k & Hk & _). apply ccode_known in Hk as (z & Hz' & _). congruence.
    + rewrite <- Ec in *. unfold csizage_of. rewrite Hz. cbn [bind]. split; [split; try discriminate|discriminate].
      intros (_ & k & Hk & _). apply ccode_known in Hk as (z & Hz' & _). congruence.
Qed.

(*# C31_count_b64_refuted
   Counts given in base64 are not checked: six characters overflow silently, so a count above 2^32 is accepted as another one.
#*)
Lemma C31_refuted_l :
  base64_number 0 (s! "EAAAAB") = Some 4294967297 /\
  counter_new None (Some (s! "EAAAAB")) (Some (s! "-A")) None None None = Ok (Ct (s! "-A") 1).
Proof. split; (vm_compute; reflexivity). Qed.

(*# C31_count_b64_partial
   Counts of at most five base64 characters are taken at their value.
##
Example C31_b64_case : counter_new None (Some (s! "AAD")) (Some (s! "-A")) None None None = Ok (Ct (s! "-A") 3).
Proof. vm_compute. reflexivity. Qed.
#*)
Lemma C31_b64_l (code s : bytes) (v : N) (qb64b qb64 qb2 : option bytes) : len s <= 5 -> base64_number 0 s = Some v ->
  counter_new None (Some s) (Some code) qb64b qb64 qb2 = counter_of_code_count code v.
Proof.
  intros L H. unfold counter_new. rewrite (b64_to_u32_exact s v); auto.
Qed.

Lemma b64_wraps w s : forall out v, w <> 0 -> w mod 64 = 0 -> base64_number out s = Some v -> b64_to_uint_from w (out mod w) s = Ok (v mod w).
Proof.
  induction s as [|c s IH]; intros out v W W64 H; cbn [base64_number b64_to_uint_from] in *; [congruence|].
  destruct (b64_index c) as [i|] eqn:E; [|discriminate]. apply b64_index_Some in E as (E & _). rewrite <- (IH _ _ W W64 H). f_equal.
  rewrite N.mul_mod_idemp_l by auto. apply N.mod_divide in W64 as (q & ->); [|lia].
  assert (q <> 0) by lia. clear - E H0.
  replace (q * 64) with (64 * q) by lia. replace (out * 64) with (64 * out) by lia. rewrite N.mul_mod_distr_l by lia.
  apply (N.mod_unique _ _ (out / q)); [pose proof (N.mod_lt out q); lia|]. pose proof (N.div_mod out q H0). nia.
Qed.
(*# C31_count_b64_exactly
   A count given in base64, of any length, is taken modulo 2^32; anything but base64url characters is an error.
##
Example C31_b64_exact_case : base64_number 0 (s! "-AEAAAAB") = Some (62 * 64 ^ 7 + 4 * 64 ^ 5 + 1) /\ (62 * 64 ^ 7 + 4 * 64 ^ 5 + 1) mod 2 ^ 32 = 1 /\
  counter_new None (Some (s! "-AEAAAAB")) (Some (s! "-A")) None None None = Ok (Ct (s! "-A") 1).
Proof. repeat split; vm_compute; reflexivity. Qed.
#*)
Lemma C31_b64_exact_l (code s : bytes) (qb64b qb64 qb2 : option bytes) :
  (forall v, base64_number 0 s = Some v -> counter_new None (Some s) (Some code) qb64b qb64 qb2 = counter_of_code_count code (v mod 2 ^ 32)) /\
  (base64_number 0 s = None -> exists e, counter_new None (Some s) (Some code) qb64b qb64 qb2 = Err e).
Proof.
  split.
  - intros v H. assert (4294967296 <> 0) as W by lia. unfold counter_new, b64_to_u32. change 0 with (0 mod 4294967296). rewrite (b64_wraps _ s 0 v W eq_refl H), bind_Ok. reflexivity.
  - intros H. exists EInvalidBase64Character. unfold counter_new, b64_to_u32.
    assert (forall s acc w out, base64_number acc s = None -> b64_to_uint_from w out s = Err EInvalidBase64Character) as G.
    { clear. induction s as [|c s IH]; intros acc w out H; cbn [base64_number b64_to_uint_from] in *; [discriminate|]. destruct (b64_index c); [|reflexivity]. eauto. }
    rewrite (G _ _ _ _ H). reflexivity.
Qed.

(*# C32_counter_parse_refuted
   False: one-character text, and text whose second byte is inside a character, panic.
#*)
Lemma C32_refuted_l : cexfil (s! "-") = Panic /\ cexfil (s! "A") = Panic /\ (utf8 [xc3; xa9; x41] = true /\ cexfil (x2d :: [xc3; xa9; x41]) = Panic).
Proof. repeat split; vm_compute; reflexivity. Qed.

(*# C32_counter_parse_partial
   Parsing never panics on ASCII text of length other than one, nor on any bytes as binary. Missing: see the refutation.
##
Example C32_case : cexfil (s! "-0") <> Panic /\ cexfil (s! "--AAA") <> Panic /\ cbexfil [xf8] <> Panic.
Proof. repeat split; vm_compute; discriminate. Qed.
#*)
Lemma C32_l (s : bytes) : (Forall (fun c => b2n c < 128) s -> len s <> 1 -> cexfil s <> Panic) /\ cbexfil s <> Panic.
Proof.
  split; [|apply cbexfil_np]. intros H L. apply cexfil_np; auto. unfold ascii. apply forallb_forall. intros c Hc.
  rewrite Forall_forall in H. apply H in Hc. unfold is_ascii. lia.
Qed.

(*# C32_counter_truncation
   No proper prefix of a printed counter parses, in either domain.
##
Example C32_trunc_case : cexfil (s! "-AA") = Err EShortage /\ cbexfil [xf8; x00] = Err EShortage.
Proof. split; (vm_compute; reflexivity). Qed.
#*)
Lemma C32_trunc_l (c : counter) (t b : bytes) (n : N) : cinfil c = Ok t -> cbinfil c = Ok b ->
  (n < len t -> forall c', cexfil (take n t) <> Ok c') /\ (n < len b -> forall c', cbexfil (take n b) <> Ok c').
Proof.
  intros Ht Hb. apply cinfil_inv in Ht as (z & W & ->). destruct (cbinfil_wf _ _ W) as (B1 & B2 & B3). rewrite B1 in Hb. inversion Hb; subst b. clear Hb.
  split; intros L c' H.
  - apply cexfil_inv in H as (z' & r & W' & E). pose proof (len_ctext _ _ W') as L'. pose proof (len_ctext _ _ W) as L0.
    assert (cexfil (ctext c z ++ []) = Ok c) as P by now apply cexfil_ctext.
    assert (cexfil (ctext c' z' ++ (r ++ drop n (ctext c z))) = Ok c') as P'.
    { apply cexfil_ctext; auto. assert (ascii (ctext c z) = true) as A by (apply is_b64s_ascii; now apply ctext_b64).
      apply utf8_ascii. rewrite ascii_app. rewrite (ascii_drop n _ A).
      apply (ascii_take n) in A. rewrite E, ascii_app in A. apply andb_true_iff in A as [_ ->]. reflexivity. }
    rewrite app_assoc, <- E, take_drop in P'. rewrite app_nil_r in P. rewrite P in P'. inversion P'; subst c'.
    assert (z' = z) by (destruct W, W'; congruence). subst z'. apply (f_equal len) in E. rewrite len_take, len_app in E. lia.
  - apply cbexfil_inv in H as (z' & r & W' & E). destruct (cbinfil_wf _ _ W') as (_ & _ & B3').
    assert (cbexfil (bcode (ctext c z) ++ []) = Ok c) as P by now apply cbexfil_ctext.
    assert (cbexfil (bcode (ctext c' z') ++ (r ++ drop n (bcode (ctext c z)))) = Ok c') as P' by now apply cbexfil_ctext.
    rewrite app_assoc, <- E, take_drop in P'. rewrite app_nil_r in P. rewrite P in P'. inversion P'; subst c'.
    assert (z' = z) by (destruct W, W'; congruence). subst z'. apply (f_equal len) in E. rewrite len_take, len_app in E. lia.
Qed.

(** ** Semantic versions *)
Lemma dec_val_spec s : forall acc, Forall (fun c => 48 <= b2n c <= 57) s ->
  dec_val acc s = Some (fold_left (fun a c => a * 10 + (b2n c - 48)) s acc).
Proof.
  induction s as [|c s IH]; intros acc H; cbn [dec_val fold_left]; auto. inversion H; subst. cbv zeta.
  replace ((48 <=? b2n c) && (b2n c <=? 57)) with true by lia. now apply IH.
Qed.
Lemma digit_cases c : 48 <= b2n c <= 57 -> In c [x30; x31; x32; x33; x34; x35; x36; x37; x38; x39].
Proof.
  intros [H1 H2]. unfold N.le in H1, H2.
  destruct c; try (exfalso; vm_compute in H1; now apply H1); try (exfalso; vm_compute in H2; now apply H2); cbn [In]; tauto.
Qed.
Lemma parse_i8_decimal s v : decimal s v -> parse_i8 s = if v <=? 127 then Some (Z.of_N v) else None.
Proof.
  intros (H1 & H2 & H3). pose proof (dec_val_spec s 0 H2) as D. rewrite H3 in D. destruct s as [|c s]; try contradiction.
  inversion H2; subst. assert (parse_i8 (c :: s) = match dec_val 0 (c :: s) with Some v => if v <=? 127 then Some (Z.of_N v) else None | None => None end) as ->; [|now rewrite D].
  match goal with H : 48 <= b2n c <= 57 |- _ => apply digit_cases in H; rename H into Hc end. cbn [In] in Hc.
  repeat destruct Hc as [<-|Hc]; try contradiction; reflexivity.
Qed.

Lemma piece_decimal s v : decimal s v -> sem_ver_piece s = if v <=? 127 then Ok v else Err EConversion.
Proof.
  intros H. unfold sem_ver_piece. rewrite (parse_i8_decimal s v H). destruct (v <=? 127) eqn:E.
  - replace (Z.of_N v <? 0)%Z with false by lia. now rewrite N2Z.id.
  - destruct s; auto. now destruct H.
Qed.

Lemma split_on_app sep a b : forallb (fun c => negb (Byte.eqb c sep)) a = true -> split_on sep (a ++ sep :: b) = a :: split_on sep b.
Proof.
  induction a as [|c a IH]; intros H; cbn [app split_on].
  - now rewrite (proj2 (byte_eqb_eq sep sep) eq_refl).
  - cbn [forallb] in H. apply andb_true_iff in H as [H1 H2]. apply negb_true_iff in H1. rewrite H1, IH; auto.
Qed.
Lemma split_on_none sep a : forallb (fun c => negb (Byte.eqb c sep)) a = true -> split_on sep a = [a].
Proof.
  induction a as [|c a IH]; intros H; cbn [split_on]; auto. cbn [forallb] in H. apply andb_true_iff in H as [H1 H2].
  apply negb_true_iff in H1. rewrite H1, IH; auto.
Qed.
Lemma len_split_on sep s : len (split_on sep s) = len (filter (Byte.eqb sep) s) + 1.
Proof.
  induction s as [|c s IH]; auto. cbn [split_on filter]. assert (Byte.eqb c sep = Byte.eqb sep c) as E.
  { destruct (Byte.eqb c sep) eqn:E1, (Byte.eqb sep c) eqn:E2; auto.
    - apply byte_eqb_eq in E1. subst. rewrite (proj2 (byte_eqb_eq sep sep) eq_refl) in E2. discriminate.
    - apply byte_eqb_eq in E2. subst. rewrite (proj2 (byte_eqb_eq c c) eq_refl) in E1. discriminate. }
  rewrite <- E. destruct (Byte.eqb c sep).
  - rewrite !len_cons, IH. lia.
  - destruct (split_on sep s) as [|p ps]; [change (len (@nil bytes)) with 0 in IH; lia|]. rewrite len_cons in *. lia.
Qed.

Lemma decimal_nodot s v : decimal s v -> forallb (fun c => negb (Byte.eqb c x2e)) s = true.
Proof.
  intros (_ & H & _). apply forallb_forall. intros c Hc. rewrite Forall_forall in H. apply H in Hc.
  destruct (Byte.eqb c x2e) eqn:E; auto. apply byte_eqb_eq in E. subst c. vm_compute in Hc. destruct Hc as [Hc _]. now contradiction Hc.
Qed.

Lemma digit1 n : n < 64 -> uint_to_b64 n 1 = [b64_char n].
Proof. intros H. rewrite uint_to_b64_exact by (try lia; change (64 ^ 1) with 64; lia). change (N.to_nat 1) with 1%nat. cbn [b64_digits app]. f_equal. f_equal. lia. Qed.

Lemma sem_ver3 a b c : sem_ver_parts_to_b64 [a; b; c] =
  if (a <? 64) && (b <? 64) && (c <? 64) then Ok [b64_char a; b64_char b; b64_char c] else Err EParsing.
Proof.
  unfold sem_ver_parts_to_b64. cbn [existsb]. destruct ((a <? 64) && (b <? 64) && (c <? 64)) eqn:E.
  - replace ((63 <? a) || ((63 <? b) || ((63 <? c) || false))) with false by lia. cbn [map concat app].
    rewrite !digit1 by lia. reflexivity.
  - replace ((63 <? a) || ((63 <? b) || ((63 <? c) || false))) with true by lia. reflexivity.
Qed.

(*# C33_semantic_version_packing
   Three decimal parts pack to the three base64 characters of their values exactly when all are below 64; otherwise it is an error.
##
Example C33_case : sem_ver_str_to_b64 (s! "1.2.63") = Ok (s! "BC_") /\ decimal (s! "63") 63 /\ decimal (s! "1") 1 /\ decimal (s! "2") 2.
Proof. repeat split; try discriminate; try (vm_compute; reflexivity); repeat constructor; vm_compute; discriminate. Qed.
#*)
Lemma C33_l (x y z : bytes) (a b c : N) : decimal x a -> decimal y b -> decimal z c ->
  (a < 64 /\ b < 64 /\ c < 64 ->
    exists t1 t2 t3, sem_ver_str_to_b64 (x ++ s! "." ++ y ++ s! "." ++ z) = Ok [t1; t2; t3] /\
      b64_index t1 = Some a /\ b64_index t2 = Some b /\ b64_index t3 = Some c) /\
  (~ (a < 64 /\ b < 64 /\ c < 64) -> exists e, sem_ver_str_to_b64 (x ++ s! "." ++ y ++ s! "." ++ z) = Err e).
Proof.
  intros Hx Hy Hz.
  assert (sem_ver_str_to_b64 (x ++ s! "." ++ y ++ s! "." ++ z) =
    bind (sem_ver_piece x) (fun a => bind (sem_ver_piece y) (fun b => bind (sem_ver_piece z) (fun c => sem_ver_parts_to_b64 [a; b; c])))) as E.
  { unfold sem_ver_str_to_b64. change (x ++ s! "." ++ y ++ s! "." ++ z) with (x ++ x2e :: (y ++ x2e :: z)).
    rewrite split_on_app by (eapply decimal_nodot; eauto). rewrite split_on_app by (eapply decimal_nodot; eauto).
    rewrite split_on_none by (eapply decimal_nodot; eauto). cbv zeta. change (3 <? len [x; y; z]) with false. cbv iota. cbn [sem_ver_pieces].
    destruct (sem_ver_piece x); cbn [bind]; auto. destruct (sem_ver_piece y); cbn [bind]; auto. destruct (sem_ver_piece z); cbn [bind]; auto. }
  rewrite E. rewrite (piece_decimal _ _ Hx), (piece_decimal _ _ Hy), (piece_decimal _ _ Hz). clear E Hx Hy Hz. split.
  - intros (A & B & C). replace (a <=? 127) with true by lia. replace (b <=? 127) with true by lia. replace (c <=? 127) with true by lia.
    cbn [bind]. rewrite sem_ver3. replace ((a <? 64) && (b <? 64) && (c <? 64)) with true by lia.
    do 3 eexists. split; [reflexivity|]. now rewrite !b64_index_char by auto.
  - intros N. destruct (a <=? 127); cbn [bind]; eauto. destruct (b <=? 127); cbn [bind]; eauto. destruct (c <=? 127); cbn [bind]; eauto.
    rewrite sem_ver3. replace ((a <? 64) && (b <? 64) && (c <? 64)) with false by lia. eauto.
Qed.

(*# C33_missing_parts_are_zero
   One or two decimal parts, or empty parts, stand for zero in the missing places.
##
Example C33_missing_case : sem_ver_str_to_b64 (s! "1.2") = Ok (s! "BCA") /\ sem_ver_str_to_b64 (s! "..5") = Ok (s! "AAF").
Proof. split; (vm_compute; reflexivity). Qed.
#*)
Lemma C33_missing_l (x y : bytes) (a b : N) : decimal x a -> decimal y b ->
  sem_ver_str_to_b64 x = sem_ver_str_to_b64 (x ++ s! ".0.0") /\
  sem_ver_str_to_b64 (x ++ s! "." ++ y) = sem_ver_str_to_b64 (x ++ s! "." ++ y ++ s! ".0") /\
  sem_ver_str_to_b64 (s! "." ++ x ++ s! "." ++ y) = sem_ver_str_to_b64 (s! "0." ++ x ++ s! "." ++ y) /\
  sem_ver_str_to_b64 [] = Ok (s! "AAA").
Proof.
  intros Hx Hy. pose proof (decimal_nodot _ _ Hx) as Dx. pose proof (decimal_nodot _ _ Hy) as Dy.
  split; [|split; [|split; [|vm_compute; reflexivity]]]; unfold sem_ver_str_to_b64.
  - change (x ++ s! ".0.0") with (x ++ x2e :: s! "0.0"). rewrite split_on_app, split_on_none by auto. change (split_on x2e (s! "0.0")) with [s! "0"; s! "0"].
    cbv zeta. change (3 <? len [x]) with false. change (3 <? len [x; s! "0"; s! "0"]) with false. cbv iota. cbn [sem_ver_pieces].
    destruct (sem_ver_piece x); cbn [bind]; auto.
  - change (x ++ s! "." ++ y) with (x ++ x2e :: y). change (x ++ s! "." ++ y ++ s! ".0") with (x ++ x2e :: (y ++ x2e :: s! "0")).
    rewrite !split_on_app by auto. rewrite !split_on_none by auto.
    cbv zeta. change (3 <? len [x; y]) with false. change (3 <? len [x; y; s! "0"]) with false. cbv iota. cbn [sem_ver_pieces].
    destruct (sem_ver_piece x); cbn [bind]; auto. destruct (sem_ver_piece y); cbn [bind]; auto.
  - change (s! "." ++ x ++ s! "." ++ y) with ([] ++ x2e :: (x ++ x2e :: y)). change (s! "0." ++ x ++ s! "." ++ y) with (s! "0" ++ x2e :: (x ++ x2e :: y)).
    rewrite !split_on_app by auto. rewrite !split_on_none by auto. reflexivity.
Qed.

(*# C33_accepted_versions
   Any accepted string has at most two dots and yields exactly three base64 characters; no string makes the packing panic.
##
Example C33_acc_case : is_err (sem_ver_str_to_b64 (s! "1.2.3.4")) = true /\ is_ok (sem_ver_str_to_b64 (s! "+1.-0.3")) = true.
Proof. split; (vm_compute; reflexivity). Qed.
#*)
Lemma C33_acc_l (s : bytes) : sem_ver_str_to_b64 s <> Panic /\
  (forall t, sem_ver_str_to_b64 s = Ok t -> dots s <= 2 /\ len t = 3 /\ exists v, base64_number 0 t = Some v).
Proof.
  assert (forall l, sem_ver_pieces l <> Panic /\ forall ns, sem_ver_pieces l = Ok ns -> length ns = length l) as P.
  { induction l as [|p l [IH1 IH2]]; cbn [sem_ver_pieces]; [split; [discriminate|intros ns H; now inversion H]|].
    assert (sem_ver_piece p <> Panic) as Q.
    { unfold sem_ver_piece. destruct (parse_i8 p) as [n|]; [destruct (n <? 0)%Z; discriminate|destruct p; discriminate]. }
    destruct (sem_ver_piece p); cbn [bind]; [|split; discriminate|contradiction].
    destruct (sem_ver_pieces l) as [ms| |]; cbn [bind]; [|split; discriminate|contradiction]. split; [discriminate|]. intros ns H. inversion H. cbn [length]. f_equal. now apply IH2. }
  unfold sem_ver_str_to_b64. cbv zeta. destruct (3 <? len (split_on x2e s)) eqn:E; [split; discriminate|].
  destruct (P (split_on x2e s)) as [P1 P2]. destruct (sem_ver_pieces (split_on x2e s)) as [ns| |] eqn:En; cbn [bind]; [|split; discriminate|contradiction].
  specialize (P2 ns eq_refl). pose proof (len_split_on x2e s) as L.
  assert (exists a b c, ns ++ repeat 0 (3 - length ns) = [a; b; c]) as (a & b & c & ->).
  { unfold len in E. rewrite <- P2 in E. destruct ns as [|a [|b [|c [|d ns]]]]; cbn [length repeat app Nat.sub]; eauto. cbn [length] in E. lia. }
  rewrite sem_ver3. destruct ((a <? 64) && (b <? 64) && (c <? 64)) eqn:E3; split; try discriminate. intros t H. inversion H. split; [unfold dots; lia|]. split; auto.
  cbn [base64_number]. rewrite !b64_index_char by lia. eauto.
Qed.
