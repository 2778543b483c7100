(** Exact statements about indexed primitives: every code, every accepted construction, every state. *)
From Coq Require Import String.
From Coq Require Import NArith ZArith Bool List Lia ZifyBool ZifyNat ZifyN.
From Verif Require Import Base BaseFacts B64 B64Facts Util UtilFacts Tables Matter MatterFacts MatterBin MatterText Indexer IndexerFacts IndexerMore
  Spec SpecIndexer IndexerThms UtilThms State StateThms SpecLabel.
Import ListNotations.
Open Scope N_scope.
Ltac Zify.zify_post_hook ::= Z.div_mod_to_equations.

(** ** Outcome of printing when the indices fit *)
Lemma iinfil_panic_range x z : lookup indexer_table (i_code x) = Some z -> irange x z ->
  (iinfil x = Panic <-> (3 - len (i_raw x) mod 3) mod 3 < ils z).
Proof.
  intros H Rg. pose proof (ilookup_facts _ _ H) as F. pose proof (ipad_le _ _ F) as (P1 & P2).
  pose proof (if_os _ _ F) as (O1 & O2 & O3 & O4 & O5). pose proof (index_small x z Rg O4) as Hi.
  unfold iinfil. rewrite (proj2 (isizage_of_ok _ _) H), bind_Ok. cbv zeta. rewrite u32_sub_in by lia. rewrite bind_Ok.
  fold (ims z) (ics z). rewrite ifs_step by auto. rewrite bind_Ok, pow64_small by lia. rewrite bind_Ok.
  replace (64 ^ ims z - 1 <? i_index x) with false by (destruct Rg; lia).
  match goal with |- bind ?t _ = _ <-> _ => assert (t = Ok tt) as -> end.
  { destruct (N.ltb_spec 0 (ios z)) as [Q|Q]; auto. rewrite pow64_small by lia. rewrite bind_Ok.
    destruct Rg as [_ Rg]. specialize (Rg Q). replace (64 ^ ios z - 1 <? i_ondex x) with false by lia. reflexivity. }
  rewrite bind_Ok, both_step by auto. rewrite len_iboth, N.eqb_refl by auto. cbn [negb].
  set (ps := (3 - len (i_raw x) mod 3) mod 3). destruct (N.ltb_spec ps (ils z)) as [Q|Q].
  - unfold u32_sub. replace (ils z <=? ps) with false by lia. cbn [bind]. split; auto.
  - rewrite u32_sub_in by lia. rewrite bind_Ok. fold (ipad z). destruct (negb _); [split; [discriminate|lia]|].
    rewrite from_str_encode by (rewrite len_encode, len_app, len_zeros; unfold ps in *; lia). rewrite bind_Ok.
    destruct (negb _); split; try discriminate; lia.
Qed.
Lemma iinfil_ok_wf x z : lookup indexer_table (i_code x) = Some z -> ((exists t, iinfil x = Ok t) <-> iraw_ok x z).
Proof.
  intros H. split.
  - intros (t & Ht). apply iinfil_inv in Ht as (z' & Hz' & W). assert (z' = z) by congruence. now subst.
  - intros W. exists (itext x z). now apply iinfil_wf.
Qed.

(** ** Padding signs *)
Lemma nth_app_r {A} (a b : list A) i : nth_error (a ++ b) (length a + i) = nth_error b i.
Proof. induction a; cbn; auto. Qed.
Lemma nth_len_l {A} (a b : list A) i : (i < length a)%nat -> nth_error (a ++ b) i = nth_error a i.
Proof. apply nth_error_app1. Qed.
Lemma b64_not_pad s i : is_b64s s = true -> nth_error s i <> Some x3d.
Proof.
  intros H E. apply nth_error_In in E. unfold is_b64s in H. rewrite forallb_forall in H. apply H in E. vm_compute in E. discriminate.
Qed.
Lemma encode_pads l : l <> [] ->
  (nth_error (encode l) (length (encode l) - 1) = Some x3d <-> len l mod 3 <> 0) /\
  (nth_error (encode l) (length (encode l) - 2) = Some x3d <-> len l mod 3 = 1).
Proof.
  intros N0. assert (exists k a, length a = (3 * k)%nat /\ exists t, l = a ++ t /\ (0 < length t <= 3)%nat) as (k & a & La & t & -> & Lt).
  { set (k := ((length l - 1) / 3)%nat). exists k, (firstn (3 * k) l). assert (0 < length l)%nat by (destruct l; cbn; [congruence|lia]).
    assert (3 * k <= length l - 1)%nat by (unfold k; pose proof (Nat.div_mod (length l - 1) 3); lia).
    split; [rewrite firstn_length; lia|]. exists (skipn (3 * k) l). rewrite firstn_skipn, skipn_length. split; auto.
    unfold k in *. pose proof (Nat.div_mod (length l - 1) 3 ltac:(lia)). pose proof (Nat.mod_upper_bound (length l - 1) 3 ltac:(lia)). lia. }
  rewrite encode_app by (unfold len; lia). rewrite len_app. assert (len a mod 3 = 0) as M by (unfold len; lia).
  assert (forall i e, (0 < i <= length e)%nat -> nth_error (encode a ++ e) (length (encode a ++ e) - i) = nth_error e (length e - i)) as K.
  { intros i e Hi. rewrite app_length. replace (length (encode a) + length e - i)%nat with (length (encode a) + (length e - i))%nat by lia. apply nth_app_r. }
  assert (forall x y z, is_b64s (enc3 x y z) = true) as K3.
  { intros x y z. pose proof (encode_b64s [x; y; z] eq_refl) as E. rewrite encode_cons3 in E. cbn [encode] in E. now rewrite app_nil_r in E. }
  assert (forall n, n < 64 -> b64_char n <> x3d) as K1.
  { intros n Hn E. pose proof (is_b64_char n Hn) as Q. rewrite E in Q. vm_compute in Q. discriminate. }
  destruct t as [|x [|y [|w [|? ?]]]]; cbn [length] in Lt; try lia.
  - rewrite !K by (cbn; lia). rewrite !len_cons, len_nilb. cbn [encode length Nat.sub nth_error]. split; split; intros; try lia; reflexivity.
  - rewrite !K by (cbn; lia). rewrite !len_cons, len_nilb. cbn [encode length Nat.sub nth_error]. split; split; intros; try lia; try reflexivity.
    exfalso. match goal with H : Some (b64_char ?n) = Some _ |- _ => injection H as H; apply (K1 n); auto end.
    pose proof (b2n_lt y). lia.
  - rewrite encode_cons3. cbn [encode]. rewrite app_nil_r. rewrite !len_cons, len_nilb.
    rewrite !K by (cbn; lia). split; split; intros; try lia; exfalso; eapply b64_not_pad; eauto.
Qed.

(** ** Parsed texts *)
Definition pad_codes : list bytes := [s! "1z"; s! "4z"].
Lemma ils_label c z : lookup indexer_table c = Some z -> (ils z = 1 <-> In c pad_codes) /\ (~ In c pad_codes -> ils z = 0).
Proof.
  intros Hz. pose proof (ilookup_facts _ _ Hz) as F. pose proof (if_ls _ _ F) as (L1 & _).
  assert (forallb (fun e => Bool.eqb (ils (snd e) =? 1) (existsb (beq (fst e)) pad_codes)) indexer_table = true) as T by (vm_compute; reflexivity).
  rewrite forallb_forall in T. apply lookup_In in Hz. apply T in Hz. cbn [fst snd] in Hz. apply eqb_prop in Hz.
  assert (ils z = 1 <-> In c pad_codes) as K. { rewrite <- existsb_In, <- Hz. split; intros; lia. }
  split; auto. intros Q. destruct (N.eq_dec (ils z) 1) as [E|E]; [now apply K in E|lia].
Qed.

Lemma parsed_pads s x z rest : lookup indexer_table (i_code x) = Some z -> s = itext_l 0 x z ++ rest -> len (itext_l 0 x z) = ixfs x z ->
  (padding_at s (ixfs x z - 1) <-> (ipad z + len (i_raw x)) mod 3 <> 0) /\
  (padding_at s (ixfs x z - 2) <-> (ipad z + len (i_raw x)) mod 3 = 1).
Proof.
  intros Hz -> L. pose proof (ilookup_facts _ _ Hz) as F. pose proof (ipad_le _ _ F) as (P1 & _). pose proof (if_cs _ _ F) as HC.
  destruct (ixfs_facts x z Hz) as (A & B & _). rewrite <- L.
  assert (Lb : len (iboth x z) = ics z) by (now apply len_iboth). pose proof (iboth_b64 x z Hz) as Bb.
  unfold padding_at. set (u := encode (zeros (ipad z) ++ i_raw x)).
  assert (itext_l 0 x z = iboth x z ++ drop (ipad z) u) as Et by (unfold itext_l, u; now rewrite N.add_0_r).
  rewrite Et in *.
  assert (len u = 4 * ((ipad z + len (i_raw x) + 2) / 3)) as Lu by (unfold u; rewrite len_encode, len_app, len_zeros; reflexivity).
  assert (zeros (ipad z) ++ i_raw x = [] \/ zeros (ipad z) ++ i_raw x <> []) as [Em|Nn] by (destruct (zeros (ipad z) ++ i_raw x); [now left|now right]).
  - assert (ipad z = 0 /\ len (i_raw x) = 0) as [E1 E2].
    { apply app_eq_nil in Em as [E1 E2]. apply (f_equal len) in E1. rewrite len_zeros in E1. rewrite E2. split; auto. }
    assert (drop (ipad z) u = []) as ->. { unfold u. rewrite Em. cbn [encode]. rewrite E1. reflexivity. }
    rewrite app_nil_r. rewrite E1, E2. rewrite E1, E2 in Lu.
    split; (split; [|intros Q; exfalso; revert Q; clear; vm_compute; congruence]); intros Q; rewrite nth_len_l in Q by (clear - Lb HC; unfold len in *; lia); now apply b64_not_pad in Q.
  - pose proof (encode_pads _ Nn) as (Q1 & Q2). fold u in Q1, Q2. rewrite len_app, len_zeros in Q1, Q2. rewrite <- Q1, <- Q2.
    assert (4 <= len u) as L4. { rewrite Lu. assert (0 < ipad z + len (i_raw x)) as Z; [|lia].
      destruct (N.eq_dec (ipad z + len (i_raw x)) 0) as [Y|Y]; [|lia]. elim Nn. apply len_0_nil. rewrite len_app, len_zeros. lia. }
    assert (forall i, (0 < i <= 2)%nat -> nth_error ((iboth x z ++ drop (ipad z) u) ++ rest) (N.to_nat (len (iboth x z ++ drop (ipad z) u) - N.of_nat i))
       = nth_error u (length u - i)) as K.
    { intros i Hi. rewrite len_app, len_drop, Lb in *. unfold len in L4.
      rewrite nth_len_l.
      - replace (N.to_nat (ics z + (len u - ipad z) - N.of_nat i)) with (length (iboth x z) + (length u - N.to_nat (ipad z) - i))%nat by (unfold len in *; lia).
        rewrite nth_app_r. pose proof (nth_app_r (take (ipad z) u) (drop (ipad z) u) (length u - N.to_nat (ipad z) - i)) as Z.
        rewrite take_drop in Z. rewrite <- Z. f_equal. pose proof (len_take (ipad z) u) as Y. clear - Y Hi P1 L4. unfold len in *. lia.
      - rewrite app_length. pose proof (len_drop (ipad z) u) as Z. unfold len in *. lia. }
    split; [rewrite <- (K 1%nat) by lia|rewrite <- (K 2%nat) by lia]; reflexivity.
Qed.

(*# C29_parsed_and_printable
   Which parsed texts print again, and what they print: with a signature code or the variable code the text of what was parsed never
   panics, and prints exactly when the material did not end with the base64 padding sign. With a label code it panics exactly when there
   is no padding sign, prints exactly when there is one, and what it prints is then never the text that was read.
##
Example C29_printable_case : exists x, iexfil (s! "0zABYWI=") = Ok x /\ ifull_size x = Ok 8 /\ padding_at (s! "0zABYWI=") 7 /\ is_err (iinfil x) = true.
Proof. eexists. split; [vm_compute; reflexivity|]. repeat split; vm_compute; reflexivity. Qed.
Example C29_label_case : exists x, iexfil (s! "1zAA" ++ repeat x41 72) = Ok x /\ iinfil x = Panic.
Proof. eexists. split; [vm_compute; reflexivity|]. vm_compute; reflexivity. Qed.
#*)
Lemma C29_printable_l (s : bytes) (x : indexer) (f : N) : iexfil s = Ok x -> ifull_size x = Ok f ->
  (~ In (i_code x) (map fst label_codes) ->
     iinfil x <> Panic /\ ((exists t, iinfil x = Ok t) <-> ~ padding_at s (f - 1))) /\
  (In (i_code x) (map fst label_codes) ->
     (iinfil x = Panic <-> ~ padding_at s (f - 1)) /\
     ((exists t, iinfil x = Ok t) <-> padding_at s (f - 1) /\ ~ padding_at s (f - 2)) /\
     forall t, iinfil x = Ok t -> ~ prefix t s).
Proof.
  intros H Hf. apply iexfil_inv in H as (z & rest & Hz & Rg & Io & E & L & _).
  pose proof (ilookup_facts _ _ Hz) as F. pose proof (ipad_le _ _ F) as (P1 & P2). pose proof (if_os _ _ F) as (O1 & O2 & O3 & O4 & O5).
  pose proof (if_ls _ _ F) as (L1 & L2). pose proof (if_cs _ _ F) as HC.
  rewrite (ifull_size_wf x z Hz (index_small x z Rg O4)) in Hf. injection Hf as <-.
  destruct (parsed_pads s x z rest Hz E L) as (Q1 & Q2). destruct (ils_label _ _ Hz) as (I1 & I0). change (map fst label_codes) with pad_codes.
  pose proof (iinfil_panic_range x z Hz Rg) as Pp. pose proof (iinfil_ok_wf x z Hz) as Pk.
  destruct (ixfs_facts x z Hz) as (A & B & _).
  assert (ixfs x z = ics z + 4 * ((ipad z + len (i_raw x) + 2) / 3) - ipad z) as Lf.
  { rewrite <- L. unfold itext_l. rewrite len_app, len_drop, len_encode, len_app, len_zeros, (len_iboth x z Hz), N.add_0_r.
    destruct (N.eq_dec (ipad z) 0); [lia|]. assert (1 <= (ipad z + len (i_raw x) + 2) / 3) by lia. lia. }
  assert (ipad z <> 0 -> 1 <= (ipad z + len (i_raw x) + 2) / 3) as G by lia.
  set (m := (ipad z + len (i_raw x) + 2) / 3) in *.
  assert (3 * m <= ipad z + len (i_raw x) + 2 < 3 * m + 3) as M by (unfold m; lia).
  split; intros C.
  - specialize (I0 C). split; [rewrite Pp; lia|]. rewrite Pk, Q1. unfold iraw_ok. clear Q1 Q2 Pp Pk.
    split; [intros (_ & W)|intros W; split; auto]; rewrite ?I0, ?Lf in *; clearbody m; lia.
  - apply I1 in C. assert (ipad z = 0) as P0 by lia. rewrite P0 in *. split; [|split].
    + rewrite Pp, Q1, C. lia.
    + rewrite Pk, Q1, Q2. unfold iraw_ok. clear Q1 Q2 Pp Pk. rewrite C, Lf, P0. clearbody m. split; [intros (_ & W); lia|intros (W1 & W2); split; auto; lia].
    + intros t Ht. pose proof (proj1 Pk (ex_intro _ t Ht)) as W. rewrite (iinfil_wf x z Hz W) in Ht. injection Ht as <-. intros (r & Er).
      pose proof (len_itext x z Hz W) as Lt. rewrite E in Er. apply app_eq_head in Er as [Er _].
      2:{ unfold len in *. lia. }
      unfold itext, itext_l in Er. apply app_eq_head in Er as [_ Er]; auto. rewrite P0, C, !drop_0 in Er. apply encode_inj in Er.
      apply (f_equal len) in Er. rewrite !len_app, !len_zeros in Er. lia.
Qed.

(*# C29_indexed_text_not_malleable_exactly
   So a parsed text that prints again prints to the beginning of what was read exactly when its code is not a label code.
##
Example C29_exactly_case : exists x t, iexfil (s! "1zAA" ++ repeat x41 71 ++ s! "=") = Ok x /\ iinfil x = Ok t /\ take 7 t = s! "1zAAAAA".
Proof. do 2 eexists. split; [vm_compute; reflexivity|]. split; vm_compute; reflexivity. Qed.
#*)
Lemma C29_exactly_l (s t : bytes) (x : indexer) : iexfil s = Ok x -> iinfil x = Ok t ->
  (prefix t s <-> ~ In (i_code x) (map fst label_codes)).
Proof.
  intros H Ht. split.
  - intros P C. pose proof H as H'. apply iexfil_inv in H' as (z & rest & Hz & Rg & _).
    pose proof (ifull_size_wf x z Hz (index_small x z Rg (proj1 (proj2 (proj2 (proj2 (if_os _ _ (ilookup_facts _ _ Hz)))))))) as Hf.
    destruct (C29_printable_l s x _ H Hf) as (_ & K). destruct (K C) as (_ & _ & K'). now apply (K' t).
  - intros C. now apply (C29_mall_l s t x).
Qed.

(** ** Constructed primitives *)
Lemma ikeep_text x z o : lookup indexer_table (i_code x) = Some z -> iraw_ok x z -> ils z = 0 -> (ios z = 0 \/ o = i_ondex x) ->
  iond_ok (iset_ondex o x) z -> iexfil (itext x z) = Ok (iset_ondex o x).
Proof.
  intros Hz W L Ho Io. assert (itext x z = itext (iset_ondex o x) z) as ->.
  { unfold itext, itext_l, iboth, iset_ondex. cbn [i_code i_raw i_index i_ondex]. destruct Ho as [Ho| ->]; auto. now rewrite Ho. }
  rewrite <- (app_nil_r (itext _ z)). apply iexfil_itext; auto. destruct W as [[R1 R2] W]. split; auto. split; auto.
  cbn [iset_ondex i_ondex]. destruct Ho as [Ho| ->]; auto. intros. lia.
Qed.
Lemma ikeep_bin x z o : lookup indexer_table (i_code x) = Some z -> iraw_ok x z -> (ios z = 0 \/ o = i_ondex x) ->
  iond_ok (iset_ondex o x) z -> ibexfil (ibin x z) = Ok (iset_ondex o x).
Proof.
  intros Hz W Ho Io. assert (ibin x z = ibin (iset_ondex o x) z) as ->.
  { unfold ibin, iboth, iset_ondex. cbn [i_code i_raw i_index i_ondex]. destruct Ho as [Ho| ->]; auto. now rewrite Ho. }
  rewrite <- (app_nil_r (ibin _ z)). apply ibexfil_ibin; auto. destruct W as [[R1 R2] W]. split; auto. split; auto.
  cbn [iset_ondex i_ondex]. destruct Ho as [Ho| ->]; auto. intros. lia.
Qed.

(** The entry of a code accepted by the constructor. *)
Lemma constructed code raw index ondex x : indexer_of_code_raw code raw index ondex = Ok x ->
  exists z, lookup indexer_table code = Some z /\ i_code x = code /\ i_index x = index /\
    (In code pad_codes -> irange x z /\ len (i_raw x) = 54) /\
    (~ In code pad_codes -> iraw_ok x z /\ iond_ok (iset_ondex (if (ios z =? 0) && negb (current_sig code) then index else i_ondex x) x) z) /\
    (ios z = 0 -> current_sig code = true -> i_ondex x = 0).
Proof.
  intros H. destruct (lookup indexer_table code) as [z|] eqn:Hz.
  2:{ unfold indexer_of_code_raw, isizage_of in H. rewrite Hz in H. destruct code; discriminate. }
  exists z. split; auto. rewrite (indexer_construct code z raw index ondex Hz) in H. cbv zeta in H.
  destruct (64 ^ ims z <=? index) eqn:E1; try discriminate.
  destruct (match ondex with Some o => (0 <? ios z) && (64 ^ ios z <=? o) | None => false end) eqn:E2; try discriminate.
  destruct (match ondex with Some _ => current_sig code | None => false end) eqn:E3; try discriminate.
  destruct (match ondex with Some o => negb (both_sig code) && negb (o =? index) && (ios z =? 0) | None => false end) eqn:E4; try discriminate.
  destruct (len raw <? _) eqn:E5; try discriminate. injection H as <-.
  pose proof (ilookup_facts _ _ Hz) as F. pose proof (ipad_le _ _ F) as (P1 & P2). pose proof (if_os _ _ F) as (O1 & O2 & O3 & O4 & O5).
  destruct (ils_label _ _ Hz) as (I1 & I0).
  assert (forallb (fun e => let '(c, z) := e in ((ios z =? 0) || (ios z =? ims z)) && (ivar z || ((ipad z + ils z + (ifs z - ics z) * 3 / 4) * 4 =? 3 * (ifs z - ics z + ipad z) + 4 * ils z))
      && (negb (existsb (beq c) pad_codes) || (((ifs z - ics z) * 3 / 4 =? 54) && negb (ivar z))) && negb (current_sig c && both_sig c)) indexer_table = true) as T
    by (vm_compute; reflexivity).
  rewrite forallb_forall in T. pose proof (lookup_In _ _ _ Hz) as Hin. apply T in Hin. clear T. cbv beta iota in Hin.
  apply andb_true_iff in Hin as [Hin T4]. apply andb_true_iff in Hin as [Hin T3]. apply andb_true_iff in Hin as [T1 T2].
  assert (irange (Ix code (take ((ixfs (Ix code [] index 0) z - ics z) * 3 / 4) raw) index (other_index code index ondex)) z) as Rg.
  { split; cbn [i_index i_ondex]; [lia|]. intros O. unfold other_index. destruct ondex as [o|]; [lia|].
    assert (ios z = ims z) as -> by lia. destruct (both_sig code); [lia|]. apply N.neq_0_lt_0. now apply N.pow_nonzero. }
  split; auto. split; auto. split; [|split].
  - intros C. split; auto. cbn [i_raw]. rewrite len_take. apply existsb_In in C. rewrite C in T3. cbn [negb orb] in T3. apply andb_true_iff in T3 as [T3 T5].
    unfold ixfs in *. apply negb_true_iff in T5. rewrite T5 in *. clear - T3 E5. lia.
  - intros C. specialize (I0 C). split.
    + split; auto. cbn [i_raw]. rewrite len_take. unfold ixfs in *. cbn [i_index] in *. destruct (ivar z) eqn:Ev.
      * destruct (if_var _ _ F Ev) as (C4 & _). rewrite I0, (P2 eq_refl). clear - E5 C4. lia.
      * cbn [orb] in T2. rewrite I0 in *. clear - T2 E5. lia.
    + unfold iond_ok. cbn [iset_ondex i_code i_index i_ondex]. destruct (ios z =? 0) eqn:E0; cbn [andb].
      * unfold other_index. destruct (current_sig code) eqn:Ec; cbn [negb]; auto. destruct ondex; [discriminate|].
        cbn [andb negb] in T4. destruct (both_sig code); [discriminate|reflexivity].
      * intros Ec. rewrite Ec in *. unfold other_index. destruct ondex; [discriminate|]. cbn [andb negb] in T4. destruct (both_sig code); [discriminate|reflexivity].
  - intros E0 Ec. cbn [i_ondex]. rewrite Ec in *. unfold other_index. destruct ondex; [discriminate|]. cbn [andb negb] in T4. destruct (both_sig code); [discriminate|reflexivity].
Qed.

(*# C23_indexed_text_round_trip_exactly
   What happens to everything the constructor accepts, whatever the code: with a label code printing panics; with any other code the text
   prints and reads back to the same code, raw and index, and to the same other index when the code has a field for it or is a
   current-only code, and to the index when it has none.
##
Example C23_exactly_case : exists x, indexer_of_code_raw (s! "A") (repeat x07 64) 3 (Some 5) = Ok x /\ is_ok (iinfil x) = true.
Proof. eexists. split; [vm_compute; reflexivity|]. vm_compute; reflexivity. Qed.
#*)
Lemma C23_exactly_l (code raw : bytes) (index : N) (ondex : option N) (x : indexer) : indexer_of_code_raw code raw index ondex = Ok x ->
  (In code (map fst label_codes) -> iinfil x = Panic) /\
  (~ In code (map fst label_codes) -> exists t, iinfil x = Ok t /\
     (In code [s! "A"; s! "C"; s! "E"; s! "0z"] -> iexfil t = Ok (iset_ondex index x)) /\
     (~ In code [s! "A"; s! "C"; s! "E"; s! "0z"] -> iexfil t = Ok x)).
Proof.
  intros H. change (map fst label_codes) with pad_codes. apply constructed in H as (z & Hz & Ec & Ei & H1 & H2 & H3). rewrite <- Ec in Hz. split; intros C.
  - destruct (H1 C) as (Rg & L). rewrite iinfil_panic_range by eauto. rewrite L. rewrite <- Ec in C.
    destruct (ils_label _ _ Hz) as (I & _). apply I in C. rewrite C. vm_compute. reflexivity.
  - destruct (H2 C) as (W & Io). exists (itext x z). split; [now apply iinfil_wf|].
    assert (ils z = 0) as L. { destruct (ils_label _ _ Hz) as (_ & I). apply I. congruence. }
    assert ((ios z =? 0) && negb (current_sig code) = existsb (beq code) [s! "A"; s! "C"; s! "E"; s! "0z"]) as K.
    { assert (forallb (fun e => Bool.eqb ((ios (snd e) =? 0) && negb (current_sig (fst e))) (existsb (beq (fst e)) [s! "A"; s! "C"; s! "E"; s! "0z"])) indexer_table = true) as T
        by (vm_compute; reflexivity).
      rewrite forallb_forall in T. apply lookup_In in Hz. apply T in Hz. cbn [fst snd] in Hz. rewrite Ec in Hz. now apply eqb_prop in Hz. }
    split; intros D.
    + apply existsb_In in D. rewrite D in K. rewrite K in Io. apply ikeep_text; auto. left. apply andb_true_iff in K as [K _]. lia.
    + destruct ((ios z =? 0) && negb (current_sig code)) eqn:E; [symmetry in K; now apply existsb_In in K|].
      replace x with (iset_ondex (i_ondex x) x) at 2 by (now destruct x). apply ikeep_text; auto.
Qed.

(*# C24_indexed_binary_round_trip_exactly
   The same in binary: printing panics exactly for the label codes and the big Ed448 codes; with any other code the binary form prints
   and reads back the same way.
##
Example C24_exactly_case : exists x, indexer_of_code_raw (s! "0z") (s! "abcdef") 2 None = Ok x /\ is_ok (ibinfil x) = true.
Proof. eexists. split; [vm_compute; reflexivity|]. vm_compute; reflexivity. Qed.
#*)
Lemma C24_exactly_l (code raw : bytes) (index : N) (ondex : option N) (x : indexer) : indexer_of_code_raw code raw index ondex = Ok x ->
  (ibinfil x = Panic <-> In code (map fst label_codes ++ big448_codes)) /\
  (~ In code (map fst label_codes ++ big448_codes) -> exists b, ibinfil x = Ok b /\
     (In code [s! "A"; s! "C"; s! "E"; s! "0z"] -> ibexfil b = Ok (iset_ondex index x)) /\
     (~ In code [s! "A"; s! "C"; s! "E"; s! "0z"] -> ibexfil b = Ok x)).
Proof.
  intros H. change (map fst label_codes) with pad_codes. apply constructed in H as (z & Hz & Ec & Ei & H1 & H2 & H3). rewrite <- Ec in Hz.
  assert ((iss z = 6 <-> In code (s! "4z" :: big448_codes))) as S6.
  { assert (forallb (fun e => Bool.eqb (iss (snd e) =? 6) (existsb (beq (fst e)) (s! "4z" :: big448_codes))) indexer_table = true) as T by (vm_compute; reflexivity).
    rewrite forallb_forall in T. pose proof Hz as Hz'. apply lookup_In in Hz'. apply T in Hz'. cbn [fst snd] in Hz'. rewrite Ec in Hz'. apply eqb_prop in Hz'.
    rewrite <- existsb_In, <- Hz'. split; intros; lia. }
  pose proof (ilookup_facts _ _ Hz) as F. pose proof (if_os _ _ F) as (O1 & O2 & O3 & O4 & O5).
  assert (~ In code (pad_codes ++ big448_codes) -> exists b, ibinfil x = Ok b /\
     (In code [s! "A"; s! "C"; s! "E"; s! "0z"] -> ibexfil b = Ok (iset_ondex index x)) /\
     (~ In code [s! "A"; s! "C"; s! "E"; s! "0z"] -> ibexfil b = Ok x)) as K.
  { intros C. assert (~ In code pad_codes) as C1 by (intros D; apply C; apply in_or_app; auto).
    assert (iss z <= 5) as S5. { assert (iss z <> 6); [|lia]. intros D. apply S6 in D. apply C. apply in_or_app. destruct D as [D|D]; [left; rewrite <- D; right; now left|auto]. }
    destruct (H2 C1) as (W & Io). exists (ibin x z). split; [now apply ibinfil_wf|].
    assert ((ios z =? 0) && negb (current_sig code) = existsb (beq code) [s! "A"; s! "C"; s! "E"; s! "0z"]) as K.
    { assert (forallb (fun e => Bool.eqb ((ios (snd e) =? 0) && negb (current_sig (fst e))) (existsb (beq (fst e)) [s! "A"; s! "C"; s! "E"; s! "0z"])) indexer_table = true) as T
        by (vm_compute; reflexivity).
      rewrite forallb_forall in T. pose proof Hz as Hz'. apply lookup_In in Hz'. apply T in Hz'. cbn [fst snd] in Hz'. rewrite Ec in Hz'. now apply eqb_prop in Hz'. }
    split; intros D.
    + apply existsb_In in D. rewrite D in K. rewrite K in Io. apply ikeep_bin; auto. left. apply andb_true_iff in K as [K _]. lia.
    + destruct ((ios z =? 0) && negb (current_sig code)) eqn:E; [symmetry in K; now apply existsb_In in K|].
      replace x with (iset_ondex (i_ondex x) x) at 2 by (now destruct x). apply ikeep_bin; auto. }
  split; auto. split.
  - intros P. assert (existsb (beq code) (pad_codes ++ big448_codes) = true) as D; [|now apply existsb_In in D].
    destruct (existsb (beq code) (pad_codes ++ big448_codes)) eqn:D; auto. exfalso.
    destruct K as (b & E & _); [|congruence]. intros D'. apply existsb_In in D'. congruence.
  - intros C. destruct (N.eq_dec (iss z) 6) as [Q|Q]; [now apply (ibinfil_panics x z)|].
    assert (In code pad_codes) as C1. { apply in_app_or in C as [C|C]; auto. elim Q. apply S6. now right. }
    destruct (H1 C1) as (Rg & L). assert (ils z = 1) as I. { destruct (ils_label _ _ Hz) as (I & _). apply I. congruence. }
    unfold ibinfil. rewrite L. change ((3 - 54 mod 3) mod 3) with 0. rewrite (proj2 (isizage_of_ok _ _) Hz), bind_Ok. cbv zeta. rewrite u32_sub_in by lia. rewrite bind_Ok.
    fold (ims z) (ics z). rewrite pow64_small by lia. rewrite bind_Ok.
    assert (64 ^ ims z <= 64 ^ iss z) by (apply N.pow_le_mono_r; unfold ims; lia).
    replace (64 ^ iss z - 1 <? i_index x) with false by (destruct Rg; lia).
    match goal with |- bind ?t _ = _ => assert (t = Ok tt) as -> end.
    { destruct (N.eqb_spec (ios z) 1) as [Q'|Q']; auto. rewrite pow64_small by lia. rewrite bind_Ok.
      destruct Rg as [_ Rg]. rewrite Q' in *. specialize (Rg eq_refl). replace (64 ^ 1 - 1 <? i_ondex x) with false by lia. reflexivity. }
    rewrite bind_Ok, ifs_step by (auto; now apply (index_small x z)). rewrite bind_Ok, both_step by auto. rewrite (len_iboth x z Hz), N.eqb_refl. cbn [negb].
    rewrite I. reflexivity.
Qed.

(** ** Binary form in every state *)
Lemma short_ok k n v : 0 < k -> n <= u64_max -> shortened k n v -> v < 64 ^ k /\ uint_to_b64 n k = b64_digits (N.to_nat k) v.
Proof.
  intros Hk Hn (j & H1 & H2 & ->). assert (64 ^ j <> 0) as P by (apply N.pow_nonzero; lia).
  assert (n / 64 ^ j < 64 ^ k) as Q. { rewrite N.pow_add_r in H1. apply N.div_lt_upper_bound; lia. }
  split; auto. destruct (C21_exact_l n k j Hk Hn) as (V & L); [lia|auto|]. replace (n =? 64 ^ (k + j)) with false in L by lia.
  change (base64_number 0) with b64val in V. apply b64_digits_val in V. rewrite <- V. f_equal. unfold len in L. lia.
Qed.
Lemma least_digits k n J : n <= 64 ^ (k + J) -> exists j, n <= 64 ^ (k + j) /\ (j = 0 \/ 64 ^ (k + j - 1) < n).
Proof.
  induction J as [|J IH] using N.peano_ind; intros H; [exists 0; auto|].
  destruct (N.leb_spec n (64 ^ (k + J))) as [Q|Q]; [now apply IH|]. exists (N.succ J). split; auto. right. now replace (k + N.succ J - 1) with (k + J) by lia.
Qed.
Lemma short_ex k n : 0 < k -> n <= u64_max -> k <= len (uint_to_b64 n k) /\ (len (uint_to_b64 n k) = k -> exists v, shortened k n v).
Proof.
  intros Hk Hn. destruct (least_digits k n 11) as (j & H1 & H2).
  { assert (64 ^ 11 <= 64 ^ (k + 11)) by (apply N.pow_le_mono_r; lia). change (64 ^ 11) with 73786976294838206464 in *. unfold u64_max in Hn. lia. }
  destruct (C21_exact_l n k j Hk Hn H1 H2) as (_ & L). rewrite L. destruct (N.eqb_spec n (64 ^ (k + j))) as [Q|Q]; [split; lia|].
  split; [lia|]. intros _. exists (n / 64 ^ j), j. repeat split; auto. lia.
Qed.
Lemma short_fun k n v w : shortened k n v -> shortened k n w -> v = w.
Proof.
  assert (forall a b, n < 64 ^ (k + a) -> (b = 0 \/ 64 ^ (k + b - 1) < n) -> b <= a) as M.
  { intros a b Ha Hb. destruct (N.leb_spec b a) as [|Q]; auto. exfalso. destruct Hb as [Hb|Hb]; [lia|].
    assert (64 ^ (k + a) <= 64 ^ (k + b - 1)) by (apply N.pow_le_mono_r; lia). lia. }
  intros (i & I1 & I2 & ->) (j & J1 & J2 & ->). pose proof (M i j I1 J2). pose proof (M j i J1 I2). now replace j with i by lia.
Qed.

Lemma ibinfil_same x x' z : lookup indexer_table (i_code x) = Some z -> ivar z = false -> iss z <= 5 -> i_code x' = i_code x -> i_raw x' = i_raw x ->
  uint_to_b64 (i_index x) (ims z) = uint_to_b64 (i_index x') (ims z) -> uint_to_b64 (i_ondex x) (ios z) = uint_to_b64 (i_ondex x') (ios z) ->
  i_index x < 64 ^ iss z -> i_index x' < 64 ^ iss z -> (ios z = 1 -> i_ondex x < 64 /\ i_ondex x' < 64) -> ibinfil x = ibinfil x'.
Proof.
  intros Hz V S5 Ec Er Ei Eo R R' Ro. pose proof (ilookup_facts _ _ Hz) as F. pose proof (if_os _ _ F) as (O1 & O2 & O3 & O4 & O5).
  unfold ibinfil. rewrite Ec, Er. rewrite (proj2 (isizage_of_ok _ _) Hz), !bind_Ok. cbv zeta. rewrite u32_sub_in by lia. rewrite !bind_Ok.
  fold (ims z) (ics z) (ivar z). rewrite V, Ei, Eo. rewrite pow64_small by lia. rewrite !bind_Ok.
  replace (64 ^ iss z - 1 <? i_index x) with false by lia. replace (64 ^ iss z - 1 <? i_index x') with false by lia.
  assert (forall o, (ios z = 1 -> o < 64) -> (if ios z =? 1 then let* q := pow64_u32 (ios z) in if q - 1 <? o then Err EInvalidVarIndex else Ok tt else Ok tt) = Ok tt) as K.
  { intros o Ho. destruct (N.eqb_spec (ios z) 1) as [Q|Q]; auto. rewrite Q. change (pow64_u32 1) with (Ok 64). rewrite bind_Ok.
    specialize (Ho Q). now replace (64 - 1 <? o) with false by lia. }
  rewrite !K by (intros Q; now apply Ro in Q). reflexivity.
Qed.

Lemma ibinfil_checks x z b : lookup indexer_table (i_code x) = Some z -> ivar z = false -> ils z = 0 -> iss z <= 5 -> ibinfil x = Ok b ->
  i_index x < 64 ^ iss z /\ (ios z = 1 -> i_ondex x < 64) /\
  len (i_code x ++ uint_to_b64 (i_index x) (ims z) ++ uint_to_b64 (i_ondex x) (ios z)) = ics z /\
  4 * (ipad z + len (i_raw x)) = 3 * (ifs z - ics z + ipad z).
Proof.
  intros Hz V L0 S5 H. pose proof (ilookup_facts _ _ Hz) as F. pose proof (if_os _ _ F) as (O1 & O2 & O3 & O4 & O5). pose proof (if_cs _ _ F) as HC.
  destruct (ixfs_facts x z Hz) as (A & B & _). unfold ixfs in A, B. rewrite V in A, B.
  unfold ibinfil in H. rewrite (proj2 (isizage_of_ok _ _) Hz), bind_Ok in H. cbv zeta in H. rewrite u32_sub_in, bind_Ok in H by lia.
  fold (ims z) (ics z) (ivar z) in H. rewrite V, pow64_small in H by lia. rewrite bind_Ok in H.
  destruct (64 ^ iss z - 1 <? i_index x) eqn:E1; try discriminate. assert (64 ^ iss z <> 0) as Pn by (now apply N.pow_nonzero).
  apply bind_ok in H as (u & Hu & H). rewrite bind_Ok in H.
  destruct (len _ =? ics z) eqn:E2; cbn [negb] in H; try discriminate.
  apply bind_ok in H as (d & Hd & H). fold (ipad z) in H. destruct (ipad z =? d) eqn:E3; cbn [negb] in H; try discriminate.
  apply bind_ok in H as (full & Hfull & H). apply bind_ok in H as (bc & Hbc & H). apply from_bytes_ok in Hbc as (Lf & Ebc).
  rewrite L0 in H. change (zeros 0) with (@nil byte) in H. cbn [app] in H.
  destruct (len (bc ++ i_raw x) mod 3 =? 0) eqn:E4; cbn [negb orb] in H; try discriminate.
  destruct (len (bc ++ i_raw x) * 4 / 3 =? ifs z) eqn:E5; cbn [negb] in H; try discriminate. clear H.
  assert (len bc = (ics z + 1) * 3 / 4) as Lbc.
  { rewrite Ebc, len_drop. clear - Hfull HC. destruct ((ics z + 1) * 3 / 4 <=? 3) eqn:E6.
    - apply bind_ok in Hfull as (v & _ & Hfull). apply (f_equal (fun r => match r with Ok l => len l | _ => 0 end)) in Hfull. cbv beta iota in Hfull.
      rewrite len_be_bytes in Hfull. change (N.of_nat 4) with 4 in Hfull. lia.
    - destruct ((ics z + 1) * 3 / 4 <=? 6) eqn:E7; [|discriminate]. apply bind_ok in Hfull as (v & _ & Hfull). apply (f_equal (fun r => match r with Ok l => len l | _ => 0 end)) in Hfull. cbv beta iota in Hfull.
      rewrite len_be_bytes in Hfull. change (N.of_nat 8) with 8 in Hfull. lia. }
  rewrite len_app, Lbc in E4, E5. repeat split; try lia.
  - intros Q. rewrite Q in Hu. change (1 =? 1) with true in Hu. cbv iota in Hu. change (pow64_u32 1) with (Ok 64) in Hu. rewrite bind_Ok in Hu.
    destruct (64 - 1 <? i_ondex x) eqn:E6; try discriminate. lia.
  - clear - E4 E5 A B HC. unfold ipad. lia.
Qed.

(*# C26_binary_index_exactly
   What the binary form does in every state of a signature (the big Ed448 codes apart, which panic): it prints exactly when the raw has
   the code's length, the index fits both index fields together, the other index fits when its field is one character, and neither
   number is a power of 64 too large for its field; and what it then holds is each number shortened to its leading digits, so reading
   it back gives the shortened numbers.
##
Example C26_exactly_case : shortened 2 5000 78 /\ exists b, ibinfil (Ix (s! "2A") (repeat x07 64) 5000 9) = Ok b /\
  ibexfil b = Ok (Ix (s! "2A") (repeat x07 64) 78 9) /\ is_err (ibinfil (Ix (s! "2A") (repeat x07 64) 4096 9)) = true.
Proof.
  split; [exists 1; split; [vm_compute; reflexivity|split; [right; vm_compute; reflexivity|vm_compute; reflexivity]]|]. eexists. split; [vm_compute; reflexivity|]. split; vm_compute; reflexivity.
Qed.
#*)
Lemma C26_exactly_l (code : bytes) (n d e : N) (raw : bytes) (index ondex : N) :
  In (code, (n, d, e)) sig_codes -> ~ In code big448_codes -> index <= u32_max -> ondex <= u32_max ->
  let x := Ix code raw index ondex in
  ((exists b, ibinfil x = Ok b) <->
     len raw = n /\ index < 64 ^ (d + e) /\ (e = 1 -> ondex < 64) /\ (exists i, shortened d index i) /\ (0 < e -> exists o, shortened e ondex o)) /\
  forall b i o, ibinfil x = Ok b -> shortened d index i -> (0 < e -> shortened e ondex o) ->
    (e = 0 -> In code current_codes -> ibexfil b = Ok (Ix code raw i 0)) /\
    (e = 0 -> ~ In code current_codes -> ibexfil b = Ok (Ix code raw i i)) /\
    (0 < e -> ~ In code current_codes \/ o = 0 -> ibexfil b = Ok (Ix code raw i o)) /\
    (0 < e -> In code current_codes -> o <> 0 -> exists r, ibexfil b = Err r).
Proof.
  intros H Hb Hi Ho x. destruct (sig_known _ _ _ _ H) as (z & Hz & Ev & En & Ed & Ek & El & Ec & Eb & E6 & E4).
  pose proof (ilookup_facts _ _ Hz) as F. pose proof (if_os _ _ F) as (O1 & O2 & O3 & O4 & O5). pose proof (if_cs _ _ F) as HC.
  assert (iss z <= 5) as S5. { assert (iss z <> 6); [|lia]. intros Q. now apply E6 in Q. }
  assert (d + e = iss z) as Es by (unfold ims in *; lia).
  assert (index <= u64_max /\ ondex <= u64_max) as (Hi' & Ho') by (unfold u32_max, u64_max in *; lia).
  assert (forall i o, len raw = n -> index < 64 ^ (d + e) -> (e = 1 -> ondex < 64) -> shortened d index i -> (0 < e -> shortened e ondex o) ->
     iraw_ok (Ix code raw i o) z /\ ibinfil x = ibinfil (Ix code raw i o)) as K.
  { intros i o Lr Ri R1 Si So. destruct (short_ok d index i ltac:(lia) Hi' Si) as (Bi & Ui).
    assert (64 ^ ims z <= 64 ^ iss z) as Mi by (apply N.pow_le_mono_r; unfold ims; lia). split.
    - split.
      + split; cbn [i_index i_ondex]; [congruence|]. rewrite Ek. intros Q. now apply short_ok in So as (So & _).
      + unfold ixfs. cbn [i_raw]. rewrite Ev, El, Lr. lia.
    - apply (ibinfil_same _ _ z); auto; cbn [x i_code i_raw i_index i_ondex].
      + rewrite Ed, Ui. symmetry. apply uint_to_b64_exact; [lia|auto].
      + rewrite Ek. destruct (N.eq_dec e 0) as [E0|E0]; [subst e; rewrite E0; reflexivity|]. destruct (short_ok e ondex o ltac:(lia) Ho' (So ltac:(lia))) as (Bo & Uo).
        rewrite Uo. symmetry. apply uint_to_b64_exact; [lia|auto].
      + rewrite <- Es. auto.
      + rewrite Ed in Mi. lia.
      + rewrite Ek. intros Q. specialize (R1 Q). subst e. rewrite Q in *. split; auto. destruct (short_ok 1 ondex o ltac:(lia) Ho' (So ltac:(lia))) as (Bo & _). exact Bo. }
  assert (forall b, ibinfil x = Ok b -> len raw = n /\ index < 64 ^ (d + e) /\ (e = 1 -> ondex < 64) /\ (exists i, shortened d index i) /\
     (0 < e -> exists o, shortened e ondex o)) as I.
  { intros b Eb'. apply (ibinfil_checks x z b Hz Ev El S5) in Eb' as (A1 & A2 & A3 & A4). cbn [x i_code i_raw i_index i_ondex] in *.
    rewrite !len_app, (if_len _ _ F), Ed, Ek in A3. destruct (short_ex d index ltac:(lia) Hi') as (G1 & G2).
    rewrite Es. split; [lia|]. split; auto. split; [rewrite <- Ek; auto|].
    destruct (N.eq_dec e 0) as [E0|E0].
    - split; [apply G2|lia]. unfold uint_to_b64 at 2 in A3. replace (e =? 0) with true in A3 by lia. rewrite len_nilb in A3. unfold ics in A3. lia.
    - destruct (short_ex e ondex ltac:(lia) Ho') as (G3 & G4). unfold ics in A3. split; [apply G2; lia|intros _; apply G4; lia]. }
  split.
  - split; [intros (b & Hbb); eauto|]. intros (Lr & Ri & R1 & (i & Si) & So).
    assert (exists o, 0 < e -> shortened e ondex o) as (o & So').
    { destruct (N.eq_dec e 0); [exists 0; lia|]. destruct So as (o & So); [lia|]. exists o. auto. }
    destruct (K i o Lr Ri R1 Si So') as (W & Eq). rewrite Eq. exists (ibin (Ix code raw i o) z). now apply ibinfil_wf.
  - intros b i o Hbb Si So. destruct (I b Hbb) as (Lr & Ri & R1 & _). destruct (K i o Lr Ri R1 Si So) as (W & Eq).
    rewrite Eq, (ibinfil_wf (Ix code raw i o) z Hz W S5) in Hbb. injection Hbb as <-.
    assert (forall o', (ios z = 0 \/ o' = o) -> iond_ok (Ix code raw i o') z -> ibexfil (ibin (Ix code raw i o) z) = Ok (Ix code raw i o')) as G.
    { intros o' Ho2 Io. apply (ikeep_bin (Ix code raw i o) z o'); auto. }
    unfold iond_ok in G. cbn [i_code i_index i_ondex] in G. split; [|split; [|split]].
    + intros E0 C. apply G; [left; lia|]. replace (ios z =? 0) with true by lia. apply Ec in C. now rewrite C.
    + intros E0 C. apply G; [left; lia|]. replace (ios z =? 0) with true by lia. destruct (current_sig code); auto. elim C. now apply Ec.
    + intros E0 C. apply G; auto. replace (ios z =? 0) with false by lia. intros C'. apply Ec in C'. destruct C as [C|C]; auto. now elim C.
    + intros E0 C No. set (y := Ix code raw i o) in *. assert (lookup indexer_table (i_code y) = Some z) as Hy by exact Hz.
      pose proof (len_bcode_iboth y z Hy) as Lc. pose proof (encode_ibin y z Hy W) as Et. pose proof (len_iboth y z Hy) as Lb.
      assert (nbytes (ics z) <= len (ibin y z)) as Nc by (unfold ibin; rewrite len_app, Lc; lia).
      rewrite (ibexfil_head y z); auto; [|apply W|rewrite Et; unfold itext, itext_l; now apply take_app_exact].
      unfold read_ondex. apply Ec in C. cbn [y i_code]. rewrite C. replace (ios z =? 0) with false by lia. cbn [negb y i_ondex].
      rewrite (b64_u32_digits _ (ios z)) by (try lia; destruct W as [[_ W] _]; apply W; lia). rewrite bind_Ok.
      replace (o =? 0) with false by lia. cbn [negb bind]. eauto.
Qed.

(** ** The variable code and the label codes in every state *)
Lemma iexfil_label x z : lookup indexer_table (i_code x) = Some z -> iraw_ok x z -> iond_ok x z -> ils z = 1 ->
  iexfil (itext x z) = Ok (iset_raw (x00 :: i_raw x) x).
Proof.
  intros H W Ho L0. pose proof (ilookup_facts _ _ H) as F. pose proof (if_ls _ _ F) as (_ & P0).
  assert (ipad z = 0) as Ep by lia. clear P0.
  pose proof (len_itext x z H W) as Lt. pose proof (itext_ascii x z H W) as Ha. pose proof (len_iboth x z H) as Lb.
  pose proof (if_os _ _ F) as (O1 & O2 & O3 & O4 & O5). pose proof (if_cs _ _ F) as HC.
  destruct (ixfs_facts x z H) as (A & B & _). destruct W as [Rg W]. pose proof (index_small x z Rg O4) as Hi.
  destruct (if_first _ _ F) as (f & r & i & Ec & Ehard & _ & _).
  set (T := itext x z) in *.
  assert (T = i_code x ++ b64_digits (N.to_nat (ims z)) (i_index x) ++ b64_digits (N.to_nat (ios z)) (i_ondex x) ++ encode (x00 :: i_raw x)) as ET.
  { unfold T, itext, itext_l, iboth. rewrite L0, Ep, drop_0. now rewrite <- !app_assoc. }
  assert (exists t, T = f :: t) as (t & Et). { rewrite ET, Ec. cbn [app]. eauto. }
  unfold iexfil. rewrite Et. rewrite <- Et. rewrite Ehard, bind_Ok.
  assert (len (i_code x) = ihs z) as Lh by apply (if_len _ _ F).
  rewrite Lt. unfold ics in *. replace (ixfs x z <? ihs z) with false by lia.
  rewrite slice_str_ascii by (auto; lia). rewrite bind_Ok, drop_0, N.sub_0_r.
  assert (take (ihs z) T = i_code x) as -> by (rewrite ET; now apply take_app_exact).
  rewrite (proj2 (isizage_of_ok _ _) H), bind_Ok. cbv zeta. rewrite u32_sub_in by lia. rewrite bind_Ok. fold (ims z) (ics z) (ipad z).
  replace (ixfs x z <? ics z) with false by (unfold ics; lia).
  rewrite slice_str_ascii by (auto; unfold ims in *; lia). rewrite bind_Ok.
  assert (take (ihs z + ims z - ihs z) (drop (ihs z) T) = b64_digits (N.to_nat (ims z)) (i_index x)) as ->.
  { rewrite ET, drop_app_exact by auto. apply take_app_exact. rewrite len_b64_digits. lia. }
  rewrite (b64_u32_digits _ (ims z)) by (try lia; destruct Rg; auto). rewrite bind_Ok.
  rewrite slice_str_ascii by (auto; unfold ims in *; lia). rewrite bind_Ok.
  assert (take (ihs z + (ims z + ios z) - (ihs z + ims z)) (drop (ihs z + ims z) T) = b64_digits (N.to_nat (ios z)) (i_ondex x)) as ->.
  { rewrite <- drop_drop, ET. rewrite !drop_app_exact by (auto; rewrite len_b64_digits; lia). apply take_app_exact. rewrite len_b64_digits. lia. }
  rewrite read_ondex_wf by auto. rewrite bind_Ok. rewrite ifs_step' by auto. rewrite bind_Ok.
  rewrite N.ltb_irrefl.
  rewrite slice_str_ascii by (auto; lia). rewrite bind_Ok, drop_0, N.sub_0_r, (take_all _ T) by lia.
  assert (from_str T (ics z) = Ok (encode (x00 :: i_raw x))) as Erest.
  { rewrite from_str_ascii by (auto; unfold ics; lia). f_equal. unfold T, itext, itext_l. rewrite L0, Ep, drop_0.
    change (zeros (0 + 1) ++ i_raw x) with (x00 :: i_raw x). apply drop_app_exact. unfold ics. lia. }
  rewrite Erest, L0, Ep. change (0 =? 0) with true. cbn [negb]. rewrite !bind_Ok.
  rewrite decode_encode, bind_Ok. rewrite slice_bytes_in by (rewrite ?len_cons; lia). rewrite bind_Ok, drop_0.
  change (take (1 - 0) (x00 :: i_raw x)) with [x00]. change (be_val [x00] =? 0) with true. cbn [negb]. rewrite from_bytes_in by lia. rewrite bind_Ok, drop_0. reflexivity.
Qed.

Definition vz : isizage := Isz 2 2 0 u32_max 0.
(*# C98_variable_code_text
   An indexed primitive with the variable code in an arbitrary state: printing its text, and asking for its size, panics exactly when
   four times its index plus four leaves 32 bits; it prints exactly when the raw is three times the index and the index is below 4096, and
   reads back with the other index equal to the index.
##
Example C98_variable_case : iinfil (Ix (s! "0z") [] 1073741823 0) = Panic /\ is_err (iinfil (Ix (s! "0z") [] 1073741822 0)) = true /\
  iinfil (Ix (s! "0z") (s! "abc") 1 7) = Ok (s! "0zABYWJj").
Proof. repeat split; vm_compute; reflexivity. Qed.
#*)
Lemma C98_variable_l (raw : bytes) (index ondex : N) : let x := Ix (s! "0z") raw index ondex in
  (iinfil x = Panic <-> u32_max < 4 * index + 4) /\ (ifull_size x = Panic <-> u32_max < 4 * index + 4) /\
  ((exists t, iinfil x = Ok t) <-> len raw = 3 * index /\ index < 4096) /\
  forall t, iinfil x = Ok t -> iexfil t = Ok (Ix (s! "0z") raw index index).
Proof.
  intros x. assert (lookup indexer_table (i_code x) = Some vz) as Hz by reflexivity.
  assert ((let* q := u32_mul index 4 in u32_add q 4) = if u32_max <? 4 * index + 4 then Panic else Ok (4 * index + 4)) as Q.
  { unfold u32_mul. destruct (index * 4 <=? u32_max) eqn:E1; cbn [bind].
    - unfold u32_add. destruct (N.ltb_spec u32_max (4 * index + 4)); [replace (index * 4 + 4 <=? u32_max) with false by lia; auto|].
      replace (index * 4 + 4 <=? u32_max) with true by lia. f_equal. lia.
    - replace (u32_max <? 4 * index + 4) with true by lia. reflexivity. }
  assert (iraw_ok x vz <-> len raw = 3 * index /\ index < 4096) as Wk.
  { unfold iraw_ok, irange, ixfs. cbn [x i_index i_ondex i_raw]. change (ivar vz) with true. change (ics vz) with 4. change (ipad vz) with 0. change (64 ^ ims vz) with 4096.
    cbn [vz ios ils]. lia. }
  split; [|split; [|split]].
  - destruct (N.ltb_spec index 4096) as [S|S].
    + rewrite (iinfil_panic_range x vz Hz) by (split; [exact S|cbn [vz ios]; lia]). cbn [vz ils]. unfold u32_max. lia.
    + unfold iinfil. cbn [x i_code i_index i_ondex i_raw]. change (isizage_of (s! "0z")) with (Ok vz). rewrite bind_Ok. cbv zeta. cbn [vz ihs iss ios ifs ils].
      change (u32_sub 2 0) with (Ok 2). rewrite bind_Ok. change (u32_max =? u32_max) with true. change (negb ((2 + 2) mod 4 =? 0)) with false. change (negb (0 =? 0)) with false. cbv iota.
      change (2 + 2) with 4. rewrite Q. destruct (N.ltb_spec u32_max (4 * index + 4)); cbn [bind]; [split; auto|].
      change (pow64_u32 2) with (Ok 4096). rewrite bind_Ok. replace (4096 - 1 <? index) with true by lia. split; [discriminate|lia].
  - unfold ifull_size. cbn [x i_code i_index]. change (isizage_of (s! "0z")) with (Ok vz). rewrite bind_Ok. cbn [vz ihs iss ifs]. change (u32_max =? u32_max) with true. cbn [negb].
    change (2 + 2) with 4. rewrite Q. destruct (N.ltb_spec u32_max (4 * index + 4)); split; auto; try discriminate. lia.
  - rewrite (iinfil_ok_wf x vz Hz). exact Wk.
  - intros t Ht. pose proof (proj1 (iinfil_ok_wf x vz Hz) (ex_intro _ t Ht)) as W. rewrite (iinfil_wf x vz Hz W) in Ht. injection Ht as <-.
    apply (ikeep_text x vz index); auto. reflexivity.
Qed.

(*# C98_label_text
   An indexed primitive with a label code in an arbitrary state: printing its text panics exactly when both indices fit and the raw is a
   whole number of three bytes; it prints exactly when both indices fit and the raw has 53 bytes, and then reads back with a zero byte
   more in front of the raw, so never to the same value.
##
Example C98_label_case : exists t, iinfil (Ix (s! "4z") (repeat x07 53) 5 6) = Ok t /\ iexfil t = Ok (Ix (s! "4z") (x00 :: repeat x07 53) 5 6) /\
  iinfil (Ix (s! "1z") (repeat x07 54) 5 6) = Panic /\ iinfil (Ix (s! "1z") [] 5 6) = Panic.
Proof. eexists. split; [vm_compute; reflexivity|]. repeat split; vm_compute; reflexivity. Qed.
#*)
Lemma C98_label_l (code : bytes) (k f : N) (raw : bytes) (index ondex : N) : In (code, (k, f)) label_codes -> let x := Ix code raw index ondex in
  (iinfil x = Panic <-> index < 64 ^ k /\ ondex < 64 ^ k /\ len raw mod 3 = 0) /\
  ((exists t, iinfil x = Ok t) <-> index < 64 ^ k /\ ondex < 64 ^ k /\ len raw = 53) /\
  forall t, iinfil x = Ok t -> len t = f /\ iexfil t = Ok (Ix code (x00 :: raw) index ondex).
Proof.
  intros H x. assert (exists z, lookup indexer_table code = Some z /\ ivar z = false /\ ims z = k /\ ios z = k /\ ics z = f - 72 /\ ifs z = f /\ 72 < f /\ ils z = 1 /\ ipad z = 0 /\
     current_sig code = false /\ 1 <= k) as (z & Hz & Ev & Em & Eo & Ecs & Ef & Hf & El & Ep & Ec & K1).
  { cbn [label_codes In] in H. destruct H as [H|[H|[]]]; injection H as <- <- <-; eexists; (split; [reflexivity|]); repeat split; try reflexivity; vm_compute; congruence. }
  assert (irange x z <-> index < 64 ^ k /\ ondex < 64 ^ k) as Rk.
  { unfold irange. cbn [x i_index i_ondex]. rewrite Em, Eo. split; intros (A & B); split; auto. apply B. lia. }
  assert (iraw_ok x z <-> index < 64 ^ k /\ ondex < 64 ^ k /\ len raw = 53) as Wk.
  { unfold iraw_ok. rewrite Rk. unfold ixfs. cbn [x i_raw]. rewrite Ev, El, Ep, Ecs, Ef. lia. }
  split; [|split].
  - destruct (N.ltb_spec index (64 ^ k)) as [A|A]; [destruct (N.ltb_spec ondex (64 ^ k)) as [B|B]|].
    + rewrite (iinfil_panic_range x z Hz) by (apply Rk; auto). rewrite El. cbn [x i_raw]. lia.
    + split; [|lia]. intros P. exfalso. revert P. pose proof (ilookup_facts _ _ Hz) as F. pose proof (if_os _ _ F) as (O1 & O2 & O3 & O4 & O5).
      unfold iinfil. cbn [x i_code i_index i_ondex i_raw]. rewrite (proj2 (isizage_of_ok _ _) Hz), bind_Ok. cbv zeta. rewrite u32_sub_in by lia. rewrite bind_Ok.
      fold (ims z) (ics z) (ivar z). rewrite Ev, bind_Ok, Em, Eo. rewrite !pow64_small by lia. rewrite bind_Ok.
      replace (64 ^ k - 1 <? index) with false by lia. replace (0 <? k) with true by lia. rewrite bind_Ok.
      assert (64 ^ k <> 0) by (now apply N.pow_nonzero). replace (64 ^ k - 1 <? ondex) with true by lia. cbn [bind]. discriminate.
    + split; [|lia]. intros P. exfalso. revert P. pose proof (ilookup_facts _ _ Hz) as F. pose proof (if_os _ _ F) as (O1 & O2 & O3 & O4 & O5).
      unfold iinfil. cbn [x i_code i_index i_ondex i_raw]. rewrite (proj2 (isizage_of_ok _ _) Hz), bind_Ok. cbv zeta. rewrite u32_sub_in by lia. rewrite bind_Ok.
      fold (ims z) (ics z) (ivar z). rewrite Ev, bind_Ok, Em. rewrite !pow64_small by lia. rewrite bind_Ok.
      assert (64 ^ k <> 0) by (now apply N.pow_nonzero). replace (64 ^ k - 1 <? index) with true by lia. discriminate.
  - rewrite (iinfil_ok_wf x z Hz). exact Wk.
  - intros t Ht. pose proof (proj1 (iinfil_ok_wf x z Hz) (ex_intro _ t Ht)) as W. rewrite (iinfil_wf x z Hz W) in Ht. injection Ht as <-.
    split; [rewrite len_itext by auto; unfold ixfs; now rewrite Ev|]. apply (iexfil_label x z); auto.
    unfold iond_ok. cbn [x i_code i_ondex]. replace (ios z =? 0) with false by lia. rewrite Ec. discriminate.
Qed.
