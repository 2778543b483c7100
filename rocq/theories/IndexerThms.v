(** Proofs of the indexed primitive properties in the vocabulary of [Spec] and [SpecIndexer]. *)
From Coq Require Import String.
From Coq Require Import NArith ZArith Bool List Lia ZifyBool ZifyNat ZifyN.
From Verif Require Import Base BaseFacts B64 B64Facts Util UtilFacts Tables Matter MatterFacts MatterBin MatterText Indexer IndexerFacts IndexerMore
  Spec SpecIndexer.
Import ListNotations.
Open Scope N_scope.
Ltac Zify.zify_post_hook ::= Z.div_mod_to_equations.

(** ** The published codes are the table *)
Definition sig_ok (e : bytes * (N * N * N)) : bool :=
  let '(c, (n, d, k)) := e in
  match lookup indexer_table c with
  | Some z => negb (ivar z) && ((ifs z - ics z) * 3 / 4 =? n) && (ims z =? d) && (ios z =? k) && (ils z =? 0)
              && Bool.eqb (current_sig c) (existsb (beq c) current_codes) && Bool.eqb (both_sig c) (negb (current_sig c))
              && Bool.eqb (iss z =? 6) (existsb (beq c) big448_codes)
              && (4 * (ipad z + n) =? 3 * (ifs z - ics z + ipad z))
  | None => false
  end.
Lemma sig_codes_ok : forallb sig_ok sig_codes = true.
Proof. vm_compute. reflexivity. Qed.

Lemma existsb_In c l : existsb (beq c) l = true <-> In c l.
Proof.
  rewrite existsb_exists. split.
  - intros (y & H & E). apply beq_eq in E. now subst.
  - intros H. exists c. split; auto. apply beq_refl.
Qed.

Lemma sig_known c n d k : In (c, (n, d, k)) sig_codes -> exists z, lookup indexer_table c = Some z /\
  ivar z = false /\ (ifs z - ics z) * 3 / 4 = n /\ ims z = d /\ ios z = k /\ ils z = 0 /\
  (current_sig c = true <-> In c current_codes) /\ both_sig c = negb (current_sig c) /\
  (iss z = 6 <-> In c big448_codes) /\ 4 * (ipad z + n) = 3 * (ifs z - ics z + ipad z).
Proof.
  intros H. pose proof (proj1 (forallb_forall _ _) sig_codes_ok _ H) as E. unfold sig_ok in E.
  destruct (lookup indexer_table c) as [z|]; try discriminate. exists z.
  repeat (apply andb_true_iff in E as [E ?]). repeat match goal with H : Bool.eqb _ _ = true |- _ => apply eqb_prop in H end.
  apply negb_true_iff in E. repeat split; auto; try lia.
  - intros Hc. apply existsb_In. congruence.
  - intros Hc. apply existsb_In in Hc. congruence.
  - intros Hc. apply existsb_In. rewrite <- H1. lia.
  - intros Hc. apply existsb_In in Hc. rewrite Hc in *. lia.
Qed.

Lemma sig_build c n d k raw index ondex : In (c, (n, d, k)) sig_codes ->
  indexer_of_code_raw c raw index ondex =
  if 64 ^ d <=? index then Err EInvalidVarIndex
  else if match ondex with Some o => (0 <? k) && (64 ^ k <=? o) | None => false end then Err EInvalidVarIndex
  else if match ondex with Some _ => current_sig c | None => false end then Err EInvalidVarIndex
  else if len raw <? n then Err EShortage
  else Ok (Ix c (take n raw) index (match ondex with Some o => o | None => if current_sig c then 0 else index end)).
Proof.
  intros H. destruct (sig_known _ _ _ _ H) as (z & Hz & Ev & En & Ed & Ek & El & Ec & Eb & E6 & E4).
  rewrite (indexer_construct c z) by auto. cbv zeta. unfold ixfs. rewrite Ev, En, Ed, Ek.
  destruct (64 ^ d <=? index); auto. destruct (match ondex with Some o => (0 <? k) && (64 ^ k <=? o) | None => false end); auto.
  unfold other_index. rewrite Eb. destruct ondex as [o|].
  - destruct (current_sig c); auto.
  - destruct (current_sig c); auto.
Qed.

Lemma sig_build_ok c n d k raw index ondex x : In (c, (n, d, k)) sig_codes ->
  indexer_of_code_raw c raw index ondex = Ok x ->
  index < 64 ^ d /\ (forall o, ondex = Some o -> 0 < k -> o < 64 ^ k) /\ (forall o, ondex = Some o -> current_sig c = false) /\ n <= len raw /\
  x = Ix c (take n raw) index (match ondex with Some o => o | None => if current_sig c then 0 else index end).
Proof.
  intros H E. rewrite (sig_build _ _ _ _ _ _ _ H) in E.
  destruct (64 ^ d <=? index) eqn:E1; try discriminate.
  destruct (match ondex with Some o => (0 <? k) && (64 ^ k <=? o) | None => false end) eqn:E2; try discriminate.
  destruct (match ondex with Some _ => current_sig c | None => false end) eqn:E3; try discriminate.
  destruct (len raw <? n) eqn:E4; try discriminate. inversion E. repeat split; auto; try lia.
  - intros o ->. intros. lia.
  - intros o ->. auto.
Qed.

(** A built signature is printable, and its other index survives when the code has room for it or it is the default. *)
Lemma sig_wf c n d k raw index ondex x : In (c, (n, d, k)) sig_codes -> indexer_of_code_raw c raw index ondex = Ok x ->
  exists z, lookup indexer_table (i_code x) = Some z /\ i_code x = c /\ iraw_ok x z /\ ils z = 0 /\ (iss z = 6 <-> In c big448_codes) /\
    ((k = 0 -> ondex = None \/ ondex = Some index) -> iond_ok x z).
Proof.
  intros H E. destruct (sig_known _ _ _ _ H) as (z & Hz & Ev & En & Ed & Ek & El & Ec & Eb & E6 & E4).
  apply (sig_build_ok _ _ _ _ _ _ _ _ H) in E as (A1 & A2 & A3 & A4 & ->). exists z. cbn [i_code]. split; auto. split; auto.
  pose proof (ilookup_facts _ _ Hz) as F. pose proof (if_os _ _ F) as (O1 & O2 & O3 & O4 & O5).
  assert (ios z = 0 \/ ios z = ims z) as Eod.
  { clear - H Ed Ek. assert (forallb (fun e => let '(_, (_, d, k)) := e in (k =? 0) || (k =? d)) sig_codes = true) as T by (vm_compute; reflexivity).
    rewrite forallb_forall in T. apply T in H. cbv beta iota in H. lia. }
  split; [|split; [auto|split; [auto|]]].
  - split.
    + split; cbn [i_index i_ondex]; [congruence|]. intros Hp. destruct ondex as [o|]; [rewrite Ek in *; auto|].
      destruct (current_sig c); [apply N.neq_0_lt_0; now apply N.pow_nonzero|]. destruct Eod as [Eo|Eo]; [lia|]. rewrite Eo. congruence.
    + cbn [i_raw]. unfold ixfs. rewrite Ev, El, len_take. lia.
  - intros Hk. unfold iond_ok. cbn [i_code i_index i_ondex]. rewrite Ek. destruct (k =? 0) eqn:E0.
    + destruct (Hk ltac:(lia)) as [Q|Q]; rewrite Q; [reflexivity|]. now rewrite (A3 index Q).
    + intros Hc. destruct ondex as [o|]; [|now rewrite Hc]. rewrite (A3 o eq_refl) in Hc. discriminate.
Qed.

Lemma sig_built_wf x : sig_built x -> exists z, lookup indexer_table (i_code x) = Some z /\ iraw_ok x z /\ ils z = 0 /\
  (iss z = 6 <-> In (i_code x) big448_codes) /\ iond_ok x z.
Proof.
  intros (c & n & d & k & raw & index & ondex & H & Hk & E). destruct (sig_wf _ _ _ _ _ _ _ _ H E) as (z & Hz & Ec & W & L & S & O).
  exists z. rewrite Ec in *. repeat (split; auto); apply S.
Qed.

(*# C23_indexed_text_round_trip_refuted
   False for every accepted combination: a both-lists code without room for the other index accepts one different from the index and
   then loses it; a variable code built without other index reads back with one; and two label codes cannot be printed at all (panic).
#*)
Lemma C23_refuted_l :
  (exists x t x', indexer_of_code_raw (s! "A") (repeat x07 64) 3 (Some 5) = Ok x /\ i_ondex x = 5 /\
     iinfil x = Ok t /\ iexfil t = Ok x' /\ i_ondex x' = 3) /\
  (exists x t x', indexer_of_code_raw (s! "0z") (s! "abc") 1 None = Ok x /\ i_ondex x = 0 /\
     iinfil x = Ok t /\ iexfil t = Ok x' /\ i_ondex x' = 1) /\
  (exists x, indexer_of_code_raw (s! "1z") (repeat x00 54) 1 None = Ok x /\ iinfil x = Panic) /\
  (exists x, indexer_of_code_raw (s! "4z") (repeat x00 54) 1 None = Ok x /\ iinfil x = Panic).
Proof.
  split; [|split; [|split]].
  - do 3 eexists. split. { vm_compute. reflexivity. } split. { reflexivity. } split. { vm_compute. reflexivity. }
    split. { vm_compute. reflexivity. } reflexivity.
  - do 3 eexists. split. { vm_compute. reflexivity. } split. { reflexivity. } split. { vm_compute. reflexivity. }
    split. { vm_compute. reflexivity. } reflexivity.
  - eexists. split. { vm_compute. reflexivity. } vm_compute. reflexivity.
  - eexists. split. { vm_compute. reflexivity. } vm_compute. reflexivity.
Qed.

(*# C23_indexed_text_round_trip_partial
   What holds: for all sixteen signature codes, with the other index absent or equal to the index when the code has no room for it,
   code, raw, index and other index survive printing and parsing (as string or bytes). Missing: see the refutation.
##
Example C23_case : exists x t, indexer_of_code_raw (s! "2A") (repeat x07 64) 130 (Some 65) = Ok x /\ iinfil x = Ok t /\ take 6 t = s! "2ACCBB".
Proof. do 2 eexists. split. { vm_compute. reflexivity. } split. { vm_compute. reflexivity. } vm_compute. reflexivity. Qed.
#*)
Lemma C23_partial_l (code : bytes) (n d e : N) (raw : bytes) (index : N) (ondex : option N) (x : indexer) :
  In (code, (n, d, e)) sig_codes -> (e = 0 -> ondex = None \/ ondex = Some index) ->
  indexer_of_code_raw code raw index ondex = Ok x ->
  exists t, iinfil x = Ok t /\ iexfil t = Ok x /\ iexfil_b t = Ok x.
Proof.
  intros H Hk E. destruct (sig_wf _ _ _ _ _ _ _ _ H E) as (z & Hz & Ec & W & L & S & O).
  assert (iexfil (itext x z) = Ok x) as P. { pose proof (iexfil_itext x z [] Hz W (O Hk) L eq_refl) as Q. now rewrite app_nil_r in Q. }
  exists (itext x z). split; [now apply iinfil_wf|]. split; auto. unfold iexfil_b, from_utf8.
  rewrite utf8_ascii by now apply itext_ascii. now rewrite bind_Ok.
Qed.

(*# C23_variable_round_trip_partial
   The variable code "0z" round trips in text and in binary when the other index given is the index.
##
Example C23_variable_case : exists x, indexer_of_code_raw (s! "0z") (s! "abcdef") 2 (Some 2) = Ok x /\ iinfil x = Ok (s! "0zACYWJjZGVm").
Proof. eexists. split. { vm_compute. reflexivity. } vm_compute. reflexivity. Qed.
#*)
Lemma C23_variable_l (raw : bytes) (index : N) (x : indexer) :
  indexer_of_code_raw (s! "0z") raw index (Some index) = Ok x ->
  exists t b, iinfil x = Ok t /\ iexfil t = Ok x /\ ibinfil x = Ok b /\ ibexfil b = Ok x.
Proof.
  intros E. assert (lookup indexer_table (s! "0z") = Some (Isz 2 2 0 u32_max 0)) as Hz by reflexivity.
  rewrite (indexer_construct _ _ raw index (Some index) Hz) in E. cbv zeta in E.
  change (64 ^ ims (Isz 2 2 0 u32_max 0)) with 4096 in E. cbn [ios] in E. change (0 <? 0) with false in E. change (current_sig (s! "0z")) with false in E.
  rewrite N.eqb_refl in E. cbn [andb negb] in E. rewrite andb_false_r in E. cbn [andb] in E.
  unfold ixfs in E. change (ivar (Isz 2 2 0 u32_max 0)) with true in E. change (ics (Isz 2 2 0 u32_max 0)) with 4 in E.
  cbn [i_index] in E. cbv iota in E. replace ((4 + 4 * index - 4) * 3 / 4) with (3 * index) in E by lia.
  destruct (4096 <=? index) eqn:E1; try discriminate. destruct (len raw <? 3 * index) eqn:E2; try discriminate.
  inversion E; subst x; clear E. set (x := Ix _ _ _ _). set (z := Isz 2 2 0 u32_max 0) in *.
  assert (iraw_ok x z) as W.
  { split; [split|].
    - change (64 ^ ims z) with 4096. cbn [x i_index]. lia.
    - cbn [z ios]. lia.
    - change (ixfs x z) with (4 + 4 * index). change (ics z) with 4. change (ipad z) with 0. cbn [x i_raw z ils]. rewrite len_take. lia. }
  assert (iond_ok x z) as O by reflexivity. assert (ils z = 0) as L by reflexivity.
  exists (itext x z), (ibin x z). repeat split.
  - now apply iinfil_wf.
  - pose proof (iexfil_itext x z [] Hz W O L eq_refl) as Q. now rewrite app_nil_r in Q.
  - apply ibinfil_wf; auto. cbn [z iss]. lia.
  - pose proof (ibexfil_ibin x z [] Hz W O) as Q. now rewrite app_nil_r in Q.
Qed.

(*# C24_indexed_binary_round_trip_refuted
   False for the big Ed448 codes: printing the binary form of any signature with code "3A" or "3B" panics (64^6 overflows u32).
#*)
Lemma C24_refuted_l :
  (forall code raw index ondex x, In code big448_codes -> indexer_of_code_raw code raw index ondex = Ok x -> ibinfil x = Panic) /\
  (exists x, indexer_of_code_raw (s! "3A") (repeat x07 114) 5 (Some 9) = Ok x).
Proof.
  split.
  - intros code raw index ondex x H E.
    assert (exists n d e, In (code, (n, d, e)) sig_codes) as (n & d & e & Hin).
    { exists 114, 3, 3. vm_compute in H. destruct H as [<-|[<-|[]]]; vm_compute; tauto. }
    destruct (sig_wf _ _ _ _ _ _ _ _ Hin E) as (z & Hz & Ec & _ & _ & S & _).
    eapply ibinfil_panics; eauto. now apply S.
  - eexists. vm_compute. reflexivity.
Qed.

(*# C24_indexed_binary_round_trip_partial
   What holds: for the other signature codes the binary form exists and parses back to the same code, raw, index and other index; and
   for all signature codes the decoded text parses as binary to the same value. Missing: see C24's refutation and C23's.
##
Example C24_case : exists x b, indexer_of_code_raw (s! "2A") (repeat x07 64) 130 (Some 65) = Ok x /\ ibinfil x = Ok b /\ len b = 69.
Proof. do 2 eexists. split. { vm_compute. reflexivity. } split. { vm_compute. reflexivity. } vm_compute. reflexivity. Qed.
#*)
Lemma C24_partial_l (code : bytes) (n d e : N) (raw : bytes) (index : N) (ondex : option N) (x : indexer) :
  In (code, (n, d, e)) sig_codes -> (e = 0 -> ondex = None \/ ondex = Some index) ->
  indexer_of_code_raw code raw index ondex = Ok x ->
  (~ In code big448_codes -> exists b, ibinfil x = Ok b /\ ibexfil b = Ok x) /\
  (exists t b, iinfil x = Ok t /\ decode t = Ok b /\ ibexfil b = Ok x).
Proof.
  intros H Hk E. destruct (sig_wf _ _ _ _ _ _ _ _ H E) as (z & Hz & Ec & W & L & S & O).
  assert (ibexfil (ibin x z) = Ok x) as P. { pose proof (ibexfil_ibin x z [] Hz W (O Hk)) as Q. now rewrite app_nil_r in Q. }
  split.
  - intros Hb. exists (ibin x z). split; auto. apply ibinfil_wf; auto. pose proof (if_os _ _ (ilookup_facts _ _ Hz)).
    assert (iss z <> 6) by (intros Q; apply Hb; now apply S). lia.
  - exists (itext x z), (ibin x z). repeat split; auto; [now apply iinfil_wf|]. rewrite <- encode_ibin by auto. apply decode_encode.
Qed.

(*# C25_indexed_text_binary_agree_partial
   Signatures: text and binary are each other's base64url encoding, and the text has full_size characters, a whole number of quadlets.
   Missing: the codes "3A" and "3B", whose binary form is a panic (C24); their text still satisfies the length clause.
##
Example C25_case : exists x, sig_built x /\ ~ In (i_code x) big448_codes /\ ifull_size x = Ok 156.
Proof.
  exists (Ix (s! "0B") (repeat x09 114) 63 0). split; [|split; [vm_compute; intuition discriminate|vm_compute; reflexivity]].
  exists (s! "0B"), 114, 1, 1, (repeat x09 114), 63, None. split; [vm_compute; tauto|]. split; [discriminate|]. vm_compute. reflexivity.
Qed.
#*)
Lemma C25_l (x : indexer) : sig_built x ->
  (exists t, iinfil x = Ok t /\ ifull_size x = Ok (len t) /\ len t mod 4 = 0) /\
  (~ In (i_code x) big448_codes -> exists t b, iinfil x = Ok t /\ ibinfil x = Ok b /\ decode t = Ok b /\ encode b = t /\ 4 * len b = 3 * len t).
Proof.
  intros Hb. destruct (sig_built_wf x Hb) as (z & Hz & W & L & S & O). pose proof (if_os _ _ (ilookup_facts _ _ Hz)) as (_ & _ & _ & O4 & O5).
  destruct (ixfs_facts x z Hz) as (A & B & _). pose proof (len_itext x z Hz W) as Lt. split.
  - exists (itext x z). rewrite Lt. repeat split; auto; [now apply iinfil_wf|]. apply ifull_size_wf; auto. eapply index_small; eauto. apply W.
  - intros Hn. assert (iss z <> 6) by (intros Q; apply Hn; now apply S). exists (itext x z), (ibin x z).
    repeat split; auto; [now apply iinfil_wf|apply ibinfil_wf; auto; lia| |now apply encode_ibin|rewrite Lt; now apply len_ibin].
    rewrite <- encode_ibin by auto. apply decode_encode.
Qed.

(*# C25_indexed_text_binary_agree_refuted
   False for the codes "3A" and "3B": every signature with one of them has a text form of whole quadlets, but asking for its binary form panics.
##
Example C25_refuted_case : exists x, sig_built x /\ In (i_code x) big448_codes.
Proof.
  exists (Ix (s! "3A") (repeat x07 114) 5 9). split; [|vm_compute; tauto].
  exists (s! "3A"), 114, 3, 3, (repeat x07 114), 5, (Some 9). split; [vm_compute; tauto|]. split; [discriminate|]. vm_compute. reflexivity.
Qed.
#*)
Lemma C25_refuted_l (x : indexer) :
  sig_built x -> In (i_code x) big448_codes -> (exists t, iinfil x = Ok t /\ len t mod 4 = 0) /\ ibinfil x = Panic.
Proof.
  intros B I. split; [destruct (proj1 (C25_l x B)) as (t & T & _ & L); eauto|]. destruct B as (code & n & d & e & raw & index & ondex & Hin & _ & E).
  apply (proj1 C24_refuted_l) with (code := code) (raw := raw) (index := index) (ondex := ondex); [|exact E].
  destruct (sig_wf _ _ _ _ _ _ _ _ Hin E) as (z & _ & Ec & _). now rewrite Ec in I.
Qed.

(*# C26_index_ranges
   A signature is built exactly when there is enough raw material, the index fits the index characters of the code, an explicit other
   index fits its characters, and no other index is given for a current-only code; the index held is the index given.
##
Example C26_case : In (s! "0A", (114, 1, 1)) sig_codes /\ is_ok (indexer_of_code_raw (s! "0A") (repeat x01 114) 63 (Some 63)) = true /\
  is_err (indexer_of_code_raw (s! "0A") (repeat x01 114) 64 (Some 63)) = true /\
  is_err (indexer_of_code_raw (s! "0A") (repeat x01 114) 63 (Some 64)) = true.
Proof. repeat split; try (vm_compute; reflexivity). vm_compute. tauto. Qed.
#*)
Lemma C26_l (code : bytes) (n d e : N) (raw : bytes) (index : N) (ondex : option N) :
  In (code, (n, d, e)) sig_codes ->
  ((exists x, indexer_of_code_raw code raw index ondex = Ok x) <->
   n <= len raw /\ index < 64 ^ d /\ (forall o, ondex = Some o -> ~ In code current_codes /\ (0 < e -> o < 64 ^ e))) /\
  (forall x, indexer_of_code_raw code raw index ondex = Ok x -> i_code x = code /\ i_raw x = take n raw /\ i_index x = index) /\
  indexer_of_code_raw code raw index ondex <> Panic.
Proof.
  intros H. destruct (sig_known _ _ _ _ H) as (z & Hz & Ev & En & Ed & Ek & El & Ec & Eb & E6 & E4). split; [split|split].
  - intros (x & E). apply (sig_build_ok _ _ _ _ _ _ _ _ H) in E as (A1 & A2 & A3 & A4 & _). split; auto. split; auto. intros o Ho. split; [|now apply A2].
    intros Hc. apply Ec in Hc. rewrite (A3 _ Ho) in Hc. discriminate.
  - intros (A1 & A2 & A3). rewrite (sig_build _ _ _ _ _ _ _ H). replace (64 ^ d <=? index) with false by lia.
    replace (match ondex with Some o => (0 <? e) && (64 ^ e <=? o) | None => false end) with false.
    2:{ destruct ondex as [o|]; auto. destruct (A3 o eq_refl) as [_ A4]. destruct (N.ltb_spec 0 e) as [Q|Q]; cbn [andb]; auto.
        specialize (A4 Q). lia. }
    replace (match ondex with Some _ => current_sig code | None => false end) with false.
    2:{ destruct ondex as [o|]; auto. destruct (A3 o eq_refl) as [A4 _]. destruct (current_sig code); auto. exfalso. apply A4. now apply Ec. }
    replace (len raw <? n) with false by lia. eauto.
  - intros x E. apply (sig_build_ok _ _ _ _ _ _ _ _ H) in E as (_ & _ & _ & _ & ->). auto.
  - rewrite (sig_build _ _ _ _ _ _ _ H). repeat match goal with |- context [if ?c then _ else _] => destruct c end; discriminate.
Qed.

(*# C26_printed_index_is_held_index
   Whatever the state of an indexed primitive (setters included), if its text can be printed then the index characters of the text
   spell the index held, and the other-index characters (when the code has some) the other index held.
##
Example C26_printed_case : exists t, iinfil (Ix (s! "2A") (repeat x07 64) 130 65) = Ok t /\ take 2 (drop 2 t) = s! "CC".
Proof. eexists. split. { vm_compute. reflexivity. } vm_compute. reflexivity. Qed.
#*)
Lemma C26_printed_l (code : bytes) (n d e : N) (x : indexer) (t : bytes) :
  In (code, (n, d, e)) sig_codes -> i_code x = code -> iinfil x = Ok t ->
  base64_number 0 (take d (drop (len code) t)) = Some (i_index x) /\
  (0 < e -> base64_number 0 (take e (drop (len code + d) t)) = Some (i_ondex x)).
Proof.
  intros H Ecode Hi. destruct (sig_known _ _ _ _ H) as (z & Hz & Ev & En & Ed & Ek & El & Ec & Eb & E6 & E4).
  destruct (iinfil_inv _ _ Hi) as (z' & Hz' & W). rewrite Ecode in Hz'. assert (z' = z) as -> by congruence.
  rewrite <- Ecode in Hz. rewrite (iinfil_wf x z Hz W) in Hi. inversion Hi; subst t; clear Hi. destruct W as [[R1 R2] _].
  pose proof (ilookup_facts _ _ Hz) as F. unfold itext. rewrite itext_l_split. rewrite <- Ecode, <- Ed, <- Ek. split.
  - rewrite drop_app_exact by auto. rewrite take_app_exact by (rewrite len_b64_digits; lia).
    change (base64_number 0 ?s) with (b64val s). rewrite b64val_digits, N2Nat.id, N.mod_small; auto.
  - intros Hp. rewrite <- drop_drop. rewrite drop_app_exact by auto. rewrite drop_app_exact by (rewrite len_b64_digits; lia).
    rewrite take_app_exact by (rewrite len_b64_digits; lia).
    change (base64_number 0 ?s) with (b64val s). rewrite b64val_digits, N2Nat.id, N.mod_small; auto.
Qed.

(*# C26_binary_index_refuted
   In binary it is false: after set_index(5000) a "2A" signature still prints, with another index.
#*)
Lemma C26_binary_refuted_l :
  exists b x', ibinfil (Ix (s! "2A") (repeat x07 64) 5000 0) = Ok b /\ ibexfil b = Ok x' /\ i_index x' = 78.
Proof. do 2 eexists. split. { vm_compute. reflexivity. } split. { vm_compute. reflexivity. } vm_compute. reflexivity. Qed.

(*# C27_current_only
   A current-only code is refused with an explicit other index and holds other index 0; the both-lists codes built without one use
   the index for both lists.
##
Example C27_case : exists x, indexer_of_code_raw (s! "0A") (repeat x01 114) 63 None = Ok x /\ i_ondex x = 63.
Proof. eexists. split. { vm_compute. reflexivity. } reflexivity. Qed.
#*)
Lemma C27_l (code : bytes) (n d e : N) (raw : bytes) (index o : N) (x : indexer) :
  In (code, (n, d, e)) sig_codes ->
  (In code current_codes -> exists err, indexer_of_code_raw code raw index (Some o) = Err err) /\
  (In code current_codes -> indexer_of_code_raw code raw index None = Ok x -> i_ondex x = 0) /\
  (~ In code current_codes -> indexer_of_code_raw code raw index None = Ok x -> i_ondex x = index) /\
  (~ In code current_codes -> indexer_of_code_raw code raw index (Some o) = Ok x -> i_ondex x = o).
Proof.
  intros H. destruct (sig_known _ _ _ _ H) as (z & Hz & Ev & En & Ed & Ek & El & Ec & Eb & E6 & E4).
  split; [|split; [|split]]; intros Hc.
  - apply Ec in Hc. rewrite (sig_build _ _ _ _ _ _ _ H), Hc. repeat match goal with |- context [if ?c then _ else _] => destruct c end; eauto.
  - intros E. apply (sig_build_ok _ _ _ _ _ _ _ _ H) in E as (_ & _ & _ & _ & ->). cbn [i_ondex]. apply Ec in Hc. now rewrite Hc.
  - intros E. apply (sig_build_ok _ _ _ _ _ _ _ _ H) in E as (_ & _ & _ & _ & ->). cbn [i_ondex].
    destruct (current_sig code) eqn:Q; auto. exfalso. apply Hc. now apply Ec.
  - intros E. apply (sig_build_ok _ _ _ _ _ _ _ _ H) in E as (_ & _ & _ & _ & ->). reflexivity.
Qed.

(*# C28_indexed_truncation
   No proper prefix of a printed signature parses, in either domain; each is an error value.
##
Example C28_case : exists x t, indexer_of_code_raw (s! "A") (repeat x07 64) 3 None = Ok x /\ iinfil x = Ok t /\ iexfil (take 87 t) = Err EShortage.
Proof. do 2 eexists. split. { vm_compute. reflexivity. } split. { vm_compute. reflexivity. } vm_compute. reflexivity. Qed.
#*)
Lemma C28_l (x : indexer) (t b : bytes) (k : N) : sig_built x -> iinfil x = Ok t -> decode t = Ok b ->
  (k < len t -> exists e, iexfil (take k t) = Err e) /\ (k < len b -> exists e, ibexfil (take k b) = Err e).
Proof.
  intros Hb Hi Hd. destruct (sig_built_wf x Hb) as (z & Hz & W & L & S & O). rewrite (iinfil_wf x z Hz W) in Hi. inversion Hi; subst t; clear Hi.
  rewrite <- encode_ibin, decode_encode in Hd by auto. inversion Hd; subst b. split; intros Hk.
  - now apply iexfil_truncated.
  - now apply ibexfil_truncated.
Qed.

Lemma sig_bits_table : forallb (fun e => let '(c, z) := e in
   (sig_zero_bits c =? 2 * ipad z + 8 * ils z) && (sig_code_chars c =? ics z)) indexer_table = true.
Proof. vm_compute. reflexivity. Qed.
Lemma sig_bits c z : lookup indexer_table c = Some z -> sig_zero_bits c = 2 * ipad z + 8 * ils z /\ sig_code_chars c = ics z.
Proof. intros H. apply lookup_In in H. pose proof sig_bits_table as T. rewrite forallb_forall in T. apply T in H. cbv beta iota in H. lia. Qed.

(*# C28_indexed_zero_bits_text
   In every text that parses as an indexed primitive, the pad bits (or lead byte) after the code part are zero.
##
Example C28_text_case : is_err (iexfil (s! "AB" ++ s! "E" ++ repeat x41 85)) = true /\ is_ok (iexfil (s! "AB" ++ s! "D" ++ repeat x41 85)) = true.
Proof. split; (vm_compute; reflexivity). Qed.
#*)
Lemma C28_text_l (s : bytes) (x : indexer) : iexfil s = Ok x ->
  let k := sig_zero_bits (i_code x) in
  let n := (k + 5) / 6 in
  exists v, base64_number 0 (take n (drop (sig_code_chars (i_code x)) s)) = Some v /\ v < 2 ^ (6 * n - k).
Proof.
  intros H k n. apply iexfil_inv in H as (z & rest & Hz & Rg & _ & E & Hlen & Hlead).
  destruct (sig_bits _ _ Hz) as (K & C). fold k in K. rewrite C. change (base64_number 0 ?s) with (b64val s).
  pose proof (ilookup_facts _ _ Hz) as F. pose proof (ipad_le _ _ F) as (P1 & P2). pose proof (if_ls _ _ F) as (Hl1 & Hl2).
  pose proof (if_cs _ _ F) as HC. pose proof (len_iboth x z Hz) as Lb.
  assert (ipad z = 0 \/ ipad z = 2) as HP by (unfold ipad; lia).
  rewrite E. unfold itext_l. rewrite <- app_assoc. rewrite drop_app_exact by auto. rewrite N.add_0_r.
  assert (ipad z = 0 /\ ils z = 0 \/ ipad z = 2 /\ ils z = 0 \/ ipad z = 0 /\ ils z = 1) as HH by lia.
  set (raw := i_raw x) in *. clearbody k. subst n.
  destruct HH as [[EP EL]|[[EP EL]|[EP EL]]]; rewrite EP, EL in *; subst k.
  - change ((2 * 0 + 8 * 0 + 5) / 6) with 0. rewrite take_0. exists 0. split; [reflexivity|vm_compute; reflexivity].
  - change ((2 * 2 + 8 * 0 + 5) / 6) with 1. change (zeros 2) with [x00; x00].
    change (2 ^ (6 * 1 - (2 * 2 + 8 * 0))) with 4.
    destruct raw as [|a r]; cbn [app encode]; unfold enc3; cbn [app]; unfold drop, take;
      change (N.to_nat 1) with 1%nat; change (N.to_nat 2) with 2%nat; cbn [skipn firstn app]; unfold b64val; cbn [b64val_acc]; change (b2n x00) with 0;
      byte_bounds; (rewrite b64_index_char by lia); eexists; (split; [reflexivity|lia]).
  - change ((2 * 0 + 8 * 1 + 5) / 6) with 2. change (2 ^ (6 * 2 - (2 * 0 + 8 * 1))) with 16. rewrite drop_0. change (zeros 0 ++ raw) with raw.
    specialize (Hlead eq_refl). destruct raw as [|a raw]; [discriminate|]. change (take 1 (a :: raw)) with [a] in Hlead. change (zeros 1) with [x00] in Hlead.
    inversion Hlead; subst a.
    destruct raw as [|a [|b r]]; cbn [app encode]; unfold enc3; cbn [app]; unfold drop, take;
      change (N.to_nat 2) with 2%nat; cbn [skipn firstn app]; unfold b64val; cbn [b64val_acc]; change (b2n x00) with 0;
      byte_bounds; rewrite !b64_index_char by lia; eexists; (split; [reflexivity|lia]).
Qed.

(*# C28_indexed_zero_bits_binary
   The same for binary input: the zero bits following the code bits are zero.
##
Example C28_binary_case : is_err (ibexfil ([x00; x08] ++ repeat x41 64)) = true /\ is_ok (ibexfil ([x00; x10] ++ repeat x41 64)) = true.
Proof. split; (vm_compute; reflexivity). Qed.
#*)
Lemma C28_binary_l (b : bytes) (x : indexer) : ibexfil b = Ok x ->
  let k := sig_zero_bits (i_code x) in
  be_val (take ((6 * sig_code_chars (i_code x) + k) / 8) b) mod 2 ^ k = 0.
Proof.
  intros H k. apply ibexfil_inv in H as (z & Hz & W & _ & rest & E).
  destruct (sig_bits _ _ Hz) as (K & C). fold k in K. rewrite C.
  pose proof (ilookup_facts _ _ Hz) as F. pose proof (ipad_le _ _ F) as (P1 & P2). pose proof (if_ls _ _ F) as (Hl1 & Hl2).
  pose proof (if_cs _ _ F) as HC. pose proof (len_iboth x z Hz) as Lb. pose proof (len_bcode_iboth x z Hz) as Lc.
  destruct (b64val_total _ (iboth_b64 x z Hz)) as (v & Hv). destruct (bcode_val _ _ Hv) as (V & _); [lia|lia|].
  rewrite Lb in V. fold (ipad z) in V.
  assert ((6 * ics z + k) / 8 = nbytes (ics z) + ils z) as ->. { rewrite K. clear - HC Hl1. unfold nbytes, ipad in *. lia. }
  rewrite E. unfold ibin. rewrite !app_assoc, <- app_assoc. rewrite take_app_exact by (rewrite len_app, len_zeros; lia).
  rewrite be_val_app, V, len_zeros. rewrite <- (app_nil_r (zeros (ils z))), be_val_zeros. change (be_val []) with 0.
  rewrite N.add_0_r, K. destruct Hl2 as [L0|L0].
  - rewrite L0, N.mul_0_r, N.add_0_r, N.pow_0_r, N.mul_1_r. apply N.mod_mul. now apply N.pow_nonzero.
  - rewrite L0. rewrite N.mul_0_r, N.add_0_l, N.pow_0_r, N.mul_1_r. change 256 with (2 ^ 8). rewrite <- N.pow_mul_r.
    apply N.mod_mul. now apply N.pow_nonzero.
Qed.

(** ** Trailing data *)
Lemma iexfil_app s r x : iexfil s = Ok x -> utf8 r = true -> iexfil (s ++ r) = Ok x.
Proof.
  intros H Hu. unfold iexfil in *. destruct s as [|first s0] eqn:Es; try discriminate. rewrite <- Es in *.
  assert (s ++ r = first :: (s0 ++ r)) as Ea by (rewrite Es; reflexivity). rewrite Ea. rewrite <- Ea. clear Ea Es s0.
  apply bind_ok in H as (h & Hh & H). rewrite Hh, bind_Ok. destruct (len s <? h) eqn:E1; try discriminate. rewrite (ltb_app s r h E1).
  apply bind_ok in H as (hard & Hhard & H). rewrite (slice_str_app _ _ _ _ _ Hhard Hu), bind_Ok.
  apply bind_ok in H as (z & Hz & H). rewrite Hz, bind_Ok. cbv zeta in *.
  apply bind_ok in H as (ms & Hms & H). rewrite Hms, bind_Ok. destruct (len s <? ihs z + iss z) eqn:E2; try discriminate. rewrite (ltb_app s r _ E2).
  apply bind_ok in H as (is & His & H). rewrite (slice_str_app _ _ _ _ _ His Hu), bind_Ok.
  apply bind_ok in H as (index & Hi & H). rewrite Hi, bind_Ok.
  apply bind_ok in H as (odx & Hodx & H). rewrite (slice_str_app _ _ _ _ _ Hodx Hu), bind_Ok.
  apply bind_ok in H as (ondex & Ho & H). rewrite Ho, bind_Ok.
  apply bind_ok in H as (f & Hf & H). rewrite Hf, bind_Ok. destruct (len s <? f) eqn:E3; try discriminate. rewrite (ltb_app s r _ E3).
  apply bind_ok in H as (trim & Htrim & H). rewrite (slice_str_app _ _ _ _ _ Htrim Hu), bind_Ok. exact H.
Qed.

(*# C29_trailing_text_ignored
   Trailing text never changes what an accepted text parses to.
##
Example C29_case : iexfil (s! "0zACYWJjZGVm") = iexfil (s! "0zACYWJjZGVm-AAB").
Proof. vm_compute. reflexivity. Qed.
#*)
Lemma C29_text_l (s rest : bytes) (x : indexer) : iexfil s = Ok x -> utf8 rest = true -> iexfil (s ++ rest) = Ok x.
Proof. apply iexfil_app. Qed.

(*# C29_trailing_bytes_ignored
   Trailing bytes never change what accepted bytes parse to, and the parse of a binary form depends only on that prefix.
##
Example C29_bytes_case : is_ok (ibexfil [xd3; x30; x01; x61; x62; x63]) = true /\
  ibexfil [xd3; x30; x01; x61; x62; x63] = ibexfil [xd3; x30; x01; x61; x62; x63; xff; xff].
Proof. split; (vm_compute; reflexivity). Qed.
#*)
Lemma C29_bytes_l (b rest : bytes) (x : indexer) : ibexfil b = Ok x -> ibexfil (b ++ rest) = Ok x.
Proof.
  intros H. apply ibexfil_inv in H as (z & Hz & W & O & r & ->). rewrite <- app_assoc. now apply ibexfil_ibin.
Qed.

(*# C29_indexed_text_not_malleable_refuted
   False for the label code "1z": a text using the base64 padding sign parses to a value that prints differently.
#*)
Lemma C29_refuted_l : exists s x t, iexfil s = Ok x /\ iinfil x = Ok t /\ ~ prefix t s.
Proof.
  exists (s! "1zAAAHd3d3d3d3d3d3d3d3d3d3d3d3d3d3d3d3d3d3d3d3d3d3d3d3d3d3d3d3d3d3d3d3d3d3c="). do 2 eexists.
  split. { vm_compute. reflexivity. } split. { vm_compute. reflexivity. }
  intros (r & E). apply (f_equal (fun l => beq (take 8 l) (s! "1zAAAHd3"))) in E. vm_compute in E. discriminate.
Qed.

(*# C29_indexed_text_not_malleable_partial
   For the sixteen signature codes and the variable code: if what was parsed can be printed, it prints to exactly the beginning of the
   text. Missing: the label codes "1z" and "4z", see the refutation.
##
Example C29_mall_case : exists x, iexfil (s! "0zACYWJjZGVm-AAB") = Ok x /\ iinfil x = Ok (s! "0zACYWJjZGVm").
Proof. eexists. split. { vm_compute. reflexivity. } vm_compute. reflexivity. Qed.
#*)
Lemma C29_mall_l (s t : bytes) (x : indexer) : iexfil s = Ok x -> iinfil x = Ok t ->
  ~ In (i_code x) [s! "1z"; s! "4z"] -> prefix t s.
Proof.
  intros H Hi Hn. apply iexfil_inv in H as (z & rest & Hz & Rg & _ & E & Hlen & _).
  destruct (iinfil_inv _ _ Hi) as (z' & Hz' & W). assert (z' = z) as -> by congruence.
  rewrite (iinfil_wf x z Hz W) in Hi. inversion Hi; subst t.
  assert (ils z = 0) as L.
  { clear - Hz Hn. destruct (N.eq_dec (ils z) 0) as [Q|Q]; auto. exfalso. apply Hn. apply existsb_In.
    assert (forallb (fun e => (ils (snd e) =? 0) || existsb (beq (fst e)) [s! "1z"; s! "4z"]) indexer_table = true) as T by (vm_compute; reflexivity).
    rewrite forallb_forall in T. apply lookup_In in Hz. apply T in Hz. cbn [fst snd] in Hz. destruct (N.eqb_spec (ils z) 0); try contradiction. exact Hz. }
  exists rest. unfold itext. now rewrite L.
Qed.

(*# C29_indexed_binary_not_malleable
   For every code: if a value parsed from binary can be printed in binary, it prints to exactly the beginning of the input; and all
   codes other than "3A", "3B" and "4z" can be printed.
##
Example C29_bmall_case : exists x, ibexfil [xd3; x30; x01; x61; x62; x63; xff; xff] = Ok x /\ ibinfil x = Ok [xd3; x30; x01; x61; x62; x63].
Proof. eexists. split. { vm_compute. reflexivity. } vm_compute. reflexivity. Qed.
#*)
Lemma C29_bmall_l (b : bytes) (x : indexer) : ibexfil b = Ok x ->
  (forall p, ibinfil x = Ok p -> prefix p b) /\
  (~ In (i_code x) [s! "3A"; s! "3B"; s! "4z"] -> exists p, ibinfil x = Ok p).
Proof.
  intros H. apply ibexfil_inv in H as (z & Hz & W & _ & rest & E). pose proof (if_os _ _ (ilookup_facts _ _ Hz)) as (_ & _ & _ & _ & O5).
  assert (iss z <= 5 \/ iss z = 6) as [Q|Q] by lia.
  - split; [|intros _; exists (ibin x z); now apply ibinfil_wf]. intros p Hp. rewrite (ibinfil_wf x z Hz W Q) in Hp. inversion Hp; subst p. now exists rest.
  - split.
    + intros p Hp. rewrite (ibinfil_panics x z Hz Q) in Hp. discriminate.
    + intros Hn. exfalso. apply Hn. apply existsb_In.
      assert (forallb (fun e => negb (iss (snd e) =? 6) || existsb (beq (fst e)) [s! "3A"; s! "3B"; s! "4z"]) indexer_table = true) as T by (vm_compute; reflexivity).
      rewrite forallb_forall in T. apply lookup_In in Hz. apply T in Hz. cbn [fst snd] in Hz. rewrite Q in Hz. exact Hz.
Qed.

(*# C79_indexed_parsing_never_panics
   Parsing an indexed primitive from any bytes as binary, or from any ASCII text, returns a value or an error, never a panic.
##
Example C79_case : iexfil (s! "A") = Err EShortage /\ iexfil (s! "1z==") <> Panic /\ ibexfil [xd7] <> Panic.
Proof. repeat split; vm_compute; try reflexivity; discriminate. Qed.
#*)
Lemma C79_l (b : bytes) : ibexfil b <> Panic /\ (Forall (fun c => b2n c < 128) b -> iexfil b <> Panic).
Proof.
  split; [apply ibexfil_np|]. intros H. apply iexfil_np. unfold ascii. apply forallb_forall. intros c Hc.
  rewrite Forall_forall in H. apply H in Hc. unfold is_ascii. lia.
Qed.

(*# C79_non_ascii_text_refuted
   For text that is not ASCII the claim is false: the parser slices inside a character.
#*)
Lemma C79_refuted_l : exists s, utf8 s = true /\ iexfil s = Panic.
Proof. exists (x30 :: xc3 :: xa9 :: repeat x41 20). split; (vm_compute; reflexivity). Qed.
