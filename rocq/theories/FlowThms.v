(** Proofs of C105: events made, signed and sent are accepted by whoever reads them. *)
From Coq Require Import String.
From Coq Require Import NArith ZArith Bool List Lia.
From Verif Require Import Base BaseFacts B64 B64Facts Tables Matter MatterFacts MatterMore MatterThms Indexer Prims PrimsFacts Json JsonFacts JsonThms Common CommonFacts CommonThms Tholder TholderFacts TholderThms Saider SaiderFacts
  SaiderThms Diger Sadder Spec SpecTholder SpecPrims SpecJson SpecCommon SpecSaider SpecSadder SadderFacts SadderThms PrimsThms FieldThms Signer SpecSigner SignerThms Messaging SpecMessaging MessagingThms SpecFlow.
Import ListNotations.
Open Scope N_scope.

Lemma saidify_len hash m code kind l ignore s out : sized_hash hash -> NoDup (map fst m) -> saidify hash (VObj m) (Some code) kind (Some l) ignore = Ok (s, out) ->
  len (to_json out) = len (to_json (VObj (replaced l (dummies (said_fs code)) m))).
Proof.
  intros SH ND H. destruct (saidify_ok _ _ _ _ _ _ _ _ H) as (m' & md & k' & ser & q & E & CL & HC & P & S & D & M & MC & Q & ->). injection E as <-.
  destruct (FieldThms.said_text _ _ _ _ _ SH HC M Q) as (PQ & LQ & _). pose proof (prepared_label _ _ _ _ _ _ P) as AL.
  rewrite (json_len_k l md _ q AL); [|apply dummy_plain|exact PQ|rewrite len_repeat, LQ; lia].
  assert (replaced l (dummies (said_fs code)) m = insert l (dummy code) m) as ->. { unfold replaced. rewrite insert_replaced; auto. now apply contains_in. }
  destruct P as [(C & -> & _)|(C & z & Z & K & _)]; [reflexivity|].
  destruct (sizeify_ked _ _ _ Z) as (vs & proto & n & A & V & L & K' & _). rewrite K' in K. injection K as <-.
  assert (In proto idents) as IP by (apply idents_or; apply V). pose proof (vtext_string proto _ IP L) as V2.
  destruct (version_string_plain _ _ _ _ _ V) as (P1 & _). destruct (version_string_plain _ _ _ _ _ V2) as (P2 & _).
  destruct (version_string_rever _ _ _ _ _ V) as (L1 & _). destruct (version_string_rever _ _ _ _ _ V2) as (L2 & _).
  apply (json_len_k _ _ vs); auto. exact (eq_trans L1 (eq_sym L2)).
Qed.
Lemma saidify_data hash m code kind l ignore s out : sized_hash hash -> data (VObj m) -> saidify hash (VObj m) (Some code) kind (Some l) ignore = Ok (s, out) -> data out.
Proof.
  intros SH DM H. destruct (saidify_ok _ _ _ _ _ _ _ _ H) as (m' & md & k' & ser & q & E & CL & HC & P & S & D & M & MC & Q & ->). injection E as <-.
  destruct (FieldThms.said_text _ _ _ _ _ SH HC M Q) as (PQ & LQ & _).
  assert (utf8 l = true) as U. { apply contains_in in CL. inversion DM as [| | | | |? ND KK VV]; subst. rewrite Forall_forall in KK. auto. }
  apply data_insert; auto; [eapply prepared_data; eauto|]. constructor. apply utf8_ascii.
  destruct (said_built hash code ser SH HC) as (M' & W). rewrite M in M'. injection M' as ->. destruct (limen_code _ _ W Q) as (f & r & h & _ & X & _). exact X.
Qed.
Lemma saidify_nests hash m code kind l ignore s out n : nests (S n) (VObj m) -> saidify hash (VObj m) (Some code) kind (Some l) ignore = Ok (s, out) -> nests (S n) out.
Proof.
  intros NE H. destruct (saidify_ok _ _ _ _ _ _ _ _ H) as (m' & md & k' & ser & q & E & CL & HC & P & S & D & M & MC & Q & ->). injection E as <-.
  apply nests_insert. destruct P as [(C & -> & _)|(C & z & Z & K & _)]; [now apply nests_insert|].
  destruct (sizeify_ked _ _ _ Z) as (vs & proto & k & A & V & L & K' & _). rewrite K' in K. injection K as <-. apply nests_insert. now apply nests_insert.
Qed.
Lemma version_unique vs vs' p n : version_string vs p 1 0 n -> version_string vs' p 1 0 n -> vs = vs'.
Proof.
  intros (_ & a & b & h & -> & A & B & H & A1 & B1 & H1) (_ & a' & b' & h' & -> & A' & B' & H' & A1' & B1' & H1').
  apply hex_digits_forallb in A, B, H, A', B', H'.
  assert (forall k x y, len x = k /\ forallb lhex x = true -> len y = k /\ forallb lhex y = true -> hex_number x = hex_number y -> x = y) as U.
  { intros k x y (X1 & X2) (Y1 & Y2). apply hex_number_inj; auto. congruence. }
  rewrite (U 1 a a'), (U 1 b b'), (U 6 h h'); auto; congruence.
Qed.
Lemma keys_order {A} (m : list (bytes * A)) k m0 : map fst m = k :: m0 -> exists x m', m = (k, x) :: m' /\ map fst m' = m0.
Proof. destruct m as [|(k' & x) m']; [discriminate|]. intros [= -> <-]. eauto. Qed.

(** Data given a SAID build an event whose data they are. *)
Lemma saided hash canon vs size proto m : sized_hash hash -> data (VObj ((s! "v", VStr vs) :: m)) -> nests 127 (VObj ((s! "v", VStr vs) :: m)) ->
  version_string vs proto 1 0 size -> In (s! "d") (map fst m) -> len (to_json (VObj (replaced (s! "d") (dummies 44) ((s! "v", VStr vs) :: m)))) < 2 ^ 24 ->
  exists d vs' o s, saidify hash (VObj ((s! "v", VStr vs) :: m)) None None None [] = Ok (d, VObj ((s! "v", VStr vs') :: o)) /\
    (proto = s! "KERI" -> serder_new canon None None None (Some (VObj ((s! "v", VStr vs') :: o))) None = Ok s) /\
    (proto = s! "ACDC" -> creder_new canon None None None (Some (VObj ((s! "v", VStr vs') :: o))) None = Ok s) /\
    d_ked s = VObj ((s! "v", VStr vs') :: o) /\ d_saider s = d /\ data (d_ked s) /\ nests 127 (d_ked s) /\ len (d_raw s) < 2 ^ 24 /\
    (forall k, k <> s! "d" -> k <> s! "v" -> get k ((s! "v", VStr vs') :: o) = get k m).
Proof.
  intros SH D NE V ID L. assert (s! "d" <> s! "v") as DV by discriminate.
  destruct (C58b_l hash ((s! "v", VStr vs) :: m) (s! "E") (s! "d") 32 None [] SH ltac:(now left) D ltac:(right; exact ID) DV ltac:(now left)) as (d & out & S).
  { right. exists vs, proto, size, m. auto. }
  pose proof (saidify_data _ _ _ _ _ _ _ _ SH D S) as DO. pose proof (saidify_nests _ _ _ _ _ _ _ _ _ NE S) as NO.
  assert (NoDup (map fst ((s! "v", VStr vs) :: m))) as ND by (inversion D; auto). pose proof (saidify_len _ _ _ _ _ _ _ _ SH ND S) as LO. change (said_fs (s! "E")) with 44 in LO.
  destruct (C101_output_l hash ((s! "v", VStr vs) :: m) (Some (s! "E")) None (Some (s! "d")) [] d out SH S) as (o & t & -> & KO & CD & ID' & GD & _ & GO & GV).
  cbn [map fst] in KO. destruct (keys_order _ _ _ KO) as (x & o' & -> & KO'). destruct (GV (VStr vs)) as (vs0 & proto0 & n0 & vs' & E & V0 & GV' & V'); [reflexivity|]. injection E as <-.
  injection GV' as ->. assert (proto0 = proto) as -> by exact (version_proto _ _ _ _ _ V0 V).
  assert (len (to_json (VObj ((s! "v", VStr vs') :: o'))) < 2 ^ 24) as LT by (rewrite LO; exact L).
  assert (exfil t = Ok d) as XT.
  { destruct (saidify_ok _ _ _ _ _ _ _ _ S) as (m' & md & k' & ser & q & _ & _ & HC & _ & _ & _ & M & _ & Q & _). rewrite ID' in Q. injection Q as <-.
    destruct (FieldThms.said_text _ _ _ _ _ SH HC M ID') as (_ & _ & X). exact X. }
  assert (field_of (VObj o') (s! "d") (VStr t)) as FD. { apply field_assoc. rewrite <- get_assoc. exact GD. }
  destruct (C54_built_l canon None vs' t proto _ o' d DO V' LT FD XT CD) as (s & vs2 & S1 & S2 & KE & VS & SD & _); [rewrite CD; now left|].
  assert (d_raw s = to_json (d_ked s) /\ len (d_raw s) < 2 ^ 24) as (RJ & LR).
  { assert (len (to_json (VObj ((s! "v", VStr vs2) :: o'))) = len (to_json (VObj ((s! "v", VStr vs') :: o')))) as LE.
    { destruct (version_string_plain _ _ _ _ _ VS) as (P1 & _). destruct (version_string_plain _ _ _ _ _ V') as (P2 & _).
      destruct (version_string_rever _ _ _ _ _ VS) as (L1 & _). destruct (version_string_rever _ _ _ _ _ V') as (L2 & _).
      pose proof (to_json_str [] (s! "v") vs2 o' P1) as T1. pose proof (to_json_str [] (s! "v") vs' o' P2) as T2. cbn [app] in T1, T2. rewrite T1, T2, !len_app, L1, L2. reflexivity. }
    assert (len (d_raw s) < 2 ^ 24) as B.
    { destruct VS as (_ & a & b & h & _ & _ & _ & HH & _ & _ & <-). apply hex_digits_forallb in HH as (HL & HF). pose proof (hex_number_lt _ HF) as X. rewrite HL in X. exact X. }
    split; [|exact B]. assert (exists new, In new constructors /\ new canon None None None (Some (VObj ([] ++ (s! "v", VStr vs') :: o'))) None = Ok s) as (new & IN & NW).
    { destruct V as ([-> | ->] & _); [exists serder_new|exists creder_new]; (split; [cbn; tauto|]); auto. }
    destruct (C54_l new canon None None None [] o' vs' [] None None None s IN ltac:(intros []) ltac:(apply no_version_find; vm_compute; reflexivity) DO NO NW) as (_ & R & _); auto.
    eapply N.lt_trans; [exact B|reflexivity]. }
  assert (vs2 = vs') as ->.
  { eapply version_unique; [exact VS|]. replace (len (d_raw s)) with (len (to_json (VObj ((s! "v", VStr vs') :: o'))) mod 2 ^ 32); [exact V'|].
    rewrite RJ, KE. destruct (version_string_plain _ _ _ _ _ VS) as (P1 & _). destruct (version_string_plain _ _ _ _ _ V') as (P2 & _).
    destruct (version_string_rever _ _ _ _ _ VS) as (L1 & _). destruct (version_string_rever _ _ _ _ _ V') as (L2 & _).
    rewrite N.mod_small by (eapply N.lt_trans; [exact LT|reflexivity]).
    pose proof (to_json_str [] (s! "v") vs2 o' P1) as T1. pose proof (to_json_str [] (s! "v") vs' o' P2) as T2. cbn [app] in T1, T2. rewrite T1, T2, !len_app, L1, L2. reflexivity. }
  exists d, vs', o', s. rewrite KE. split; [exact S|]. split; auto. split; auto. split; auto. split; auto. split; auto. split; auto. split; auto.
  intros k N1 N2. rewrite GO by auto. unfold get. cbn [find fst]. destruct (beq (s! "v") k) eqn:B; [apply beq_eq in B; congruence|reflexivity].
Qed.

Lemma answer cr g rng ser only index ondex x v : correct cr -> a_signer cr g -> sign_indexed cr rng g ser only index ondex = Ok (x, v) ->
  i_index x = index /\ verfer_verify cr (g_verfer g) (i_raw x) ser = Ok true /\ made (x, v) /\ printable (x, v) /\ forall y, same_signature (x, v) y -> y = x.
Proof.
  intros CR (tr & co & ra & qb & q6 & q2 & H) E. destruct (indexed_full cr tr co ra qb q6 q2 g rng ser only index ondex CR H) as (_ & F & G).
  destruct (G _ _ E) as (a1 & a2 & o1 & o2 & t & _ & IX & _ & _ & _ & T & TX & _). destruct (proj1 F (ex_intro _ _ E)) as (F1 & F2).
  destruct (C65b_l cr tr co ra qb q6 q2 g rng ser only index ondex CR H F1 F2) as (x' & E' & VV & _). rewrite E in E'. injection E' as -> ->.
  assert (made (x', g_verfer g)) as M.
  { unfold sign_indexed in E. apply bind_ok in E as (c & _ & E). apply bind_ok in E as (sg & _ & E). repeat eexists. exact E. }
  split; auto. split; auto. split; auto. split; [exists t; exact T|]. intros y (Y1 & Y2 & Y3 & Y4). cbn [fst] in *.
  destruct (siger_text _ _ _ M T) as (_ & _ & N). specialize (N [] eq_refl). rewrite app_nil_r, TX in N. injection N as N.
  rewrite N at 1. unfold norm. destruct y as [yc yr yi yo]. cbn [i_code i_raw i_index i_ondex] in *. congruence.
Qed.
Lemma signer_text cr g kt : correct cr -> a_signer cr g -> infil (g_verfer g) = Ok kt -> exfil kt = Ok (g_verfer g) /\ In (m_code (g_verfer g)) [s! "B"; s! "D"; s! "1AAA"; s! "1AAB"; s! "1AAI"; s! "1AAJ"].
Proof.
  intros CR (tr & co & ra & qb & q6 & q2 & H) K. destruct (signer_shape _ _ _ _ _ _ _ _ CR H) as (s & d & b & sg & pk & Row & P & L & V). set (c := if or_else tr true then d else b) in *.
  destruct (row_fixed _ _ _ _ _ Row) as (S1 & S2 & S3 & F1 & F2 & _ & V1 & V2 & _). destruct (signs _ CR _ _ _ P) as (LP & _).
  assert (In (c, public_width s) fixed_codes /\ In c verfer_codes) as (FC & VC) by (unfold c; destruct (or_else tr true); auto).
  destruct (fixed_built c _ pk FC LP) as (_ & WV). destruct (wf_round _ WV) as (kt' & _ & I' & _ & X' & _). rewrite V in *. rewrite K in I'. injection I' as <-. split; auto.
Qed.

(*# C105_exchange
   Data that begin with a version string and hold the texts of the signers' keys in the field k are given a SAID and become an event whose
   data are the ones returned. Whatever signers are asked to sign it, in whatever order and possibly several times (at most 4095 signatures, positions below 4096), the
   message can be made. Whoever reads it gets that very event, whose SAID verifies with all checks on; its keys are the signers' keys; what follows the event is
   one group of exactly the signatures made, and each verifies under the key at its index, which is the position it was asked for.
   The threshold the reader finds is the one written in the field kt; it is satisfied if it is a number not above the number of signatures, or if exactly all of its keys have signed.
##
Definition exchange_data (kts : list bytes) : list (bytes * value) := [(s! "t", VStr (s! "icp")); (s! "d", VStr []); (s! "kt", VStr (s! "2")); (s! "k", VArr (map VStr kts))].
Example C105_case : exists g1 g2 k1 k2, signer_new toy None None (Some (repeat x07 32)) None None None = Ok g1 /\ signer_new toy None (Some (s! "J")) (Some (repeat x08 32)) None None None = Ok g2 /\
  infil (g_verfer g1) = Ok k1 /\ infil (g_verfer g2) = Ok k2 /\ correct toy /\ sized_hash pretend /\
  data (VObj ((s! "v", VStr (s! "KERI10JSON000000_")) :: exchange_data [k1; k2])) /\
  fair 2 (Pick 1 false (Some 70) []) /\ fair 2 (Pick 0 true None []) /\
  len (to_json (VObj (replaced (s! "d") (dummies 44) ((s! "v", VStr (s! "KERI10JSON000000_")) :: exchange_data [k1; k2])))) = 199.
Proof.
  eexists. eexists. eexists. eexists. split; [vm_compute; reflexivity|]. split; [vm_compute; reflexivity|]. split; [vm_compute; reflexivity|]. split; [vm_compute; reflexivity|].
  split; [exact toy_correct|]. split; [exact pretend_sized|]. split.
  { apply data_obj.
    - repeat constructor; cbn; intuition discriminate.
    - repeat constructor.
    - repeat (constructor; try reflexivity). }
  split; [split; [reflexivity|split; [reflexivity|]]; intros _ o X; injection X as <-; reflexivity|]. split; [split; [reflexivity|split; [reflexivity|discriminate]]|]. vm_compute. reflexivity.
Qed.
#*)
Lemma C105_l (cr : crypto) (hash : bytes -> bytes -> bytes) (canon : bytes -> option bytes) (gs : list signer) (kts : list bytes) (vs : bytes) (size : N) (m : list (bytes * value)) :
  correct cr -> sized_hash hash -> Forall (a_signer cr) gs -> Forall2 (fun g kt => infil (g_verfer g) = Ok kt) gs kts ->
  data (VObj ((s! "v", VStr vs) :: m)) -> nests 127 (VObj ((s! "v", VStr vs) :: m)) -> version_string vs (s! "KERI") 1 0 size ->
  In (s! "d") (map fst m) -> get (s! "k") m = Some (VArr (map VStr kts)) ->
  len (to_json (VObj (replaced (s! "d") (dummies 44) ((s! "v", VStr vs) :: m)))) < 2 ^ 24 ->
  exists said out s, saidify hash (VObj ((s! "v", VStr vs) :: m)) None None None [] = Ok (said, out) /\
    serder_new canon None None None (Some out) None = Ok s /\ d_ked s = out /\ d_saider s = said /\
    forall picks, len picks <= 4095 -> Forall (fair (len gs)) picks ->
    exists sigs t, Forall2 (answers cr gs (d_raw s)) picks sigs /\ messagize s (Some sigs) None None None = Ok t /\
      serder_new canon None (Some t) None None None = Ok s /\
      said_verify hash (d_saider s) (d_ked s) (Some true) (Some true) None None [] = Ok true /\
      serder_verfers s = Ok (map g_verfer gs) /\
      read_group (drop (len (d_raw s)) t) = Some (s! "-A", map fst sigs, []) /\
      map i_index (map fst sigs) = map p_index picks /\
      Forall (checks cr (map g_verfer gs) (d_raw s)) (map fst sigs) /\
      forall v th, get (s! "kt") m = Some v -> tholder_new canon None None (Some v) = Ok th -> serder_tholder canon s = Ok (Some th) /\
        (forall n, tholder_num th = Ok (Some n) -> 1 <= n -> n <= len picks -> satisfy th (map i_index (map fst sigs)) = Ok true) /\
        (t_thold th <> VInt 0 -> keys (t_thold th) < 2 ^ 32 -> (forall i, In i (map p_index picks) <-> i < t_size th) -> satisfy th (map i_index (map fst sigs)) = Ok true).
Proof.
  intros CR SH SG KT D NE V ID GK L. destruct (saided hash canon vs size _ m SH D NE V ID L) as (d & vs' & o & s & S & NW & _ & KE & SD & DK & NK & LR & GO). specialize (NW eq_refl).
  exists d, (VObj ((s! "v", VStr vs') :: o)), s. split; auto. split; auto. split; auto. split; auto. intros picks LP FP.
  assert (exists sigs, Forall2 (answers cr gs (d_raw s)) picks sigs) as (sigs & AN).
  { clear LP. induction FP as [|p ps (F1 & F2 & F3) FP (sigs & IH)]; [exists []; constructor|].
    destruct (nth_error gs (N.to_nat (p_index p))) as [g|] eqn:G; [|apply nth_error_None in G; unfold len in F1; lia].
    rewrite Forall_forall in SG. destruct (SG g (nth_error_In _ _ G)) as (tr & co & ra & qb & q6 & q2 & H).
    destruct (C65b_l cr tr co ra qb q6 q2 g (p_rng p) (d_raw s) (p_only p) (p_index p) (p_other p) CR H F2 F3) as (x & X & _). exists ((x, g_verfer g) :: sigs). constructor; auto. exists g. auto. }
  assert (Forall made sigs /\ Forall printable sigs /\ map i_index (map fst sigs) = map p_index picks /\ Forall (checks cr (map g_verfer gs) (d_raw s)) (map fst sigs) /\
    forall ys, Forall2 same_signature sigs ys -> ys = map fst sigs) as (MS & PS & IX & CH & US).
  { clear LP FP. induction AN as [|p (x & v) ps sigs (g & G & E) AN (A1 & A2 & A3 & A4 & A5)]; [repeat split; try constructor; intros ys Y; inversion Y; reflexivity|].
    assert (a_signer cr g) as AS. { rewrite Forall_forall in SG. apply SG. eapply nth_error_In; eauto. }
    destruct (answer _ _ _ _ _ _ _ _ _ CR AS E) as (B1 & B2 & B3 & B4 & B5). cbn [map fst]. split; [now constructor|]. split; [now constructor|]. split; [now rewrite A3, B1|]. split.
    - constructor; auto. exists (g_verfer g). rewrite B1. split; auto. now apply map_nth_error.
    - intros ys Y. inversion Y as [|? y ? ys' Y1 Y2]; subst. f_equal; auto. }
  assert (len sigs = len picks) as LS by (apply (f_equal (@length N)) in IX; rewrite !map_length in IX; unfold len; now f_equal).
  assert (len sigs < 2 ^ 32) as L32 by (rewrite LS; apply (N.le_lt_trans _ 4095); [exact LP|reflexivity]).
  assert (forall code l, In (code, l) (given (s! "-A") (Some sigs) ++ given (s! "-B") None) -> Forall made l /\ len l < 2 ^ 32) as GV.
  { intros code l [X|[]]. injection X as _ <-. auto. }
  assert (utf8 (d_raw s) = true /\ forall c, utf8 c = true -> serder_new canon None (Some (d_raw s ++ c)) None None None = Ok s) as (UR & RD).
  { assert (len (d_raw s) < 2 ^ 32) as L3 by (eapply N.lt_trans; [exact LR|reflexivity]).
    assert (data (VObj ([] ++ (s! "v", VStr vs') :: o)) /\ nests 127 (VObj ([] ++ (s! "v", VStr vs') :: o))) as (D1 & D2) by (rewrite <- KE at 1 2; auto).
    assert (forall c, utf8 c = true -> serder_new canon None (Some (d_raw s ++ c)) None None None = Ok s /\ d_raw s = to_json (d_ked s) /\ d_size s = len (d_raw s)) as R.
    { intros c U. apply (C54_l serder_new canon None None None [] o vs' c None None None s); auto; [cbn; auto|apply no_version_find; vm_compute; reflexivity]. }
    split; [|intros c U; now apply R]. destruct (R [] eq_refl) as (_ & -> & _). apply utf8_to_json, data_wfv, DK. }
  destruct (C76_accepted_l s (Some sigs) None None GV) as ((_ & EX) & _). destruct EX as (t & T).
  { split; auto. split; [intros (X & _); discriminate|]. intros code l [X|[]]. injection X as _ <-. split; [lia|auto]. }
  destruct (C76_l s (Some sigs) None None t GV T) as (a & ys & TA & GR & SM & RR).
  exists sigs, t. split; auto. split; auto. split.
  { apply (RR serder_new canon None (d_raw s ++ []) None None None); [cbn; tauto|]. now apply RD. }
  split; [rewrite SD, KE; exact (C58a_l hash _ _ None None None [] _ _ _ S)|]. split.
  { apply (proj1 (C88_l s (map g_verfer gs) (ex_intro _ _ KE))). left. exists (map VStr kts). split.
    - rewrite KE. apply field_assoc. rewrite <- get_assoc, GO by discriminate. exact GK.
    - unfold texts_of. clear -KT SG CR. induction KT as [|g kt gs kts K KT IH]; [constructor|]. inversion SG; subst. cbn [map]. constructor; auto. exists kt.
      destruct (signer_text _ _ _ CR ltac:(eassumption) K). auto. }
  split; [|split; [exact IX|split; [exact CH|]]].
  2: { intros v th GT TH. split.
    { apply (proj1 (C102_thresholds_l canon s (Some th) (ex_intro _ _ KE))). left. exists v, th. split; auto. rewrite KE. apply field_assoc. rewrite <- get_assoc, GO by discriminate. exact GT. }
    rewrite IX. split.
    - intros n TN N1 N2. destruct (C41_partial_l canon None (Some v) None th n (map p_index picks) TH TN N1) as ([(_ & X)|(X & _)] & _); auto. unfold len in *. rewrite map_length in X. lia.
    - intros Z K B. exact (C45_l canon None (Some v) None th _ TH Z K B). }
  rewrite TA. rewrite drop_app_exact by auto. inversion SM as [|? (c & xs) ? ? (Y1 & Y2) Y3]; subst. inversion Y3; subst. cbn [fst snd] in *. subst c.
  cbn [groups] in GR. destruct GR as (r & GR & ->). rewrite GR, (US _ Y2). reflexivity.
Qed.

Lemma same_said hash s v1 v2 : sized_hash hash -> data v1 -> data v2 ->
  said_verify hash s v1 (Some true) (Some true) None None [] = Ok true -> said_verify hash s v2 (Some true) (Some true) None None [] = Ok true ->
  v1 = v2 \/ collision hash (m_code s).
Proof.
  intros SH D1 D2 V1 V2. change (said_verify hash s v1 (Some true) (Some true) None (Some (s! "d")) [] = Ok true) in V1. change (said_verify hash s v2 (Some true) (Some true) None (Some (s! "d")) [] = Ok true) in V2.
  destruct (verify_true _ _ _ _ _ _ _ _ V1) as (m1 & _ & _ & _ & _ & q1 & -> & _ & _ & _ & _ & Q1 & _ & _ & T1).
  destruct (verify_true _ _ _ _ _ _ _ _ V2) as (m2 & _ & _ & _ & _ & q2 & -> & _ & _ & _ & _ & Q2 & _ & _ & T2).
  cbn [or_else] in T1, T2. specialize (T1 eq_refl). specialize (T2 eq_refl). rewrite Q1 in Q2. injection Q2 as <-.
  destruct (same_digest _ _ _ _ _ _ _ _ _ _ (s! "d") [] SH D1 D2 eq_refl V1 V2) as [C|(md1 & md2 & k1 & k2 & P1 & P2 & E & A1 & A2)]; auto. left.
  cbn [strip fold_left] in E. subst md2. cbn [or_else] in A1, A2. specialize (A1 eq_refl). specialize (A2 eq_refl).
  assert (forall m kind k, prepared m (m_code s) kind (s! "d") md1 k -> assoc (s! "v") m = assoc (s! "v") md1 -> md1 = insert (s! "d") (dummy (m_code s)) m) as G.
  { clear. intros m kind k P A. destruct (prepared_v _ _ _ _ _ _ P) as (LV & _ & _). destruct P as [(_ & -> & _)|(_ & z & Z & K & _)]; auto.
    destruct (sizeify_ked _ _ _ Z) as (vs & proto & n & AA & V & L & K' & _). rewrite K' in K. injection K as <-.
    rewrite assoc_insert in AA. destruct (beq (s! "d") (s! "v")) eqn:E; [apply beq_eq in E; contradiction|]. rewrite assoc_insert, beq_refl, AA in A. injection A as A.
    apply insert_same. rewrite assoc_insert, E, AA. rewrite A at 1. reflexivity. }
  pose proof (G _ _ _ P1 A1) as G1. pose proof (G _ _ _ P2 A2) as G2. rewrite G1 in G2.
  apply (f_equal (insert (s! "d") (VStr q1))) in G2. rewrite !insert_insert in G2. rewrite (insert_same _ _ m1 T1), (insert_same _ _ m2 T2) in G2. now rewrite G2.
Qed.

(*# C106_no_substitution
   An event read from any stream, in any layout, that carries the SAID of a given event and verifies with all checks on has exactly the data of that
   event, every field in its place, unless the digest function has a collision.
##
Example C106_case : exists d o s, saidify pretend (VObj [(s! "v", VStr (s! "KERI10JSON000000_")); (s! "d", VStr []); (s! "a", VInt 3)]) None None None [] = Ok (d, o) /\
  serder_new (fun _ => None) None (Some (to_json o ++ s! "-AAB")) None None None = Ok s /\ d_saider s = d /\
  said_verify pretend (d_saider s) (d_ked s) (Some true) (Some true) None None [] = Ok true.
Proof. eexists. eexists. eexists. split; [vm_compute; reflexivity|]. split; [vm_compute; reflexivity|]. split; vm_compute; reflexivity. Qed.
#*)
Lemma C106_l (hash : bytes -> bytes -> bytes) (new : constructor) (canon : bytes -> option bytes) (code kind : option bytes) (raw : bytes) (ked : option value) (sad : option sadder) (s s' : sadder) :
  sized_hash hash -> data (d_ked s) -> said_verify hash (d_saider s) (d_ked s) (Some true) (Some true) None None [] = Ok true ->
  In new constructors -> new canon code (Some raw) kind ked sad = Ok s' -> float_free (d_ked s') -> d_saider s' = d_saider s ->
  said_verify hash (d_saider s') (d_ked s') (Some true) (Some true) None None [] = Ok true ->
  d_ked s' = d_ked s \/ collision hash (m_code (d_saider s)).
Proof.
  intros SH D V I H F E V'. destruct (C87_l new canon code kind None raw [] ked None sad None s' I H) as (_ & _ & T & _). destruct (C81_l _ _ _ T F) as (D' & _).
  rewrite E in V'. destruct (same_said hash _ _ _ SH D' D V' V); auto.
Qed.
