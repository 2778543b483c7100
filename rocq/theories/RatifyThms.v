(** Property C176: what can be read back from the endorsement of a credential. *)
From Coq Require Import String.
From Coq Require Import NArith ZArith Lia Bool List.
From Verif Require Import Base BaseFacts B64 B64Facts Util Tables Matter MatterFacts MatterThms Indexer IndexerFacts IndexerMore SpecIndexer IndexerThms Counter CounterFacts CounterThms
  Prims PrimsFacts PrimsThms Json JsonFacts Common CommonFacts CommonThms SpecJson SpecPrims SpecCommon SpecSaider SpecSadder Saider SaiderFacts Sadder SadderFacts SadderThms Pather Messaging Spec SpecMessaging MessagingThms Short Events ReadbackThms.
Import ListNotations.
Open Scope N_scope.

Definition whole_path : matter := Mt (s! "6A") 1 [x3e].
(*# C176_credential_endorsement_reads_back
   The endorsement of a credential with number [n] of the key event in force: reading it gives, one after the other, a counter for one group of signatures on a path, the path to the whole credential, a counter for one
   group, the identifier, the number, the identifier of the event, and then the signatures, as many as given and in order. Each identifier begins with a primitive (a reader goes on to the next if it is no more than that), and the signatures are fewer than 2^32.
##
Example C176_proof_case : exists p sq proof, siger_new None (Some 1) None (Some (s! "B")) (Some (repeat x09 64)) None None None = Ok p /\ seqner_with_sn 31 = Ok sq /\
  ratify_creder (s! "MAAB") sq (s! "MAAC") [p] = Ok proof /\ take 48 proof = s! "-JAB6AABAAA--FABMAAB0AAAAAAAAAAAAAAAAAAAAAAfMAAC" /\ len proof = 48 + 4 + 88.
Proof.
  eexists. eexists. eexists. split; [vm_compute; reflexivity|]. split; [vm_compute; reflexivity|]. split; [vm_compute; reflexivity|]. split; vm_compute; reflexivity.
Qed.
#*)
Lemma C176_proof_l (prefix said proof : bytes) (n : N) (sq pi pd : matter) (sigers : list (indexer * matter)) :
  Forall made sigers -> len sigers < 2 ^ 32 -> n < 2 ^ 128 -> seqner_with_sn n = Ok sq ->
  utf8 prefix = true -> exfil prefix = Ok pi -> utf8 said = true -> exfil said = Ok pd -> ratify_creder prefix sq said sigers = Ok proof ->
  exists j pt f q b xs path, proof = j ++ pt ++ f ++ prefix ++ q ++ said ++ b /\ len j = 4 /\ len f = 4 /\
    cexfil proof = Ok (Ct (s! "-J") 1) /\ exfil (pt ++ f ++ prefix ++ q ++ said ++ b) = Ok path /\ infil path = Ok pt /\ bext_of path = Ok (s! "-") /\
    cexfil (f ++ prefix ++ q ++ said ++ b) = Ok (Ct (s! "-F") 1) /\ exfil (prefix ++ q ++ said ++ b) = Ok pi /\
    exfil (q ++ said ++ b) = Ok sq /\ infil sq = Ok q /\ seqner_sn sq = Ok n /\ exfil (said ++ b) = Ok pd /\
    read_group b = Some (s! "-A", xs, []) /\ Forall2 same_signature sigers xs.
Proof.
  intros M L LN SQ UI EI UD ED H. unfold ratify_creder in H. apply bind_ok in H as (c & C & H). vm_compute in C. injection C as <-. apply bind_ok in H as (pa & PA & H). vm_compute in PA. injection PA as <-.
  apply bind_ok in H as (j & J & H). apply bind_ok in H as (pt & PT & H). apply bind_ok in H as (c & C & H). vm_compute in C. injection C as <-. apply bind_ok in H as (f & F & H). apply bind_ok in H as (q & Q & H).
  apply bind_ok in H as (b & B & H). injection H as <-. change (siger_group (s! "-A") sigers = Ok b) in B. destruct (group_read (s! "-A") sigers b ltac:(cbn; tauto) M L B) as (AB & RB).
  destruct (cinfil_inv _ _ J) as (zj & WJ & EJ). destruct (cinfil_inv _ _ F) as (zf & WF & EF). assert (len j = 4) as LJ by (vm_compute in J; injection J as <-; reflexivity). assert (len f = 4) as LF by (vm_compute in F; injection F as <-; reflexivity).
  assert (ascii f = true) as AF by (vm_compute in F; injection F as <-; reflexivity). assert (exfil pt = Ok whole_path /\ ascii pt = true /\ infil whole_path = Ok pt) as (PT1 & PT2 & PT3) by (vm_compute in PT; injection PT as <-; repeat split; vm_compute; reflexivity).
  destruct (C35_round_l n LN) as (m & t & bb & R1 & R2 & R3 & _ & R5 & _). unfold seqner_with_sn in SQ. assert (m = sq) as -> by congruence. assert (t = q) as -> by congruence.
  unfold seqner_new in R5. cbn [is_none andb bind or_else] in R5. apply bind_ok in R5 as (m'' & R5 & V). apply bind_ok in V as (u & V & W). injection W as ->. unfold matter_new in R5.
  destruct (seqner_new_spec n ltac:(unfold u128_max; change (2 ^ 128) with (340282366920938463463374607431768211455 + 1) in LN; lia)) as (S1 & S2 & _). assert (sq = Mt (s! "0A") 0 (be_bytes 16 n)) as ESQ by congruence.
  assert (ascii q = true) as AQ. { rewrite ESQ in R3. destruct (wf_forms _ S2) as (zz & Hz & WW & I & _). rewrite R3 in I. injection I as ->. now apply mtext_ascii. }
  assert (utf8 b = true) as U0 by (now apply utf8_ascii). assert (utf8 (said ++ b) = true) as U1 by (now rewrite utf8_app). assert (utf8 (q ++ said ++ b) = true) as U2 by (now rewrite utf8_ascii_app).
  assert (utf8 (prefix ++ q ++ said ++ b) = true) as U3 by (now rewrite utf8_app). assert (utf8 (f ++ prefix ++ q ++ said ++ b) = true) as U4 by (now rewrite utf8_ascii_app).
  assert (utf8 (pt ++ f ++ prefix ++ q ++ said ++ b) = true) as U5 by (now rewrite utf8_ascii_app).
  exists j, pt, f, q, b, (map (fun p => norm (fst p)) sigers), whole_path. split; [reflexivity|]. split; [exact LJ|]. split; [exact LF|].
  split; [rewrite EJ; apply (cexfil_ctext _ _ _ WJ); exact U5|]. split; [apply exfil_app; assumption|]. split; [exact PT3|]. split; [vm_compute; reflexivity|].
  split; [rewrite EF; apply (cexfil_ctext _ _ _ WF); exact U3|]. split; [apply exfil_app; assumption|]. split; [apply exfil_app; assumption|]. split; [exact R3|]. split; [exact R2|]. split; [apply exfil_app; assumption|].
  split; [rewrite <- (app_nil_r b) at 1; apply RB; reflexivity|]. clear. induction sigers as [|(x & v) l IH]; constructor; auto. apply same_norm.
Qed.
(*# C176_credential_message_exactly
   The message with a credential is made exactly if the credential is text and the endorsement has a whole number of groups of four characters, at most 4095; it is then the credential, a counter that says how many
   groups of four characters follow, and the endorsement. The endorsement is shorter than 2^32.
##
Example C176_message_case : exists c t, creder_new (fun _ => None) None (Some (s! "{""v"":""ACDC10JSON00004c_"",""d"":""EAAAAAAAAAAAAAAAAAAAAAAAAAAAAAAAAAAAAAAAAAAA""}")) None None None = Ok c /\
  messagize_creder c (s! "MAAB") = Ok t /\ t = d_raw c ++ s! "-VABMAAB".
Proof. eexists. eexists. split; [vm_compute; reflexivity|]. split; vm_compute; reflexivity. Qed.
#*)
Lemma C176_message_l (c : sadder) (proof t : bytes) : len proof < 2 ^ 32 ->
  (messagize_creder c proof = Ok t <->
   utf8 (d_raw c) = true /\ exists h, len proof = 4 * (len proof / 4) /\ len proof / 4 <= 4095 /\ len h = 4 /\ cinfil (Ct (s! "-V") (len proof / 4)) = Ok h /\ t = d_raw c ++ h ++ proof) /\
  messagize_creder c proof <> Panic.
Proof.
  intros L. unfold messagize_creder. rewrite from_utf8_eq. destruct (utf8 (d_raw c)); [rewrite bind_Ok|cbn [bind]; split; [split; [discriminate|intros (X & _); discriminate]|discriminate]].
  assert (as_u32 (len proof) = len proof) as -> by (unfold as_u32; apply N.mod_small; exact L). pose proof (N.div_mod (len proof) 4) as DM. rewrite quadlets_count.
  destruct (N.eqb_spec (len proof mod 4) 0) as [E|E]; cbn [negb]; [|split; [split; [discriminate|]|discriminate]; intros (_ & h & X & _); exfalso; pose proof (N.mod_lt (len proof) 4); lia].
  destruct (N.leb_spec 4096 (len proof / 4)) as [B|B]; [cbn [bind]; split; [split; [discriminate|]|discriminate]; intros (_ & h & _ & X & _); lia|]. rewrite bind_Ok.
  destruct (quadlets_wf _ B) as (z & W & S). rewrite (cinfil_wf _ _ W), bind_Ok. split; [|discriminate]. split.
  - intros H. injection H as <-. split; [reflexivity|]. exists (ctext (Ct (s! "-V") (len proof / 4)) z). split; [lia|]. split; [lia|]. split; [now rewrite (len_ctext _ _ W)|]. split; reflexivity.
  - intros (_ & h & _ & _ & _ & X & ->). injection X as <-. reflexivity.
Qed.
(*# C176_ratified_exactly
   The endorsement of a credential is made exactly if there are at most 4095 signatures and every one can be printed, whatever the identifiers. So it is made for no signature at all.
##
Example C176_none_case : exists sq proof, seqner_with_sn 0 = Ok sq /\ ratify_creder (s! "MAAB") sq (s! "MAAC") [] = Ok proof /\ drop 48 proof = s! "-AAA".
Proof. eexists. eexists. split; [vm_compute; reflexivity|]. split; vm_compute; reflexivity. Qed.
#*)
Lemma C176_ratified_l (prefix said : bytes) (n : N) (sq : matter) (sigers : list (indexer * matter)) :
  Forall made sigers -> len sigers < 2 ^ 32 -> n < 2 ^ 128 -> seqner_with_sn n = Ok sq ->
  (exists proof, ratify_creder prefix sq said sigers = Ok proof) <-> len sigers <= 4095 /\ Forall printable sigers.
Proof.
  intros M L LN SQ. destruct (C35_round_l n LN) as (m & t & bb & R1 & _ & R3 & _). unfold seqner_with_sn in SQ. assert (m = sq) as -> by congruence. destruct (group_ok (s! "-A") sigers ltac:(cbn; tauto) M L) as (G & _).
  assert (ratify_creder prefix sq said sigers = (let* g := siger_group (s! "-A") sigers in Ok (s! "-JAB6AABAAA--FAB" ++ prefix ++ t ++ said ++ g))) as ->.
  { unfold ratify_creder. change (headed (s! "-A") sigers (siger_texts sigers)) with (siger_group (s! "-A") sigers). rewrite R3. generalize (siger_group (s! "-A") sigers). intros r. destruct r; vm_compute; reflexivity. }
  split.
  - intros (p & H). apply bind_ok in H as (g & H & _). destruct (proj1 G (ex_intro _ g H)) as (G1 & G2). split; [lia|auto].
  - intros (X1 & X2). assert (len sigers < 4096) as X3 by lia. destruct (proj2 G (conj X3 X2)) as (g & H). rewrite H, bind_Ok. eauto.
Qed.
