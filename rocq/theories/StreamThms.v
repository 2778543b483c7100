(** Proofs of the theorems about all messages of a stream. *)
From Coq Require Import String.
From Coq Require Import NArith ZArith QArith Bool List Lia.
From Verif Require Import Base Tables Matter Indexer Prims Json Tholder Common Saider Diger Sadder Signer Prefixer Pather Short Verify Ingest Events.
From Verif Require Import Spec SpecPrims SpecJson SpecCommon SpecTholder SpecSaider SpecSadder SpecPrefixer SpecSigner SpecLog SpecIngest SpecCred SpecExtra SpecEndorse SpecExact SpecAgain SpecStream World Forgery Chain.
From Verif Require Import BaseFacts MatterFacts MatterText PrimsFacts SaiderFacts SaiderThms SadderFacts SadderThms VerifyFacts VerifyThms ExtraFacts LogThms IngestThms CredThms ChainThms EndorseThms ExactThms AgainThms RepeatThms.
Import ListNotations.
Open Scope N_scope.

Lemma one_reading canon raw e e' : serder_with_raw canon raw = Ok e -> creder_with_raw canon raw = Ok e' -> False.
Proof.
  unfold serder_with_raw, creder_with_raw, serder_new, creder_new. cbn [or_else]. intros H K. apply bind_ok in H as (x & X & H). apply bind_ok in K as (y & Y & K). assert (x = y) as -> by congruence.
  destruct (beq (d_ident y) (s! "KERI")) eqn:E; cbn [negb] in H; [|discriminate]. apply beq_eq in E. rewrite E in K. cbn in K. discriminate.
Qed.

Section Stream.
Variable canon : bytes -> option bytes.
Variable hash : bytes -> bytes -> bytes.
Variable cr : crypto.
Variable mo : bytes -> R (list message).
Variable group_text : group -> R bytes.
Variable schema_check : bytes -> bytes -> R bool.
Variable age : bytes -> R Z.
Variable seen_said : ledger -> bytes -> bool.
Hypothesis FA : finds_all canon seen_said.
Hypothesis TX : textual group_text.

(** One message: it is held afterwards, and was checked or passed over. *)
Lemma one_said fuel deep verify l seen raw next l' seen' : verify <> Some false -> ingest_one canon hash cr mo group_text schema_check age seen_said fuel deep verify l seen raw next = Ok (l', seen') ->
  Forall (known canon l) seen -> exists said m, identified canon raw said /\ next = Some m /\ known canon l' said /\
    (In said seen \/ checked canon hash cr mo schema_check age l raw m) /\ (sized_hash hash -> deep = Some false -> seen' = seen /\ In said seen \/ seen' = said :: seen).
Proof.
  intros NV H F. unfold ingest_one in H. apply bind_ok in H as (i & _ & H). cbv zeta in H.
  assert (or_else verify true = true) as OV by (destruct verify as [[|]|]; auto; congruence).
  assert (forall said check r, there seen_said l verify said seen check = Ok r -> (In said seen /\ r = (true, seen)) \/ check (said :: seen) = Ok r) as TH.
  { intros said check r T. unfold there in T. rewrite OV in T. cbn [andb] in T. destruct (has_code seen said) eqn:HC; cbn [negb] in T; [left|now right]. apply has_code_In in HC. split; auto. injection T as <-. f_equal. apply FA.
    rewrite Forall_forall in F. now apply F. }
  assert (forall said, Forall (fun x => known canon l x \/ x = said) (said :: seen)) as FP. { intros said. constructor; auto. eapply Forall_impl; [|exact F]. auto. }
  destruct (beq (vi_ident i) (s! "KERI")).
  - apply bind_ok in H as (e & HE & H). apply bind_ok in H as (said & HS & H). apply bind_ok in H as (g & HG & H). apply bind_ok in H as (ilk & HK & H). apply type_text in HK. destruct next as [[|g']|]; try discriminate. injection HG as ->.
    destruct (has_code [s! "icp"; s! "rot"; s! "ixn"] ilk) eqn:K1; [|destruct (has_code [s! "vcp"; s! "iss"; s! "rev"] ilk) eqn:K2; [|discriminate]].
    + apply has_code_In in K1. destruct g as [| | |value|]; try discriminate. apply bind_ok in H as ((ex & sn) & T & H). cbn [fst snd] in H. exists said, (MGroup (GQuadlets value)). split; [exists e; auto|]. split; auto.
      apply TH in T as [(I & TE)|T].
      * injection TE as -> ->. cbn [negb] in H. injection H as <- <-. rewrite Forall_forall in F. auto 6.
      * destruct (key_seen canon hash cr mo l (fun x => known canon l x \/ x = said) (fun s K => or_introl K) _ _ _ _ _ _ T (FP said)) as (_ & G2). cbn [fst snd] in G2.
        assert (sized_hash hash -> deep = Some false -> sn = said :: seen) as SN. { intros SH ->. destruct fuel as [|f]; [discriminate|]. apply C165_l in T as (-> & _); auto. discriminate. }
        destruct ex; cbn [negb] in H.
        -- injection H as <- <-. destruct (G2 eq_refl) as (s & S & Q). assert (s = said) as -> by congruence. split; auto. split; [right; eapply checked_key; eauto|]. intros SH DP. right. auto.
        -- apply bind_ok in H as (event & HU & H). apply utf8_from in HU. subst event. apply bind_ok in H as (pre & HP & H). apply bind_ok in H as (text & HT & H). injection H as <- <-. split; [|split; [right; eapply checked_key; eauto|intros SH DP; right; auto]].
           left. exists pre, (d_raw e ++ text), e. split; [|split; auto; apply (read_on canon raw); eauto]. cbn. unfold added. rewrite beq_refl. apply in_or_app. right. now left.
    + apply has_code_In in K2. destruct g as [|value| | |]; try discriminate. apply bind_ok in H as ((ex & sn) & T & H). cbn [fst snd] in H. exists said, (MGroup (GSources value)). split; [exists e; auto|]. split; auto.
      apply TH in T as [(I & TE)|T].
      * injection TE as -> ->. cbn [negb] in H. injection H as <- <-. rewrite Forall_forall in F. auto 6.
      * destruct (tel_seen canon hash cr mo l (fun x => known canon l x \/ x = said) (fun s K => or_introl K) _ _ _ _ _ _ T (FP said)) as (_ & G2). cbn [fst snd] in G2.
        assert (sized_hash hash -> deep = Some false -> sn = said :: seen) as SN. { intros SH ->. destruct fuel as [|f]; [discriminate|]. apply C166_l in T as (-> & _); auto. }
        destruct ex; cbn [negb] in H.
        -- injection H as <- <-. destruct (G2 eq_refl) as (s & S & Q). assert (s = said) as -> by congruence. split; auto. split; [right; eapply checked_registry; eauto|]. intros SH DP. right. auto.
        -- apply bind_ok in H as (event & HU & H). apply utf8_from in HU. subst event. apply bind_ok in H as (pre & HP & H). apply bind_ok in H as (text & HT & H). injection H as <- <-. split; [|split; [right; eapply checked_registry; eauto|intros SH DP; right; auto]].
           right. left. exists pre, (d_raw e ++ text), e. split; [|split; auto; apply (read_on canon raw); eauto]. cbn. unfold added. rewrite beq_refl. apply in_or_app. right. now left.
  - destruct (beq (vi_ident i) (s! "ACDC")); [|discriminate]. apply bind_ok in H as (e & HE & H). apply bind_ok in H as (said & HS & H). apply bind_ok in H as (g & HG & H). destruct next as [[|g']|]; try discriminate. injection HG as ->.
    destruct g as [| | |value|]; try discriminate. apply bind_ok in H as ((ex & sn) & T & H). cbn [fst snd] in H. exists said, (MGroup (GQuadlets value)). split; [exists e; auto|]. split; auto.
    apply TH in T as [(I & TE)|T].
    + injection TE as -> ->. cbn [negb] in H. injection H as <- <-. rewrite Forall_forall in F. auto 6.
    + destruct (acdc_seen canon hash cr mo schema_check age l (fun x => known canon l x \/ x = said) (fun s K => or_introl K) _ _ _ _ _ _ T (FP said)) as (_ & G2). cbn [fst snd] in G2.
      assert (sized_hash hash -> deep = Some false -> sn = said :: seen) as SN. { intros SH ->. destruct fuel as [|f]; [discriminate|]. apply exactly_accepted in T as (-> & _); auto. }
      destruct ex; cbn [negb] in H.
      * injection H as <- <-. destruct (G2 eq_refl) as (s & S & Q). assert (s = said) as -> by congruence. split; auto. split; [right; eapply checked_credential; eauto|]. intros SH DP. right. auto.
      * apply bind_ok in H as (event & HU & H). apply utf8_from in HU. subst event. apply bind_ok in H as (text & HT & H). injection H as <- <-. split; [|split; [right; eapply checked_credential; eauto|intros SH DP; right; auto]].
        right. right. exists (d_raw e ++ text), e. split; [|split; auto; apply (read_on_creder canon raw); eauto]. cbn. apply in_or_app. right. now left.
Qed.
Lemma said_once raw a b : identified canon raw a -> identified canon raw b -> a = b.
Proof.
  intros (e & E & A) (e' & E' & B). destruct E as [E|E], E' as [E'|E']; try congruence; exfalso; eapply one_reading; eauto.
Qed.
Lemma loop_held fuel deep verify : verify <> Some false -> forall k ms l seen l1, (length ms <= k)%nat -> ingest_loop canon hash cr mo group_text schema_check age seen_said fuel deep verify l seen ms = (l1, Ok tt) ->
  kept canon hash cr mo group_text schema_check age l -> Forall (known canon l) seen -> forall raw said, In (MPayload raw) ms -> identified canon raw said -> known canon l1 said.
Proof.
  intros NV. induction k as [|k IH]; intros ms l seen l1 L H K F raw said J S.
  - destruct ms; [destruct J|cbn in L; lia].
  - destruct ms as [|[r0|g] ms]; cbn [ingest_loop] in *; [destruct J| |discriminate]. destruct ms as [|m ms].
    { destruct (ingest_one _ _ _ _ _ _ _ _ _ _ _ _ _ _ _) as [r| |] eqn:O in H; try discriminate. now apply lonely in O. }
    destruct (ingest_one _ _ _ _ _ _ _ _ _ _ _ _ _ _ _) as [(l' & seen')| |] eqn:O in H; try discriminate. cbn [fst snd] in H.
    destruct (one_kept _ _ _ _ _ _ _ _ FA TX _ _ _ _ _ _ _ _ _ NV O K F) as (E1 & K1 & F1). destruct (one_said _ _ _ _ _ _ _ _ _ NV O F) as (s0 & m0 & I0 & [= <-] & KN & C & _).
    destruct J as [[= ->]|[->|J]].
    + assert (said = s0) as -> by (eapply said_once; eauto). destruct (loop_kept _ _ _ _ _ _ _ _ FA TX _ _ _ NV (length ms) ms l' seen' l1 (Ok tt) ltac:(lia) H K1 F1) as (E2 & _). now apply (known_extends canon l').
    + exfalso. unfold ingest_one in O. apply bind_ok in O as (i & _ & O). cbv zeta in O. destruct (beq _ _) in O; [|destruct (beq _ _) in O; [|discriminate]]; apply bind_ok in O as (? & _ & O); apply bind_ok in O as (? & _ & O); discriminate.
    + apply (IH ms l' seen' l1 ltac:(cbn in L; lia) H K1 F1 raw); auto.
Qed.
Lemma loop_checked fuel verify : sized_hash hash -> verify <> Some false -> forall k ms l seen l1, ingest_loop canon hash cr mo group_text schema_check age seen_said fuel (Some false) verify l seen ms = (l1, Ok tt) ->
  kept canon hash cr mo group_text schema_check age l -> Forall (known canon l) seen -> forall raw said, nth_error ms k = Some (MPayload raw) -> identified canon raw said -> ~ In said seen ->
  (forall j raw', (j < k)%nat -> nth_error ms j = Some (MPayload raw') -> ~ identified canon raw' said) ->
  exists l0 m, extends l l0 /\ extends l0 l1 /\ nth_error ms (S k) = Some m /\ checked canon hash cr mo schema_check age l0 raw m.
Proof.
  intros SH NV. induction k as [k IH] using lt_wf_ind. intros ms l seen l1 H K F raw said J S NI FIRST. destruct ms as [|[r0|g] ms]; cbn [ingest_loop] in *; [destruct k; discriminate| |discriminate]. destruct ms as [|m ms].
  { destruct (ingest_one _ _ _ _ _ _ _ _ _ _ _ _ _ _ _) as [r| |] eqn:O in H; try discriminate. now apply lonely in O. }
  destruct (ingest_one _ _ _ _ _ _ _ _ _ _ _ _ _ _ _) as [(l' & seen')| |] eqn:O in H; try discriminate. cbn [fst snd] in H.
  destruct (one_kept _ _ _ _ _ _ _ _ FA TX _ _ _ _ _ _ _ _ _ NV O K F) as (E1 & K1 & F1). destruct (one_said _ _ _ _ _ _ _ _ _ NV O F) as (s0 & m0 & I0 & [= <-] & KN & C & SN).
  destruct (loop_kept _ _ _ _ _ _ _ _ FA TX _ _ _ NV (length ms) ms l' seen' l1 (Ok tt) ltac:(lia) H K1 F1) as (E2 & _).
  destruct k as [|[|k]]; cbn [nth_error] in J.
  - injection J as ->. assert (said = s0) as -> by (eapply said_once; eauto). destruct C as [C|C]; [contradiction|]. exists l, m. split; [apply extends_refl|]. split; [now apply (extends_trans _ l')|]. split; auto.
  - injection J as ->. exfalso. unfold ingest_one in O. apply bind_ok in O as (i & _ & O). cbv zeta in O. destruct (beq _ _) in O; [|destruct (beq _ _) in O; [|discriminate]]; apply bind_ok in O as (? & _ & O); apply bind_ok in O as (? & _ & O); discriminate.
  - destruct (IH k ltac:(lia) ms l' seen' l1 H K1 F1 raw said J S) as (l0 & m1 & X1 & X2 & N & CH).
    + assert (s0 <> said) as NE. { intros ->. apply (FIRST 0%nat r0); auto; lia. } destruct (SN SH eq_refl) as [(-> & _)| ->]; auto. intros [Q|Q]; auto.
    + intros j raw' LJ NJ. apply (FIRST (Datatypes.S (Datatypes.S j)) raw'); auto. lia.
    + exists l0, m1. split; [now apply (extends_trans _ l')|]. auto.
Qed.
(** A further message with an identifier that was seen. *)
Lemma loop_then fuel verify : sized_hash hash -> verify <> Some false -> forall k ms l seen l1, (length ms <= k)%nat -> ingest_loop canon hash cr mo group_text schema_check age seen_said fuel (Some false) verify l seen ms = (l1, Ok tt) ->
  kept canon hash cr mo group_text schema_check age l -> Forall (known canon l) seen -> exists seen', Forall (known canon l1) seen' /\ incl seen seen' /\ (forall raw said, In (MPayload raw) ms -> identified canon raw said -> In said seen') /\
  forall more, ingest_loop canon hash cr mo group_text schema_check age seen_said fuel (Some false) verify l seen (ms ++ more) = ingest_loop canon hash cr mo group_text schema_check age seen_said fuel (Some false) verify l1 seen' more.
Proof.
  intros SH NV. induction k as [|k IH]; intros ms l seen l1 L H K F.
  - destruct ms; [|cbn in L; lia]. injection H as <-. exists seen. split; auto. split; [apply incl_refl|]. split; [intros ? ? []|reflexivity].
  - destruct ms as [|[r0|g] ms]; cbn [ingest_loop] in H; [injection H as <-; exists seen; split; auto; split; [apply incl_refl|]; split; [intros ? ? []|reflexivity]| |discriminate]. destruct ms as [|m ms].
    { destruct (ingest_one _ _ _ _ _ _ _ _ _ _ _ _ _ _ _) as [r| |] eqn:O in H; try discriminate. now apply lonely in O. }
    destruct (ingest_one _ _ _ _ _ _ _ _ _ _ _ _ _ _ _) as [(l' & seen1)| |] eqn:O in H; try discriminate. cbn [fst snd] in H.
    destruct (one_kept _ _ _ _ _ _ _ _ FA TX _ _ _ _ _ _ _ _ _ NV O K F) as (E1 & K1 & F1). destruct (one_said _ _ _ _ _ _ _ _ _ NV O F) as (s0 & m0 & I0 & [= <-] & KN & C & SN).
    destruct (IH ms l' seen1 l1 ltac:(cbn in L; lia) H K1 F1) as (s' & A1 & A2 & A3 & A4). exists s'. split; auto.
    assert (incl seen seen1 /\ In s0 seen1) as (Q1 & Q2). { destruct (SN SH eq_refl) as [(-> & J)| ->]; [split; [apply incl_refl|auto]|split; [apply incl_tl, incl_refl|now left]]. }
    split; [eapply incl_tran; eauto|]. split.
    + intros raw said [[= ->]|[->|J]] S; eauto.
      * assert (said = s0) as -> by (eapply said_once; eauto). auto.
      * exfalso. unfold ingest_one in O. apply bind_ok in O as (i & _ & O). cbv zeta in O. destruct (beq _ _) in O; [|destruct (beq _ _) in O; [|discriminate]]; apply bind_ok in O as (? & _ & O); apply bind_ok in O as (? & _ & O); discriminate.
    + intros more. cbn [app ingest_loop]. rewrite O. cbn [fst snd]. apply A4.
Qed.
End Stream.

Lemma sniffed canon raw e : serder_with_raw canon raw = Ok e -> exists i, sniff raw = Ok i /\ vi_ident i = s! "KERI".
Proof.
  unfold serder_with_raw, serder_new, sadder_new. cbn [or_else]. intros H. apply bind_ok in H as (x & X & H). unfold populate_from_raw in X. apply bind_ok in X as ((ked & i) & X1 & X). unfold inhale in X1. apply bind_ok in X1 as (i' & X0 & X1). destruct (negb _) in X1; [discriminate|].
  apply bind_ok in X1 as (k & _ & X1). injection X1 as <- <-. exists i'. split; auto. apply bind_ok in X as (own & _ & X). apply bind_ok in X as (d & _ & X). apply bind_ok in X as (q & _ & X). apply bind_ok in X as (sd & _ & X). destruct (negb _) in X; [discriminate|]. injection X as <-.
  cbn [d_ident] in H. destruct (beq (vi_ident i') (s! "KERI")) eqn:B; [now apply beq_eq|discriminate].
Qed.

Lemma forged_never : serder_with_raw no_floats (d_raw forged0) = Ok forged0 -> of_type (d_ked forged0) (s! "icp") -> forall fuel st g deep seen r, verify_key_event no_floats mix toy streams fuel st forged0 g deep seen <> Ok r.
Proof.
  intros RF TY fuel st g deep seen r H. destruct (inception_ok _ _ _ _ _ _ _ _ _ _ _ _ RF H) as (pre & _ & _ & _ & V); [exact TY|].
  assert (prefixer_verify mix (d_saider forged0) (d_ked forged0) (Some true) = Ok false) as Z by (vm_compute; reflexivity). congruence.
Qed.

(*# C173_streams_are_held
   No message of a stream is dropped silently. When a stream was taken in to its end, with verification on and at any depth, the store holds an event or a credential with the identifier of each event and credential in it.
##
Example C173_held_case : finds_all no_floats (fun _ _ => true) /\ textual own_letter /\ snd issued_again = Ok tt /\ In (MPayload (d_raw cred0)) issued_stream /\ In (MPayload (d_raw iss0)) issued_stream /\
  identified no_floats (d_raw cred0) csaid0.
Proof.
  split; [intros l said _; reflexivity|]. split; [exact own_textual|]. split; [exact again_ok|]. split; [unfold issued_stream; cbn [In]; auto 12|]. split; [unfold issued_stream; cbn [In]; auto 12|].
  exists cred0. split; [right; vm_compute; reflexivity|vm_compute; reflexivity].
Qed.
#*)
Lemma C173_l (canon : bytes -> option bytes) (hash : bytes -> bytes -> bytes) (cr : crypto) (messages_of : bytes -> R (list message)) (group_text : group -> R bytes)
    (schema_check : bytes -> bytes -> R bool) (age : bytes -> R Z) (seen_said : ledger -> bytes -> bool) (fuel : nat) (l l1 : ledger) (stream : bytes) (deep verify : option bool) (ms : list message) (raw said : bytes) :
  finds_all canon seen_said -> textual group_text -> reached canon hash cr messages_of group_text schema_check age seen_said l -> verify <> Some false ->
  ingest_messages canon hash cr messages_of group_text schema_check age seen_said fuel l stream deep verify = (l1, Ok tt) ->
  messages_of stream = Ok ms -> In (MPayload raw) ms -> identified canon raw said -> known canon l1 said.
Proof.
  intros FA TX RE NV H M J S. apply (reached_kept _ _ _ _ _ _ _ _ FA TX) in RE. unfold ingest_messages in H. rewrite M in H.
  exact (loop_held canon hash cr messages_of group_text schema_check age seen_said FA TX fuel deep verify NV (length ms) ms l [] l1 (le_n _) H RE (Forall_nil _) raw said J S).
Qed.

(*# C173_whole_stream_verified_refuted
   That a stream was taken in to its end does not mean that all of it was verified. After any event, whatever is in the stream under the same identifier is passed over: any key event at all that gives this identifier as
   its own, with any group attached, can be added at the end of any stream that is taken in, and the longer stream is taken in as well, with the same result. So a copy of an event with other keys, which nobody would accept by itself, does
   not make the stream fail. The copy is not stored.
##
Example C173_refuted_case : sized_hash mix /\ finds_all no_floats (fun _ _ => true) /\ textual sigs_text /\
  snd (ingest_loop no_floats mix toy streams sigs_text (fun _ _ => Ok true) (fun _ => Ok 0%Z) (fun _ _ => true) 5 (Some false) None empty [] [MPayload (d_raw event0); MGroup (GQuadlets [GSigs sigs0])]) = Ok tt /\
  streams (s! "forged") = Ok ([MPayload (d_raw event0); MGroup (GQuadlets [GSigs sigs0])] ++ [MPayload (d_raw forged0); MGroup (GQuadlets [])]) /\
  sad_said forged0 = sad_said event0 /\ serder_with_raw no_floats (d_raw forged0) = Ok forged0 /\ of_type (d_ked forged0) (s! "icp") /\
  forall fuel st g deep seen r, verify_key_event no_floats mix toy streams fuel st forged0 g deep seen <> Ok r.
Proof.
  split; [exact mix_sized|]. split; [intros l said _; reflexivity|]. split; [exact sigs_textual|]. split; [vm_compute; reflexivity|]. split; [reflexivity|]. split; [vm_compute; reflexivity|].
  assert (serder_with_raw no_floats (d_raw forged0) = Ok forged0) as RF by (vm_compute; reflexivity). split; [exact RF|]. assert (of_type (d_ked forged0) (s! "icp")) as TY by (apply type_text; vm_compute; reflexivity). split; [exact TY|].
  exact (forged_never RF TY).
Qed.
#*)
Lemma C173_refuted_l (canon : bytes -> option bytes) (hash : bytes -> bytes -> bytes) (cr : crypto) (messages_of : bytes -> R (list message)) (group_text : group -> R bytes)
    (schema_check : bytes -> bytes -> R bool) (age : bytes -> R Z) (seen_said : ledger -> bytes -> bool) (fuel : nat) (l l1 : ledger) (stream stream' : bytes) (verify : option bool) (ms : list message)
    (raw said : bytes) (e' : sadder) (raw' ilk : bytes) (value : list group) :
  sized_hash hash -> finds_all canon seen_said -> textual group_text -> reached canon hash cr messages_of group_text schema_check age seen_said l -> verify <> Some false ->
  ingest_messages canon hash cr messages_of group_text schema_check age seen_said fuel l stream (Some false) verify = (l1, Ok tt) ->
  messages_of stream = Ok ms -> In (MPayload raw) ms -> identified canon raw said ->
  serder_with_raw canon raw' = Ok e' -> sad_said e' = Ok said -> of_type (d_ked e') ilk -> In ilk [s! "icp"; s! "rot"; s! "ixn"] ->
  messages_of stream' = Ok (ms ++ [MPayload raw'; MGroup (GQuadlets value)]) ->
  ingest_messages canon hash cr messages_of group_text schema_check age seen_said fuel l stream' (Some false) verify = (l1, Ok tt).
Proof.
  intros SH FA TX RE NV H M J S RD SD TY IL M'. apply (reached_kept _ _ _ _ _ _ _ _ FA TX) in RE. unfold ingest_messages in *. rewrite M in H. rewrite M'.
  destruct (loop_then canon hash cr messages_of group_text schema_check age seen_said FA TX fuel verify SH NV (length ms) ms l [] l1 (le_n _) H RE (Forall_nil _)) as (seen' & A1 & _ & A3 & A4). rewrite A4. specialize (A3 raw said J S).
  cbn [ingest_loop]. unfold ingest_one. destruct (sniffed _ _ _ RD) as (i & -> & ID). rewrite bind_Ok, ID. cbv zeta. rewrite RD. cbn [beq]. rewrite ?bind_Ok, SD, ?bind_Ok. apply type_text in TY. rewrite TY, bind_Ok.
  assert (has_code [s! "icp"; s! "rot"; s! "ixn"] ilk = true) as -> by now apply has_code_In. unfold there. assert (has_code seen' said = true) as -> by now apply has_code_In. rewrite andb_false_r, bind_Ok. cbn [fst snd].
  assert (seen_said l1 said = true) as ->. { apply FA. rewrite Forall_forall in A1. now apply A1. } reflexivity.
Qed.

(*# C173_whole_stream_verified_partial
   The first message with each identifier was verified: for every message of the stream such that no earlier one has its identifier, the event or credential was verified, with the attachments that follow it, against the store as it was then,
   somewhere between the store before and the store after. Stored events are trusted.
##
Example C173_partial_case : sized_hash mix /\ finds_all no_floats (fun _ _ => true) /\ textual own_letter /\ snd issued_again = Ok tt /\ nth_error issued_stream 2 = Some (MPayload (d_raw anchor1)) /\
  (exists said, identified no_floats (d_raw anchor1) said /\ forall j raw', (j < 2)%nat -> nth_error issued_stream j = Some (MPayload raw') -> ~ identified no_floats raw' said).
Proof.
  split; [exact mix_sized|]. split; [intros l said _; reflexivity|]. split; [exact own_textual|]. split; [exact again_ok|]. split; [reflexivity|].
  assert (serder_with_raw no_floats (d_raw anchor1) = Ok anchor1 /\ serder_with_raw no_floats (d_raw event0) = Ok event0) as (R1 & R0) by (split; vm_compute; reflexivity).
  exists (World.got [] (sad_said anchor1)). assert (sad_said anchor1 = Ok (World.got [] (sad_said anchor1))) as S1 by (vm_compute; reflexivity). split; [exists anchor1; auto|]. intros [|[|j]] raw' L N; [|discriminate|lia]. injection N as <-. intros I.
  assert (identified no_floats (d_raw event0) pre0) as I0 by (exists event0; split; [now left|vm_compute; reflexivity]). pose proof (said_once _ _ _ _ I I0) as Q. vm_compute in Q. discriminate.
Qed.
#*)
Lemma C173_partial_l (canon : bytes -> option bytes) (hash : bytes -> bytes -> bytes) (cr : crypto) (messages_of : bytes -> R (list message)) (group_text : group -> R bytes)
    (schema_check : bytes -> bytes -> R bool) (age : bytes -> R Z) (seen_said : ledger -> bytes -> bool) (fuel : nat) (l l1 : ledger) (stream : bytes) (verify : option bool) (ms : list message) (k : nat) (raw said : bytes) :
  sized_hash hash -> finds_all canon seen_said -> textual group_text -> reached canon hash cr messages_of group_text schema_check age seen_said l -> verify <> Some false ->
  ingest_messages canon hash cr messages_of group_text schema_check age seen_said fuel l stream (Some false) verify = (l1, Ok tt) ->
  messages_of stream = Ok ms -> nth_error ms k = Some (MPayload raw) -> identified canon raw said ->
  (forall j raw', (j < k)%nat -> nth_error ms j = Some (MPayload raw') -> ~ identified canon raw' said) ->
  exists l0 m, extends l l0 /\ extends l0 l1 /\ nth_error ms (S k) = Some m /\ checked canon hash cr messages_of schema_check age l0 raw m.
Proof.
  intros SH FA TX RE NV H M J S FIRST. apply (reached_kept _ _ _ _ _ _ _ _ FA TX) in RE. unfold ingest_messages in H. rewrite M in H.
  exact (loop_checked canon hash cr messages_of group_text schema_check age seen_said FA TX fuel verify SH NV k ms l [] l1 H RE (Forall_nil _) raw said J S (fun x => x) FIRST).
Qed.
