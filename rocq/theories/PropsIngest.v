(** Properties C126 to C128: ingestion of streams. Theorem statements only; the proofs are in [IngestThms]. *)
From Coq Require Import String.
From Coq Require Import NArith ZArith QArith Bool List Lia.
From Verif Require Import Base Tables Matter Indexer Prims Json Tholder Common Saider Diger Sadder Signer Prefixer Pather Short Verify Ingest Events Spec SpecPrims SpecJson SpecCommon SpecTholder SpecSaider SpecSadder SpecPrefixer SpecSigner SpecLog SpecIngest World IngestThms VerifyThms BaseFacts.
Import ListNotations.
Open Scope N_scope.

(** Whatever streams are taken in, one after the other and each with any outcome: every key event in the ledger stands at the place that is its number, in the log of its own prefix, with the text of the groups attached to it, and was
   verified with these groups when the log was as long as its number says. The ledger it was verified against has only been extended since. This is for a store that, asked for the data with an identifier, finds the events and credentials inserted. *)
Theorem C126_key_events_verified :
  forall (canon : bytes -> option bytes) (hash : bytes -> bytes -> bytes) (cr : crypto) (messages_of : bytes -> R (list message)) (group_text : group -> R bytes)
    (schema_check : bytes -> bytes -> R bool) (age : bytes -> R Z) (seen_said : ledger -> bytes -> bool) (l : ledger) (pre : bytes) (n : nat) (text : bytes),
  finds_all canon seen_said -> textual group_text -> reached canon hash cr messages_of group_text schema_check age seen_said l -> nth_error (l_kel l pre) n = Some text ->
  exists l0 e value rest, extends l0 l /\ l_kel l0 pre = firstn n (l_kel l pre) /\ text = d_raw e ++ rest /\ group_text (GQuadlets value) = Ok rest /\ serder_with_raw canon text = Ok e /\
    field_of (d_ked e) (s! "i") (VStr pre) /\ ordinal (d_ked e) (N.of_nat n) /\ verify_key_event canon hash cr messages_of 1 (view canon l0) e value None [] = Ok (false, []).
Proof. exact C126_l. Qed.
Print Assumptions C126_key_events_verified.

Example C126_case : finds_all no_floats (fun _ _ => true) /\ textual sigs_text /\ exists l, length (l_kel l pre0) = 3%nat /\
  reached no_floats mix toy streams sigs_text (fun _ _ => Ok true) (fun _ => Ok 0%Z) (fun _ _ => true) l.
Proof.
  split; [intros l said _; reflexivity|]. split; [exact sigs_textual|].
  exists (fst (ingest_messages no_floats mix toy streams sigs_text (fun _ _ => Ok true) (fun _ => Ok 0%Z) (fun _ _ => true) 5 empty (s! "log") (Some false) None)). split; [vm_compute; reflexivity|].
  eapply reached_more; [apply reached_empty| |apply surjective_pairing]. discriminate.
Qed.

(** The same for registry events: each stands at the place that is its number, in the log of its own prefix, and was verified when the log was that long. *)
Theorem C126_registry_events_verified :
  forall (canon : bytes -> option bytes) (hash : bytes -> bytes -> bytes) (cr : crypto) (messages_of : bytes -> R (list message)) (group_text : group -> R bytes)
    (schema_check : bytes -> bytes -> R bool) (age : bytes -> R Z) (seen_said : ledger -> bytes -> bool) (l : ledger) (pre : bytes) (n : nat) (text : bytes),
  finds_all canon seen_said -> textual group_text -> reached canon hash cr messages_of group_text schema_check age seen_said l -> nth_error (l_tel l pre) n = Some text ->
  exists l0 e value rest fuel deep seen seen', extends l0 l /\ l_tel l0 pre = firstn n (l_tel l pre) /\ text = d_raw e ++ rest /\ group_text (GSources value) = Ok rest /\ serder_with_raw canon text = Ok e /\
    field_of (d_ked e) (s! "i") (VStr pre) /\ ordinal (d_ked e) (N.of_nat n) /\ verify_transaction_event canon hash cr messages_of fuel (view canon l0) e value deep seen = Ok (false, seen').
Proof. exact C126r_l. Qed.
Print Assumptions C126_registry_events_verified.

Example C126_registry_case : finds_all no_floats (fun _ _ => true) /\ textual letter_of /\ exists l, length (l_tel l rpre0) = 1%nat /\ length (l_tel l csaid0) = 2%nat /\
  reached no_floats mix toy lettered letter_of (fun _ _ => Ok true) (fun _ => Ok 0%Z) (fun _ _ => true) l.
Proof.
  split; [intros l said _; reflexivity|]. split; [exact letters_textual|].
  exists (fst (ingest_messages no_floats mix toy lettered letter_of (fun _ _ => Ok true) (fun _ => Ok 0%Z) (fun _ _ => true) 9 (fst (ingest_messages no_floats mix toy lettered letter_of (fun _ _ => Ok true) (fun _ => Ok 0%Z) (fun _ _ => true) 9 empty (s! "issued") (Some false) None)) (s! "revoked") None None)).
  split; [vm_compute; reflexivity|]. split; [vm_compute; reflexivity|].
  eapply reached_more; [eapply reached_more; [apply reached_empty| |apply surjective_pairing]| |apply surjective_pairing]; discriminate.
Qed.

(** And for credentials: each was verified when it was inserted. *)
Theorem C126_credentials_verified :
  forall (canon : bytes -> option bytes) (hash : bytes -> bytes -> bytes) (cr : crypto) (messages_of : bytes -> R (list message)) (group_text : group -> R bytes)
    (schema_check : bytes -> bytes -> R bool) (age : bytes -> R Z) (seen_said : ledger -> bytes -> bool) (l : ledger) (n : nat) (text : bytes),
  finds_all canon seen_said -> textual group_text -> reached canon hash cr messages_of group_text schema_check age seen_said l -> nth_error (l_acdc l) n = Some text ->
  exists l0 e value rest fuel deep seen seen', extends l0 l /\ l_acdc l0 = firstn n (l_acdc l) /\ text = d_raw e ++ rest /\ group_text (GQuadlets value) = Ok rest /\ creder_with_raw canon text = Ok e /\
    verify_acdc canon hash cr messages_of schema_check age fuel (view canon l0) e value deep seen = Ok (false, seen').
Proof. exact C126c_l. Qed.
Print Assumptions C126_credentials_verified.

Example C126_credential_case : exists l, length (l_acdc l) = 1%nat /\ reached no_floats mix toy lettered letter_of (fun _ _ => Ok true) (fun _ => Ok 0%Z) (fun _ _ => true) l.
Proof.
  exists (fst (ingest_messages no_floats mix toy lettered letter_of (fun _ _ => Ok true) (fun _ => Ok 0%Z) (fun _ _ => true) 9 empty (s! "issued") (Some false) None)).
  split; [vm_compute; reflexivity|]. eapply reached_more; [apply reached_empty| |apply surjective_pairing]. discriminate.
Qed.

(** False for a store that finds only other data by their identifiers: in a stream with an inception and, after it, the same inception with its threshold lowered, the second is inserted without verification. No store and no
   signatures would make verification accept it. *)
Theorem C126_any_store_refuted :
  textual sigs_text /\ exists l text e, reached no_floats mix toy streams sigs_text (fun _ _ => Ok true) (fun _ => Ok 0%Z) (fun _ _ => false) l /\
  nth_error (l_kel l pre0) 1 = Some text /\ serder_with_raw no_floats text = Ok e /\ forall fuel st g deep seen r, verify_key_event no_floats mix toy streams fuel st e g deep seen <> Ok r.
Proof. exact C126_no_l. Qed.
Print Assumptions C126_any_store_refuted.

(** Taking in a stream only appends to the logs and to the credentials, whatever the stream, its outcome and the options. *)
Theorem C127_append_only :
  forall (canon : bytes -> option bytes) (hash : bytes -> bytes -> bytes) (cr : crypto) (messages_of : bytes -> R (list message)) (group_text : group -> R bytes)
    (schema_check : bytes -> bytes -> R bool) (age : bytes -> R Z) (seen_said : ledger -> bytes -> bool) (fuel : nat) (l : ledger) (stream : bytes) (deep verify : option bool) (l' : ledger) (r : R unit),
  ingest_messages canon hash cr messages_of group_text schema_check age seen_said fuel l stream deep verify = (l', r) -> extends l l'.
Proof. exact C127_l. Qed.
Print Assumptions C127_append_only.

Example C127_case : let l := fst (ingest_messages no_floats mix toy streams sigs_text (fun _ _ => Ok true) (fun _ => Ok 0%Z) (fun _ _ => false) 5 log1 (s! "forged") None (Some false)) in
  length (l_kel log1 pre0) = 1%nat /\ length (l_kel l pre0) = 3%nat.
Proof. split; vm_compute; reflexivity. Qed.

(** Two ledgers were made by taking in streams, by two parties with their own signature schemes, parsers and options. If the events under a number in the logs of a prefix have the same identifier, then so have those under every
   smaller number, and their data are the same, the text of field d aside; or Blake3 has a collision. (Of inceptions this is said of the fields after a leading version string.) *)
Theorem C128_ledgers_agree :
  forall (canon : bytes -> option bytes) (hash : bytes -> bytes -> bytes) (cr1 cr2 : crypto) (messages_of1 messages_of2 : bytes -> R (list message)) (group_text1 group_text2 : group -> R bytes)
    (schema_check1 schema_check2 : bytes -> bytes -> R bool) (age1 age2 : bytes -> R Z) (seen_said1 seen_said2 : ledger -> bytes -> bool) (l1 l2 : ledger) (pre : bytes),
  sized_hash hash -> finds_all canon seen_said1 -> finds_all canon seen_said2 -> textual group_text1 -> textual group_text2 ->
  reached canon hash cr1 messages_of1 group_text1 schema_check1 age1 seen_said1 l1 -> reached canon hash cr2 messages_of2 group_text2 schema_check2 age2 seen_said2 l2 ->
  (forall text e, In text (l_kel l1 pre) \/ In text (l_kel l2 pre) -> serder_with_raw canon text = Ok e -> float_free (d_ked e)) ->
  forall (n : nat) (text1 text2 : bytes) (e1 e2 : sadder) (said : bytes), N.of_nat n <= 2 ^ 32 ->
  nth_error (l_kel l1 pre) n = Some text1 -> nth_error (l_kel l2 pre) n = Some text2 -> serder_with_raw canon text1 = Ok e1 -> serder_with_raw canon text2 = Ok e2 -> sad_said e1 = Ok said -> sad_said e2 = Ok said ->
  (forall m, (m <= n)%nat -> exists t1 t2 e1' e2' said', nth_error (l_kel l1 pre) m = Some t1 /\ nth_error (l_kel l2 pre) m = Some t2 /\ serder_with_raw canon t1 = Ok e1' /\ serder_with_raw canon t2 = Ok e2' /\
     sad_said e1' = Ok said' /\ sad_said e2' = Ok said' /\
     (forall m1 m2, (0 < m)%nat -> d_ked e1' = VObj m1 -> d_ked e2' = VObj m2 -> without [s! "d"] m1 = without [s! "d"] m2) /\
     (forall vs1 vs2 m1 m2, m = 0%nat -> d_ked e1' = VObj ((s! "v", VStr vs1) :: m1) -> d_ked e2' = VObj ((s! "v", VStr vs2) :: m2) -> without [s! "d"] m1 = without [s! "d"] m2)) \/
  collision hash (s! "E").
Proof. exact C128_l. Qed.
Print Assumptions C128_ledgers_agree.

Example C128_case : exists l1 l2, length (l_kel l1 pre0) = 3%nat /\ length (l_kel l2 pre0) = 4%nat /\ nth_error (l_kel l1 pre0) 2 = nth_error (l_kel l2 pre0) 2 /\
  reached no_floats mix toy lettered letter_of (fun _ _ => Ok true) (fun _ => Ok 0%Z) (fun _ _ => true) l1 /\ reached no_floats mix toy lettered letter_of (fun _ _ => Ok true) (fun _ => Ok 0%Z) (fun _ _ => true) l2.
Proof.
  exists (fst (ingest_messages no_floats mix toy lettered letter_of (fun _ _ => Ok true) (fun _ => Ok 0%Z) (fun _ _ => true) 9 empty (s! "issued") (Some false) None)),
    (fst (ingest_messages no_floats mix toy lettered letter_of (fun _ _ => Ok true) (fun _ => Ok 0%Z) (fun _ _ => true) 9 (fst (ingest_messages no_floats mix toy lettered letter_of (fun _ _ => Ok true) (fun _ => Ok 0%Z) (fun _ _ => true) 9 empty (s! "issued") (Some false) None)) (s! "revoked") None None)).
  split; [vm_compute; reflexivity|]. split; [vm_compute; reflexivity|]. split; [vm_compute; reflexivity|]. split.
  - eapply reached_more; [apply reached_empty| |apply surjective_pairing]. discriminate.
  - eapply reached_more; [eapply reached_more; [apply reached_empty| |apply surjective_pairing]| |apply surjective_pairing]; discriminate.
Qed.
