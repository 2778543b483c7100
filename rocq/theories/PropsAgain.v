(** Properties C168 and C169: what a ledger holds verifies again. Theorem statements only; the proofs are in [AgainThms]. *)
From Coq Require Import String.
From Coq Require Import NArith ZArith QArith Bool List Lia.
From Verif Require Import Base Tables Matter Indexer Prims Json Common Saider Sadder Signer Prefixer Pather Short Verify Ingest Events SpecPrims SpecSaider SpecSadder SpecSigner SpecLog SpecIngest SpecAgain World Forgery Chain SadderFacts VerifyThms IngestThms AgainThms.
Import ListNotations.
Open Scope N_scope.

(** Whatever was taken into a ledger from an empty one, with verification on, verifies again, at any later time and at any depth: for every key event in a log, the text holds the event and the group
   of attachments that follows, and verifying the one with the other against the ledger as it now is succeeds and says that the event was there. The recursion of a deep verification is no deeper than
   the event's number and one. Assumed of the parser: a group that was printed is read back. *)
Theorem C168_stored_key_events_verify_again :
  forall (canon : bytes -> option bytes) (hash : bytes -> bytes -> bytes) (cr : crypto) (messages_of : bytes -> R (list message)) (group_text : group -> R bytes)
    (schema_check : bytes -> bytes -> R bool) (age : bytes -> R Z) (seen_said : ledger -> bytes -> bool) (l : ledger) (pre : bytes) (n : nat) (text : bytes),
  sized_hash hash -> finds_all canon seen_said -> textual group_text -> reads_back messages_of group_text ->
  reached canon hash cr messages_of group_text schema_check age seen_said l -> nth_error (l_kel l pre) n = Some text -> N.of_nat n < 2 ^ 32 ->
  exists e value rest more, text = d_raw e ++ rest /\ serder_with_raw canon text = Ok e /\ field_of (d_ked e) (s! "i") (VStr pre) /\ ordinal (d_ked e) (N.of_nat n) /\
    messages_of rest = Ok (MGroup (GQuadlets value) :: more) /\
    forall fuel deep seen, (n < fuel)%nat -> exists seen', verify_key_event canon hash cr messages_of fuel (view canon l) e value deep seen = Ok (true, seen').
Proof. exact C168_l. Qed.
Print Assumptions C168_stored_key_events_verify_again.

Example C168_stored_case : sized_hash mix /\ finds_all no_floats (fun _ _ => true) /\ textual own_letter /\ reads_back lettered own_letter /\
  reached no_floats mix toy lettered own_letter (fun _ _ => Ok true) (fun _ => Ok 0%Z) (fun _ _ => true) revoked_ledger /\ length (l_kel revoked_ledger pre0) = 4%nat.
Proof.
  split; [exact mix_sized|]. split; [intros l said _; reflexivity|]. split; [exact own_textual|]. split; [exact own_read|]. split; [exact revoked_reached|]. vm_compute. reflexivity.
Qed.

(** Against such a ledger deep verification of any key event, new or stored, good or bad, gives exactly what verification that trusts the stored events gives: the same answer, the same error, or a panic as well. *)
Theorem C168_depth_adds_nothing :
  forall (canon : bytes -> option bytes) (hash : bytes -> bytes -> bytes) (cr : crypto) (messages_of : bytes -> R (list message)) (group_text : group -> R bytes)
    (schema_check : bytes -> bytes -> R bool) (age : bytes -> R Z) (seen_said : ledger -> bytes -> bool) (l : ledger) (e : sadder) (g : list group) (fuel : nat) (deep : option bool) (seen : list bytes),
  sized_hash hash -> finds_all canon seen_said -> textual group_text -> reads_back messages_of group_text ->
  reached canon hash cr messages_of group_text schema_check age seen_said l -> (0 < fuel)%nat -> (forall n, ordinal (d_ked e) n -> (N.to_nat n < fuel)%nat) ->
  verdict (verify_key_event canon hash cr messages_of fuel (view canon l) e g deep seen) = verdict (verify_key_event canon hash cr messages_of 1 (view canon l) e g None []).
Proof. exact C168d_l. Qed.
Print Assumptions C168_depth_adds_nothing.

Example C168_depth_case : sized_hash mix /\ finds_all no_floats (fun _ _ => true) /\ textual own_letter /\ reads_back lettered own_letter /\
  reached no_floats mix toy lettered own_letter (fun _ _ => Ok true) (fun _ => Ok 0%Z) (fun _ _ => true) issued_ledger /\
  (forall n, ordinal (d_ked anchor3) n -> (N.to_nat n < 9)%nat) /\ verify_key_event no_floats mix toy lettered 1 (view no_floats issued_ledger) anchor3 [GSigs asigs3] None [] = Ok (false, []).
Proof.
  split; [exact mix_sized|]. split; [intros l said _; reflexivity|]. split; [exact own_textual|]. split; [exact own_read|]. split; [exact issued_reached|].
  split; [|vm_compute; reflexivity]. intros n H. apply sn_field in H. assert (serder_sn anchor3 = Ok 3) as E by (vm_compute; reflexivity). assert (n = 3) as -> by congruence. vm_compute. lia.
Qed.

(** The same for registry events: each one in a log verifies again, with the attachments stored behind it, at any later time and at any depth. *)
Theorem C169_stored_registry_events_verify_again :
  forall (canon : bytes -> option bytes) (hash : bytes -> bytes -> bytes) (cr : crypto) (messages_of : bytes -> R (list message)) (group_text : group -> R bytes)
    (schema_check : bytes -> bytes -> R bool) (age : bytes -> R Z) (seen_said : ledger -> bytes -> bool) (l : ledger) (pre : bytes) (n : nat) (text : bytes),
  sized_hash hash -> finds_all canon seen_said -> textual group_text -> reads_back messages_of group_text ->
  reached canon hash cr messages_of group_text schema_check age seen_said l -> nth_error (l_tel l pre) n = Some text -> N.of_nat n < 2 ^ 32 ->
  exists e value rest more bound, text = d_raw e ++ rest /\ serder_with_raw canon text = Ok e /\ field_of (d_ked e) (s! "i") (VStr pre) /\ ordinal (d_ked e) (N.of_nat n) /\
    messages_of rest = Ok (MGroup (GSources value) :: more) /\
    forall fuel deep seen, (bound <= fuel)%nat -> exists seen', verify_transaction_event canon hash cr messages_of fuel (view canon l) e value deep seen = Ok (true, seen').
Proof. exact C169_l. Qed.
Print Assumptions C169_stored_registry_events_verify_again.

Example C169_stored_case : sized_hash mix /\ finds_all no_floats (fun _ _ => true) /\ textual own_letter /\ reads_back lettered own_letter /\
  reached no_floats mix toy lettered own_letter (fun _ _ => Ok true) (fun _ => Ok 0%Z) (fun _ _ => true) revoked_ledger /\ length (l_tel revoked_ledger rpre0) = 1%nat /\ length (l_tel revoked_ledger csaid0) = 2%nat.
Proof.
  split; [exact mix_sized|]. split; [intros l said _; reflexivity|]. split; [exact own_textual|]. split; [exact own_read|]. split; [exact revoked_reached|]. split; vm_compute; reflexivity.
Qed.

(** Against such a ledger verification of any registry event at any depth, once the recursion may be deep enough, gives exactly what verification that trusts the store gives: answer, error or panic. *)
Theorem C169_depth_adds_nothing :
  forall (canon : bytes -> option bytes) (hash : bytes -> bytes -> bytes) (cr : crypto) (messages_of : bytes -> R (list message)) (group_text : group -> R bytes)
    (schema_check : bytes -> bytes -> R bool) (age : bytes -> R Z) (seen_said : ledger -> bytes -> bool) (l : ledger) (e : sadder) (couples : list (matter * matter)),
  sized_hash hash -> finds_all canon seen_said -> textual group_text -> reads_back messages_of group_text -> reached canon hash cr messages_of group_text schema_check age seen_said l ->
  exists bound, forall fuel deep seen, (bound <= fuel)%nat ->
    verdict (verify_transaction_event canon hash cr messages_of fuel (view canon l) e couples deep seen) = verdict (verify_transaction_event canon hash cr messages_of 1 (view canon l) e couples (Some false) []).
Proof. exact C169d_l. Qed.
Print Assumptions C169_depth_adds_nothing.

Example C169_depth_case : sized_hash mix /\ finds_all no_floats (fun _ _ => true) /\ textual own_letter /\ reads_back lettered own_letter /\
  reached no_floats mix toy lettered own_letter (fun _ _ => Ok true) (fun _ => Ok 0%Z) (fun _ _ => true) revoked_ledger /\
  verify_transaction_event no_floats mix toy lettered 1 (view no_floats revoked_ledger) rev0 [couple 3 anchor3] (Some false) [] = Ok (true, []).
Proof.
  split; [exact mix_sized|]. split; [intros l said _; reflexivity|]. split; [exact own_textual|]. split; [exact own_read|]. split; [exact revoked_reached|]. vm_compute. reflexivity.
Qed.
