(** Property C173: all messages of a stream. Theorem statements only; the proofs are in [StreamThms]. *)
From Coq Require Import String.
From Coq Require Import NArith ZArith QArith Bool List Lia.
From Verif Require Import Base Tables Matter Indexer Prims Json Common Saider Sadder Signer Prefixer Pather Short Verify Ingest Events SpecPrims SpecSaider SpecSadder SpecSigner SpecLog SpecIngest SpecCred SpecAgain SpecStream World Forgery Chain SadderFacts VerifyThms IngestThms ChainThms EndorseThms AgainThms DepthThms RepeatThms StreamThms.
Import ListNotations.
Open Scope N_scope.

(** No message of a stream is dropped silently. When a stream was taken in to its end, with verification on and at any depth, the store holds an event or a credential with the identifier of each event and credential in it. *)
Theorem C173_streams_are_held :
  forall (canon : bytes -> option bytes) (hash : bytes -> bytes -> bytes) (cr : crypto) (messages_of : bytes -> R (list message)) (group_text : group -> R bytes)
    (schema_check : bytes -> bytes -> R bool) (age : bytes -> R Z) (seen_said : ledger -> bytes -> bool) (fuel : nat) (l l1 : ledger) (stream : bytes) (deep verify : option bool) (ms : list message) (raw said : bytes),
  finds_all canon seen_said -> textual group_text -> reached canon hash cr messages_of group_text schema_check age seen_said l -> verify <> Some false ->
  ingest_messages canon hash cr messages_of group_text schema_check age seen_said fuel l stream deep verify = (l1, Ok tt) ->
  messages_of stream = Ok ms -> In (MPayload raw) ms -> identified canon raw said -> known canon l1 said.
Proof. exact C173_l. Qed.
Print Assumptions C173_streams_are_held.

Example C173_held_case : finds_all no_floats (fun _ _ => true) /\ textual own_letter /\ snd issued_again = Ok tt /\ In (MPayload (d_raw cred0)) issued_stream /\ In (MPayload (d_raw iss0)) issued_stream /\
  identified no_floats (d_raw cred0) csaid0.
Proof.
  split; [intros l said _; reflexivity|]. split; [exact own_textual|]. split; [exact again_ok|]. split; [unfold issued_stream; cbn [In]; auto 12|]. split; [unfold issued_stream; cbn [In]; auto 12|].
  exists cred0. split; [right; vm_compute; reflexivity|vm_compute; reflexivity].
Qed.

(** That a stream was taken in to its end does not mean that all of it was verified. After any event, whatever is in the stream under the same identifier is passed over: any key event at all that gives this identifier as
   its own, with any group attached, can be added at the end of any stream that is taken in, and the longer stream is taken in as well, with the same result. So a copy of an event with other keys, which nobody would accept by itself, does
   not make the stream fail. The copy is not stored. *)
Theorem C173_whole_stream_verified_refuted :
  forall (canon : bytes -> option bytes) (hash : bytes -> bytes -> bytes) (cr : crypto) (messages_of : bytes -> R (list message)) (group_text : group -> R bytes)
    (schema_check : bytes -> bytes -> R bool) (age : bytes -> R Z) (seen_said : ledger -> bytes -> bool) (fuel : nat) (l l1 : ledger) (stream stream' : bytes) (verify : option bool) (ms : list message)
    (raw said : bytes) (e' : sadder) (raw' ilk : bytes) (value : list group),
  sized_hash hash -> finds_all canon seen_said -> textual group_text -> reached canon hash cr messages_of group_text schema_check age seen_said l -> verify <> Some false ->
  ingest_messages canon hash cr messages_of group_text schema_check age seen_said fuel l stream (Some false) verify = (l1, Ok tt) ->
  messages_of stream = Ok ms -> In (MPayload raw) ms -> identified canon raw said ->
  serder_with_raw canon raw' = Ok e' -> sad_said e' = Ok said -> of_type (d_ked e') ilk -> In ilk [s! "icp"; s! "rot"; s! "ixn"] ->
  messages_of stream' = Ok (ms ++ [MPayload raw'; MGroup (GQuadlets value)]) ->
  ingest_messages canon hash cr messages_of group_text schema_check age seen_said fuel l stream' (Some false) verify = (l1, Ok tt).
Proof. exact C173_refuted_l. Qed.
Print Assumptions C173_whole_stream_verified_refuted.

Example C173_refuted_case : sized_hash mix /\ finds_all no_floats (fun _ _ => true) /\ textual sigs_text /\
  snd (ingest_loop no_floats mix toy streams sigs_text (fun _ _ => Ok true) (fun _ => Ok 0%Z) (fun _ _ => true) 5 (Some false) None empty [] [MPayload (d_raw event0); MGroup (GQuadlets [GSigs sigs0])]) = Ok tt /\
  streams (s! "forged") = Ok ([MPayload (d_raw event0); MGroup (GQuadlets [GSigs sigs0])] ++ [MPayload (d_raw forged0); MGroup (GQuadlets [])]) /\
  sad_said forged0 = sad_said event0 /\ serder_with_raw no_floats (d_raw forged0) = Ok forged0 /\ of_type (d_ked forged0) (s! "icp") /\
  forall fuel st g deep seen r, verify_key_event no_floats mix toy streams fuel st forged0 g deep seen <> Ok r.
Proof.
  split; [exact mix_sized|]. split; [intros l said _; reflexivity|]. split; [exact sigs_textual|]. split; [vm_compute; reflexivity|]. split; [reflexivity|]. split; [vm_compute; reflexivity|].
  assert (serder_with_raw no_floats (d_raw forged0) = Ok forged0) as RF by (vm_compute; reflexivity). split; [exact RF|]. assert (of_type (d_ked forged0) (s! "icp")) as TY by (apply type_text; vm_compute; reflexivity). split; [exact TY|].
  exact (forged_never RF TY).
Qed.

(** The first message with each identifier was verified: for every message of the stream such that no earlier one has its identifier, the event or credential was verified, with the attachments that follow it, against the store as it was then,
   somewhere between the store before and the store after. Stored events are trusted. *)
Theorem C173_whole_stream_verified_partial :
  forall (canon : bytes -> option bytes) (hash : bytes -> bytes -> bytes) (cr : crypto) (messages_of : bytes -> R (list message)) (group_text : group -> R bytes)
    (schema_check : bytes -> bytes -> R bool) (age : bytes -> R Z) (seen_said : ledger -> bytes -> bool) (fuel : nat) (l l1 : ledger) (stream : bytes) (verify : option bool) (ms : list message) (k : nat) (raw said : bytes),
  sized_hash hash -> finds_all canon seen_said -> textual group_text -> reached canon hash cr messages_of group_text schema_check age seen_said l -> verify <> Some false ->
  ingest_messages canon hash cr messages_of group_text schema_check age seen_said fuel l stream (Some false) verify = (l1, Ok tt) ->
  messages_of stream = Ok ms -> nth_error ms k = Some (MPayload raw) -> identified canon raw said ->
  (forall j raw', (j < k)%nat -> nth_error ms j = Some (MPayload raw') -> ~ identified canon raw' said) ->
  exists l0 m, extends l l0 /\ extends l0 l1 /\ nth_error ms (S k) = Some m /\ checked canon hash cr messages_of schema_check age l0 raw m.
Proof. exact C173_partial_l. Qed.
Print Assumptions C173_whole_stream_verified_partial.

Example C173_partial_case : sized_hash mix /\ finds_all no_floats (fun _ _ => true) /\ textual own_letter /\ snd issued_again = Ok tt /\ nth_error issued_stream 2 = Some (MPayload (d_raw anchor1)) /\
  (exists said, identified no_floats (d_raw anchor1) said /\ forall j raw', (j < 2)%nat -> nth_error issued_stream j = Some (MPayload raw') -> ~ identified no_floats raw' said).
Proof.
  split; [exact mix_sized|]. split; [intros l said _; reflexivity|]. split; [exact own_textual|]. split; [exact again_ok|]. split; [reflexivity|].
  assert (serder_with_raw no_floats (d_raw anchor1) = Ok anchor1 /\ serder_with_raw no_floats (d_raw event0) = Ok event0) as (R1 & R0) by (split; vm_compute; reflexivity).
  exists (World.got [] (sad_said anchor1)). assert (sad_said anchor1 = Ok (World.got [] (sad_said anchor1))) as S1 by (vm_compute; reflexivity). split; [exists anchor1; auto|]. intros [|[|j]] raw' L N; [|discriminate|lia]. injection N as <-. intros I.
  assert (identified no_floats (d_raw event0) pre0) as I0 by (exists event0; split; [now left|vm_compute; reflexivity]). pose proof (said_once _ _ _ _ I I0) as Q. vm_compute in Q. discriminate.
Qed.
