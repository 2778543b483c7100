(** Property C172: taking in a stream again. Theorem statements only; the proofs are in [RepeatThms]. *)
From Coq Require Import String.
From Coq Require Import NArith ZArith QArith Bool List Lia.
From Verif Require Import Base Tables Matter Indexer Prims Json Common Saider Sadder Signer Prefixer Pather Short Verify Ingest Events SpecPrims SpecSaider SpecSadder SpecSigner SpecLog SpecIngest SpecCred SpecAgain World Forgery Chain SadderFacts VerifyThms IngestThms ChainThms EndorseThms AgainThms DepthThms RepeatThms.
Import ListNotations.
Open Scope N_scope.

(** A stream that was once taken in to its end, with verification on, is never stored a second time. Whoever presents it again, to the same store as it is then or as it has become after anything else was added, with
   verification on or off and at any later time, changes nothing in it: whether the second time ends well, in an error or in a panic. Both times the stored events are trusted. *)
Theorem C172_taken_in_again_changes_nothing :
  forall (canon : bytes -> option bytes) (hash : bytes -> bytes -> bytes) (cr : crypto) (messages_of : bytes -> R (list message)) (group_text : group -> R bytes)
    (schema_check : bytes -> bytes -> R bool) (age : bytes -> R Z) (seen_said : ledger -> bytes -> bool) (fuel : nat) (l l1 : ledger) (stream : bytes) (verify : option bool)
    (l2 : ledger) (age' : bytes -> R Z) (fuel' : nat) (verify' : option bool),
  sized_hash hash -> finds_all canon seen_said -> textual group_text -> reached canon hash cr messages_of group_text schema_check age seen_said l -> verify <> Some false ->
  ingest_messages canon hash cr messages_of group_text schema_check age seen_said fuel l stream (Some false) verify = (l1, Ok tt) -> extends l1 l2 ->
  fst (ingest_messages canon hash cr messages_of group_text schema_check age' seen_said fuel' l2 stream (Some false) verify') = l2.
Proof. exact C172_l. Qed.
Print Assumptions C172_taken_in_again_changes_nothing.

Example C172_nothing_case : sized_hash mix /\ finds_all no_floats (fun _ _ => true) /\ textual own_letter /\ snd both_taken = Ok tt /\ length (l_kel (fst both_taken) pre0) = 4%nat /\
  length (l_tel (fst both_taken) csaid0) = 2%nat /\ length (l_acdc (fst both_taken)) = 1%nat.
Proof. split; [exact mix_sized|]. split; [intros l said _; reflexivity|]. split; [exact own_textual|]. split; [exact both_ok|]. split; [vm_compute; reflexivity|]. split; vm_compute; reflexivity. Qed.

(** A stream that was taken in to its end need not be taken in again, not even straight away: if a credential is issued and revoked in it, it passes the first time and fails the second, at the credential, which
   has by then been revoked. What follows the credential in the stream is not looked at. *)
Theorem C172_taken_in_again_succeeds_refuted :
  exists canon hash cr messages_of group_text schema_check age seen_said fuel l1 stream,
  sized_hash hash /\ finds_all canon seen_said /\ textual group_text /\ reads_back messages_of group_text /\
  ingest_messages canon hash cr messages_of group_text schema_check age seen_said fuel empty stream (Some false) None = (l1, Ok tt) /\
  ingest_messages canon hash cr messages_of group_text schema_check age seen_said fuel l1 stream (Some false) None = (l1, Err EValidation).
Proof. exact C172_refuted_l. Qed.
Print Assumptions C172_taken_in_again_succeeds_refuted.

Example C172_refuted_case : snd both_taken = Ok tt /\ snd (ingest_messages no_floats mix toy both own_letter accepts_all young (fun _ _ => true) 9 (fst both_taken) (s! "both") (Some false) None) = Err EValidation.
Proof. exact (conj both_ok both_not). Qed.

(** Nothing else stands in the way. If every credential in the stream is in good standing, at the later time and in the later store, the stream is taken in again to its end and changes nothing. In particular this holds of
   every stream without credentials. The logs of the later store are assumed to be no longer than 2^32 events. *)
Theorem C172_taken_in_again_succeeds_partial :
  forall (canon : bytes -> option bytes) (hash : bytes -> bytes -> bytes) (cr : crypto) (messages_of : bytes -> R (list message)) (group_text : group -> R bytes)
    (schema_check : bytes -> bytes -> R bool) (age : bytes -> R Z) (seen_said : ledger -> bytes -> bool) (fuel : nat) (l l1 : ledger) (stream : bytes) (verify : option bool)
    (l2 : ledger) (age' : bytes -> R Z) (fuel' : nat) (verify' : option bool),
  sized_hash hash -> finds_all canon seen_said -> textual group_text -> reached canon hash cr messages_of group_text schema_check age seen_said l -> verify <> Some false ->
  ingest_messages canon hash cr messages_of group_text schema_check age seen_said (S fuel) l stream (Some false) verify = (l1, Ok tt) -> extends l1 l2 ->
  reached canon hash cr messages_of group_text schema_check age seen_said l2 -> (forall pre, len (l_kel l2 pre) <= 2 ^ 32) -> (forall pre, len (l_tel l2 pre) <= 2 ^ 32) ->
  (forall ms raw c said, messages_of stream = Ok ms -> In (MPayload raw) ms -> creder_with_raw canon raw = Ok c -> sad_said c = Ok said -> standing canon age' (view canon l2) said) ->
  ingest_messages canon hash cr messages_of group_text schema_check age' seen_said (S fuel') l2 stream (Some false) verify' = (l2, Ok tt).
Proof. exact C172_partial_l. Qed.
Print Assumptions C172_taken_in_again_succeeds_partial.

Example C172_partial_case : sized_hash mix /\ finds_all no_floats (fun _ _ => true) /\ textual own_letter /\ snd issued_again = Ok tt /\
  snd (ingest_messages no_floats mix toy lettered own_letter accepts_all young (fun _ _ => true) 9 (fst issued_again) (s! "issued") (Some false) None) = Ok tt /\ length (l_acdc (fst issued_again)) = 1%nat /\
  standing no_floats young (view no_floats (fst issued_again)) csaid0.
Proof. split; [exact mix_sized|]. split; [intros l said _; reflexivity|]. split; [exact own_textual|]. split; [exact again_ok|]. split; [vm_compute; reflexivity|]. split; [vm_compute; reflexivity|exact again_stands]. Qed.
