(** Property C172 at depth: taking in new messages again. Theorem statements only; the proofs are in [FreshThms]. *)
From Coq Require Import String.
From Coq Require Import NArith ZArith QArith Bool List Lia.
From Verif Require Import Base Tables Matter Indexer Prims Json Common Saider Sadder Signer Prefixer Pather Short Verify Ingest Events SpecPrims SpecSaider SpecSadder SpecSigner SpecLog SpecIngest SpecCred SpecAgain SpecStream World Forgery Chain SadderFacts VerifyThms IngestThms ChainThms EndorseThms AgainThms DepthThms RepeatThms StreamThms FreshThms.
Import ListNotations.
Open Scope N_scope.

(** At any depth, the default included: if none of the messages of the stream was known before and none occurs in it twice, by their identifiers, then after it was taken in to its end, with verification on, presenting it again to the same
   store or a later one, at any depth, with verification on or off and at any time, changes nothing. *)
Theorem C172_new_messages_change_nothing_again :
  forall (canon : bytes -> option bytes) (hash : bytes -> bytes -> bytes) (cr : crypto) (messages_of : bytes -> R (list message)) (group_text : group -> R bytes)
    (schema_check : bytes -> bytes -> R bool) (age : bytes -> R Z) (seen_said : ledger -> bytes -> bool) (fuel : nat) (l l1 : ledger) (stream : bytes) (deep verify : option bool) (ms : list message)
    (l2 : ledger) (age' : bytes -> R Z) (fuel' : nat) (deep' verify' : option bool),
  finds_all canon seen_said -> textual group_text -> reached canon hash cr messages_of group_text schema_check age seen_said l -> verify <> Some false ->
  ingest_messages canon hash cr messages_of group_text schema_check age seen_said fuel l stream deep verify = (l1, Ok tt) -> messages_of stream = Ok ms ->
  (forall j raw said, nth_error ms j = Some (MPayload raw) -> identified canon raw said -> ~ known canon l said /\ forall i raw', (i < j)%nat -> nth_error ms i = Some (MPayload raw') -> ~ identified canon raw' said) ->
  extends l1 l2 ->
  fst (ingest_messages canon hash cr messages_of group_text schema_check age' seen_said fuel' l2 stream deep' verify') = l2.
Proof. exact C172n_l. Qed.
Print Assumptions C172_new_messages_change_nothing_again.

Example C172_new_case : finds_all no_floats (fun _ _ => true) /\ textual own_letter /\
  snd (ingest_messages no_floats mix toy lettered own_letter accepts_all young (fun _ _ => true) 20 empty (s! "issued") None None) = Ok tt /\ lettered (s! "issued") = Ok issued_stream /\
  (forall said, ~ known no_floats empty said) /\ NoDup (map (fun m => match m with MPayload raw => match serder_with_raw no_floats raw with Ok e => sad_said e | _ => match creder_with_raw no_floats raw with Ok e => sad_said e | _ => Panic end end | _ => Panic end) (filter (fun m => match m with MPayload _ => true | _ => false end) issued_stream)).
Proof.
  split; [intros l said _; reflexivity|]. split; [exact own_textual|]. split; [vm_compute; reflexivity|]. split; [reflexivity|]. split.
  - intros said [(p & t & e & I & _)|[(p & t & e & I & _)|(t & e & I & _)]]; destruct I.
  - vm_compute. repeat (constructor; [intros D; cbn [In] in D; repeat (destruct D as [D|D]; [discriminate|]); destruct D|]). constructor.
Qed.
