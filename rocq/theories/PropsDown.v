(** Property C154, exactly: which attachments bring the verification of an acceptable event down. Theorem statements only; the proofs are in [DownThms]. *)
From Coq Require Import String.
From Coq Require Import NArith ZArith QArith Bool List Lia.
From Verif Require Import Base Tables Matter Indexer Prims Json Tholder Common Saider Diger Sadder Signer Prefixer Pather Short Verify Ingest Events SpecPrims SpecTholder SpecSaider SpecSadder SpecSigner SpecLog SpecIngest SpecExtra SpecDown World SadderFacts VerifyThms ExtraThms DownThms.
Import ListNotations.
Open Scope N_scope.

(** Which attachments bring verification down, exactly. Take an event that is accepted with some signatures and attach instead any groups whatsoever: verification panics if and only if, reading the groups from the front,
   a signature with the number of the keys as its index comes before any other group, any index beyond that, and any signature that cannot be checked. The keys and announced digests must have texts, weighted
   thresholds a weight with a small denominator for each key. *)
Theorem C154_verification_answers_exactly :
  forall (canon : bytes -> option bytes) (hash : bytes -> bytes -> bytes) (cr : crypto) (messages_of : bytes -> R (list message)) (fuel : nat) (st : store) (e : sadder)
    (g g' : list group) (deep : option bool) (seen : list bytes) (r : bool * list bytes) (pre : bytes) (n : N) (ks : list matter) (t : tholder),
  sized_hash hash -> verify_key_event canon hash cr messages_of fuel st e g deep seen = Ok r ->
  field_of (d_ked e) (s! "i") (VStr pre) -> ordinal (d_ked e) n -> governing canon st pre n e ks t -> legible canon st pre n ks -> settled canon st pre n ks t ->
  (verify_key_event canon hash cr messages_of fuel st e g' deep seen = Panic <-> overrun cr ks (d_raw e) g').
Proof. exact C154_exactly_l. Qed.
Print Assumptions C154_verification_answers_exactly.

Example C154_exactly_case : verify_key_event no_floats mix toy no_messages 1 (view no_floats log1) event1 [GSigs sigs1] None [] = Ok (false, []) /\
  (exists ks t, governing no_floats (view no_floats log1) pre0 1 event1 ks t /\ len ks = 2 /\ field_of (d_ked event1) (s! "i") (VStr pre0) /\ ordinal (d_ked event1) 1 /\
    legible no_floats (view no_floats log1) pre0 1 ks /\ settled no_floats (view no_floats log1) pre0 1 ks t) /\ sized_hash mix /\
  verify_key_event no_floats mix toy no_messages 1 (view no_floats log1) event1 [GSigs (firstn 1 sigs1); GSigs [stray 2; stray 3]; GOther] None [] = Panic /\
  verify_key_event no_floats mix toy no_messages 1 (view no_floats log1) event1 [GSigs (firstn 1 sigs1); GSigs [stray 3; stray 2]; GOther] None [] = Err EVerification.
Proof.
  split; [vm_compute; reflexivity|]. split; [exact governs1|]. split; [exact mix_sized|]. split; vm_compute; reflexivity.
Qed.
