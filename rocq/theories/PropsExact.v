(** Properties C165 to C167: which key and registry events are accepted. Theorem statements only; the proofs are in [ExactThms]. *)
From Coq Require Import String.
From Coq Require Import NArith ZArith QArith Bool List Lia.
From Verif Require Import Base Tables Matter Indexer Prims Json Tholder Common Saider Diger Sadder Signer Prefixer Pather Short Verify Ingest Events SpecPrims SpecTholder SpecSaider SpecSadder SpecSigner SpecLog SpecIngest SpecCred SpecExtra SpecEndorse SpecExact World Forgery Chain SadderFacts VerifyThms CredThms EndorseThms ExactThms.
Import ListNotations.
Open Scope N_scope.

(** With the store trusted, a key event is accepted exactly when it is in order and continues the log: it has the fields of its type; only indexed signatures are attached, all of which can be checked, and the
   good ones satisfy the threshold in force; an inception has number 0 and as its identifier the prefix, which is the one derived from it; any other event has the identifier derived from it and names in p the event stored
   under the number before; and a rotation reveals enough of the keys announced by the last establishment event. The answer says whether it was there: its number is the length of the log, or is below and the event stored
   under it has the same identifier. *)
Theorem C165_accepted_key_events_exactly :
  forall (canon : bytes -> option bytes) (hash : bytes -> bytes -> bytes) (cr : crypto) (messages_of : bytes -> R (list message)) (fuel : nat) (st : store) (e : sadder)
    (g : list group) (deep : option bool) (seen seen' : list bytes) (there : bool),
  sized_hash hash -> deep <> Some true ->
  (verify_key_event canon hash cr messages_of (S fuel) st e g deep seen = Ok (there, seen') <->
   seen' = seen /\ exists pre n said count, proper canon hash cr st e g pre n said /\ count_key_events st pre = Ok count /\
     (there = false /\ n = count \/ there = true /\ n < count /\ exists e', logged canon st pre (asked_for n) e' said)).
Proof. exact C165_l. Qed.
Print Assumptions C165_accepted_key_events_exactly.

Example C165_case : proper no_floats mix toy (view no_floats log1) event1 [GSigs sigs1] pre0 1 (got [] (sad_said event1)) /\ count_key_events (view no_floats log1) pre0 = Ok 1.
Proof.
  assert (verify_key_event no_floats mix toy no_messages 1 (view no_floats log1) event1 [GSigs sigs1] None [] = Ok (false, [])) as V by (vm_compute; reflexivity).
  apply (C165_l no_floats mix toy no_messages 0 (view no_floats log1) event1 [GSigs sigs1] None [] [] false mix_sized ltac:(discriminate)) in V as (_ & pre & n & said & count & P & _).
  assert (sad_said event1 = Ok (got [] (sad_said event1)) /\ serder_pre event1 = Ok pre0 /\ serder_sn event1 = Ok 1) as (E1 & E2 & E3) by (split; [vm_compute; reflexivity|]; split; vm_compute; reflexivity).
  split; [|vm_compute; reflexivity]. pose proof P as (a1 & a2 & a3 & a4 & a5 & a6 & a7 & D1 & _ & D2 & D3 & _). apply pre_field in D1. apply sn_field in D2.
  assert (pre = pre0) as <- by congruence. assert (n = 1) as <- by congruence. assert (said = got [] (sad_said event1)) as <- by congruence. exact P.
Qed.

(** With the store trusted, a registry event is accepted exactly when it is in order and continues its log: it has the fields of its type; one couple is attached, which names a key event stored in the log of the
   registry's owner, with one seal and no more, that has the event's prefix, number and identifier; a registry's inception has the prefix derived from it, an issuance or revocation the identifier; inceptions and issuances have number 0,
   and a revocation names in p the event stored under the number before. The answer says whether it was there: its number is the length of the log, or is below and the event stored under it has the same identifier. *)
Theorem C166_accepted_registry_events_exactly :
  forall (canon : bytes -> option bytes) (hash : bytes -> bytes -> bytes) (cr : crypto) (messages_of : bytes -> R (list message)) (fuel : nat) (st : store) (e : sadder)
    (couples : list (matter * matter)) (seen seen' : list bytes) (there : bool),
  verify_transaction_event canon hash cr messages_of (S fuel) st e couples (Some false) seen = Ok (there, seen') <->
   seen' = seen /\ exists pre n said count, anchored_well canon hash st e couples pre n said /\ count_transaction_events st pre = Ok count /\
     (there = false /\ n = count \/ there = true /\ n < count /\ exists e', recorded canon st pre (asked_for n) e' /\ sad_said e' = Ok said).
Proof. exact C166_l. Qed.
Print Assumptions C166_accepted_registry_events_exactly.

Example C166_case : let st := view no_floats issued in anchored_well no_floats mix st iss0 [couple 2 anchor2] csaid0 0 (got [] (sad_said iss0)) /\ count_transaction_events st csaid0 = Ok 1 /\
  exists e, recorded no_floats st csaid0 (asked_for 0) e /\ sad_said e = Ok (got [] (sad_said iss0)).
Proof.
  cbv zeta. split; [|split; [vm_compute; reflexivity|]]; apply (registered_as no_floats mix toy runic 8 (view no_floats issued) iss0 [couple 2 anchor2] [] [] csaid0 0 (got [] (sad_said iss0))); vm_compute; reflexivity.
Qed.

(** Nobody's key is needed to bring the verifier of key events down. An event without prefix makes it panic, whatever is attached, in every store and at every depth; so does an event with a clean prefix but without number, or without type.
   And so does an inception, made with due care, whose signing threshold is one that makes the thresholds panic (see C47_panics_exactly): the threshold is read before the first signature is looked at. *)
Theorem C167_key_events_answer_refuted :
  forall (canon : bytes -> option bytes) (hash : bytes -> bytes -> bytes) (cr : crypto) (messages_of : bytes -> R (list message)) (fuel : nat) (st : store) (e : sadder)
    (g : list group) (deep : option bool) (seen : list bytes),
  (lacks (d_ked e) (s! "i") -> verify_key_event canon hash cr messages_of (S fuel) st e g deep seen = Panic) /\
  (forall pre p, field_of (d_ked e) (s! "i") (VStr pre) -> prefixer_with_qb64 hash pre = Ok p ->
     (lacks (d_ked e) (s! "s") \/ (exists n, ordinal (d_ked e) n) /\ lacks (d_ked e) (s! "t") -> verify_key_event canon hash cr messages_of (S fuel) st e g deep seen = Panic) /\
     (forall c v, of_type (d_ked e) (s! "icp") -> ordinal (d_ked e) 0 -> sad_said e = Ok pre -> prefixer_verify hash p (d_ked e) (Some true) = Ok true -> count_key_events st pre = Ok c ->
        field_of (d_ked e) (s! "kt") v -> tholder_new canon None None (Some v) = Panic -> verify_key_event canon hash cr messages_of (S fuel) st e g deep seen = Panic)).
Proof. exact C167_refuted_l. Qed.
Print Assumptions C167_key_events_answer_refuted.

Example C167_case : tholder_new no_floats None None (Some (VArr [VStr (s! "0/0")])) = Panic /\ serder_with_raw no_floats (d_raw event_k) = Ok event_k /\
  field_of (d_ked event_k) (s! "kt") (VArr [VStr (s! "0/0")]) /\ serder_pre event_k = sad_said event_k /\ (exists p, prefixer_with_qb64 mix (got [] (sad_said event_k)) = Ok p /\ prefixer_verify mix p (d_ked event_k) (Some true) = Ok true) /\
  verify_key_event no_floats mix toy no_messages 1 (view no_floats empty) event_k [] None [] = Panic.
Proof.
  do 2 (split; [vm_compute; reflexivity|]). split; [apply index_field; vm_compute; reflexivity|]. split; [vm_compute; reflexivity|]. split; [|vm_compute; reflexivity]. eexists. split; [vm_compute; reflexivity|]. vm_compute. reflexivity.
Qed.

(** What holds, with the store trusted: whatever is attached, verifying an event that was read gives an answer or an error if the event is harmless, the log of its prefix is sound, and no signature has the number of the keys in force as its
   index. Harmless: it has a prefix, number and type, its primitives are clean, its thresholds do not make the thresholds panic and have a small weight for each key. Sound: the store answers, with fewer than 2^32 events, all harmless.
   Missing for the full statement: verification at depth; the cases of C167_key_events_answer_refuted are among those excluded. *)
Theorem C167_key_events_answer_partial :
  forall (canon : bytes -> option bytes) (hash : bytes -> bytes -> bytes) (cr : crypto) (messages_of : bytes -> R (list message)) (fuel : nat) (st : store) (raw : bytes) (e : sadder)
    (g : list group) (deep : option bool) (seen : list bytes),
  sized_hash hash -> deep <> Some true -> serder_with_raw canon raw = Ok e -> harmless canon e -> (forall pre, field_of (d_ked e) (s! "i") (VStr pre) -> sound_log canon st pre) ->
  (forall pre n ks t, field_of (d_ked e) (s! "i") (VStr pre) -> ordinal (d_ked e) n -> governing canon st pre n e ks t -> ~ indexed g (len ks)) ->
  verify_key_event canon hash cr messages_of (S fuel) st e g deep seen <> Panic.
Proof. exact C167_partial_l. Qed.
Print Assumptions C167_key_events_answer_partial.

Example C167_answers_case : serder_with_raw no_floats (d_raw event1) = Ok event1 /\ harmless no_floats event1 /\ serder_pre event1 = Ok pre0 /\ sound_log no_floats (view no_floats log1) pre0 /\
  verify_key_event no_floats mix toy no_messages 1 (view no_floats log1) event1 [GSigs sigs1] None [] = Ok (false, []) /\
  is_err (verify_key_event no_floats mix toy no_messages 1 (view no_floats log1) event1 [GSigs sigs0; GSigs [Ix (s! "A") [] 7 7]] None []) = true /\ is_err (verify_key_event no_floats mix toy no_messages 1 (view no_floats log1) event1 [] None []) = true.
Proof.
  split; [vm_compute; reflexivity|]. split; [exact harmless1|]. split; [vm_compute; reflexivity|]. split; [exact sound1|]. do 2 (split; [vm_compute; reflexivity|]). vm_compute. reflexivity.
Qed.
