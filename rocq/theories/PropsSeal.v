(** Property C171: registry events and the verifier they are given to. Theorem statements only; the proofs are in [SealThms]. *)
From Coq Require Import String.
From Coq Require Import NArith ZArith QArith Bool List Lia.
From Verif Require Import Base Tables Matter Indexer Prims Json Common Saider Sadder Signer Prefixer Pather Short Verify Ingest Events SpecPrims SpecSaider SpecSadder SpecSigner SpecLog SpecIngest SpecCred SpecExact SpecAgain SpecSeal World Forgery Chain SadderFacts VerifyThms IngestThms AgainThms CredThms EndorseThms SealThms.
Import ListNotations.
Open Scope N_scope.

(** The verifier of registry events can be brought down in more ways, in every store and at every depth. No key is needed for these: an event without prefix, number or type; an issuance or revocation without registry; with
   one couple attached, whatever it names, the inception of a registry that is well made but has no owner, which is no required field; and an issuance or revocation, with a right identifier, that names as its
   registry a log whose first event has no owner, such as the log of any credential. Who has a log of their own can also name an event of it that holds a single seal without prefix, number or identifier, such as the seal of a digest. *)
Theorem C171_registry_events_answer_refuted :
  forall (canon : bytes -> option bytes) (hash : bytes -> bytes -> bytes) (cr : crypto) (messages_of : bytes -> R (list message)) (fuel : nat) (st : store) (e : sadder)
    (c : list (matter * matter)) (deep : option bool) (seen : list bytes),
  (lacks (d_ked e) (s! "i") -> verify_transaction_event canon hash cr messages_of (S fuel) st e c deep seen = Panic) /\
  (forall pre p, field_of (d_ked e) (s! "i") (VStr pre) -> prefixer_with_qb64 hash pre = Ok p ->
     (lacks (d_ked e) (s! "s") \/ (exists n, ordinal (d_ked e) n) /\ lacks (d_ked e) (s! "t") -> verify_transaction_event canon hash cr messages_of (S fuel) st e c deep seen = Panic) /\
     (forall n ilk said, ordinal (d_ked e) n -> of_type (d_ked e) ilk -> sad_said e = Ok said ->
        (ilk = s! "iss" \/ ilk = s! "rev" -> lacks (d_ked e) (s! "ri") -> verify_transaction_event canon hash cr messages_of (S fuel) st e c deep seen = Panic) /\
        (forall labels sq sd count, c = [(sq, sd)] -> In (ilk, labels) registry_required -> Forall (has_field (d_ked e)) labels -> count_transaction_events st pre = Ok count ->
           (ilk = s! "vcp" -> prefixer_verify hash p (d_ked e) (Some true) = Ok true -> lacks (d_ked e) (s! "ii") -> verify_transaction_event canon hash cr messages_of (S fuel) st e c deep seen = Panic) /\
           (forall ri e0, ilk <> s! "vcp" -> said_verify hash (d_saider e) (d_ked e) (Some false) (Some true) None None [] = Ok true -> field_of (d_ked e) (s! "ri") (VStr ri) ->
              recorded canon st ri 0 e0 -> lacks (d_ked e0) (s! "ii") -> verify_transaction_event canon hash cr messages_of (S fuel) st e c deep seen = Panic) /\
           (forall owner k t anchor seal, (ilk = s! "vcp" -> prefixer_verify hash p (d_ked e) (Some true) = Ok true) ->
              (ilk <> s! "vcp" -> said_verify hash (d_saider e) (d_ked e) (Some false) (Some true) None None [] = Ok true) -> owned canon st e owner ->
              seqner_sn sq = Ok k -> infil sd = Ok t -> logged canon st owner (asked_for k) anchor t -> field_of (d_ked anchor) (s! "a") (VArr [seal]) ->
              lacks seal (s! "i") \/ (exists i, field_of seal (s! "i") (VStr i)) /\ (lacks seal (s! "s") \/ (exists s, field_of seal (s! "s") (VStr s)) /\ lacks seal (s! "d")) ->
              verify_transaction_event canon hash cr messages_of (S fuel) st e c deep seen = Panic)))).
Proof. exact C171_refuted_l. Qed.
Print Assumptions C171_registry_events_answer_refuted.

Example C171_case : verify_key_event no_floats mix toy runic 9 (view no_floats issued) anchor_x [GSigs asigs_x] None [] = Ok (false, []) /\
  verify_transaction_event no_floats mix toy runic 9 (view no_floats issued) iss_x [couple 2 anchor2] None [] = Panic /\
  verify_transaction_event no_floats mix toy runic 9 (view no_floats issued) reg_x [couple 2 anchor2] None [] = Panic /\
  verify_transaction_event no_floats mix toy runic 9 (view no_floats sealed_x) reg0 [couple 3 anchor_x] None [] = Panic /\
  (exists e0, recorded no_floats (view no_floats issued) csaid0 0 e0 /\ lacks (d_ked e0) (s! "ii")) /\ field_of (d_ked iss_x) (s! "ri") (VStr csaid0) /\
  said_verify mix (d_saider iss_x) (d_ked iss_x) (Some false) (Some true) None None [] = Ok true.
Proof.
  do 4 (split; [vm_compute; reflexivity|]). split. { exists iss0. split; [exact issued_first|apply lacks_by; vm_compute; reflexivity]. } split; [apply index_field; vm_compute; reflexivity|vm_compute; reflexivity].
Qed.

(** What holds, with the store trusted: whatever is attached, verifying a registry event that was read gives an answer or an error, if it has prefix, number, type and registry or owner and its primitives are clean; the log of its
   prefix is sound; the log it names as its registry, if there is one, starts with an event that has an owner; and the couple, if it is one, can be printed and names no event of the owner with one seal that is not whole.
   Missing for the full statement: verification at depth in stores not covered by the next theorem; the cases of C171_registry_events_answer_refuted are among those excluded. *)
Theorem C171_registry_events_answer_partial :
  forall (canon : bytes -> option bytes) (hash : bytes -> bytes -> bytes) (cr : crypto) (messages_of : bytes -> R (list message)) (fuel : nat) (st : store) (raw : bytes) (e : sadder)
    (c : list (matter * matter)) (seen : list bytes),
  serder_with_raw canon raw = Ok e -> regular e ->
  (forall pre, field_of (d_ked e) (s! "i") (VStr pre) -> sound_register canon st pre) ->
  (forall ri, field_of (d_ked e) (s! "ri") (VStr ri) -> answers canon (get_transaction_event st ri 0) /\ forall e0, recorded canon st ri 0 e0 -> ~ lacks (d_ked e0) (s! "ii")) ->
  (forall sq sd, c = [(sq, sd)] -> seqner_sn sq <> Panic /\ infil sd <> Panic /\
    forall owner, owned canon st e owner -> (forall n, answers canon (get_key_event st owner n)) /\
      forall n anchor t, seqner_sn sq = Ok n -> infil sd = Ok t -> logged canon st owner (asked_for n) anchor t -> seals_whole (d_ked anchor)) ->
  verify_transaction_event canon hash cr messages_of (S fuel) st e c (Some false) seen <> Panic.
Proof. exact C171_partial_l. Qed.
Print Assumptions C171_registry_events_answer_partial.

Example C171_answers_case : serder_with_raw no_floats (d_raw rev0) = Ok rev0 /\ regular rev0 /\ field_of (d_ked rev0) (s! "i") (VStr csaid0) /\ field_of (d_ked rev0) (s! "ri") (VStr rpre0) /\ sound_register no_floats (view no_floats issued) csaid0 /\
  is_err (verify_transaction_event no_floats mix toy runic 9 (view no_floats issued) rev0 [couple 2 anchor2] (Some false) []) = true.
Proof.
  split; [vm_compute; reflexivity|]. split; [exact regular_rev|]. do 2 (split; [apply index_field; vm_compute; reflexivity|]). split; [exact register_issued|vm_compute; reflexivity].
Qed.

(** In a ledger taken in with verification nothing need be asked of what the store answers, and the same holds at any depth, once the recursion may be deep enough. *)
Theorem C171_registry_events_answer_deep_partial :
  forall (canon : bytes -> option bytes) (hash : bytes -> bytes -> bytes) (cr : crypto) (messages_of : bytes -> R (list message)) (group_text : group -> R bytes)
    (schema_check : bytes -> bytes -> R bool) (age : bytes -> R Z) (seen_said : ledger -> bytes -> bool) (l : ledger) (raw : bytes) (e : sadder) (c : list (matter * matter)),
  sized_hash hash -> finds_all canon seen_said -> textual group_text -> reads_back messages_of group_text -> reached canon hash cr messages_of group_text schema_check age seen_said l ->
  serder_with_raw canon raw = Ok e -> regular e -> (forall pre, field_of (d_ked e) (s! "i") (VStr pre) -> len (l_tel l pre) < 2 ^ 32) ->
  (forall ri e0, field_of (d_ked e) (s! "ri") (VStr ri) -> recorded canon (view canon l) ri 0 e0 -> ~ lacks (d_ked e0) (s! "ii")) ->
  (forall sq sd, c = [(sq, sd)] -> seqner_sn sq <> Panic /\ infil sd <> Panic /\
    forall owner n anchor t, owned canon (view canon l) e owner -> seqner_sn sq = Ok n -> infil sd = Ok t -> logged canon (view canon l) owner (asked_for n) anchor t -> seals_whole (d_ked anchor)) ->
  exists bound, forall fuel deep seen, (bound <= fuel)%nat -> verify_transaction_event canon hash cr messages_of fuel (view canon l) e c deep seen <> Panic.
Proof. exact C171_deep_partial_l. Qed.
Print Assumptions C171_registry_events_answer_deep_partial.

Example C171_deep_case : sized_hash mix /\ finds_all no_floats (fun _ _ => true) /\ textual own_letter /\ reads_back lettered own_letter /\
  reached no_floats mix toy lettered own_letter (fun _ _ => Ok true) (fun _ => Ok 0%Z) (fun _ _ => true) issued_ledger /\ serder_with_raw no_floats (d_raw rev0) = Ok rev0 /\ regular rev0 /\
  field_of (d_ked rev0) (s! "ri") (VStr rpre0) /\ (exists e0, recorded no_floats (view no_floats issued_ledger) rpre0 0 e0 /\ field_of (d_ked e0) (s! "ii") (VStr pre0)) /\
  is_err (verify_transaction_event no_floats mix toy lettered 9 (view no_floats issued_ledger) rev0 [couple 2 anchor2] None []) = true.
Proof.
  split; [exact mix_sized|]. split; [intros l said _; reflexivity|]. split; [exact own_textual|]. split; [exact own_read|]. split; [exact issued_reached|]. split; [vm_compute; reflexivity|]. split; [exact regular_rev|].
  split; [apply index_field; vm_compute; reflexivity|]. split; [|vm_compute; reflexivity]. exists reg0. split; [exact registry_first|]. apply index_field. vm_compute. reflexivity.
Qed.
