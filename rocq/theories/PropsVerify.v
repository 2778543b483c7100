(** Properties C120 to C122: verification of key events. Theorem statements only; the proofs are in [VerifyThms]. *)
From Coq Require Import String.
From Coq Require Import NArith ZArith QArith Bool List Lia.
From Verif Require Import Base Tables Matter Indexer Prims Json Tholder Common Saider Diger Sadder Signer Prefixer Pather Short Verify Ingest Events Spec SpecPrims SpecTholder SpecSaider SpecSadder SpecPrefixer SpecSigner SpecLog World VerifyThms BaseFacts.
Import ListNotations.
Open Scope N_scope.

(** An accepted key event has all the fields of its type and continues the log of its prefix. Its number is at most the number of events in the log, and the answer
   says whether it is below, that is, whether the event is there already; if so, the event stored under that number has its identifier. An inception has number
   zero and its identifier is the prefix. Any other event has a number of at least one and names in p the identifier of the event stored under the number
   before. (Numbers reach the store as 32-bit ones.) *)
Theorem C120_log_continuity :
  forall (canon : bytes -> option bytes) (hash : bytes -> bytes -> bytes) (cr : crypto) (messages_of : bytes -> R (list message)) (fuel : nat) (st : store) (e : sadder)
    (g : list group) (deep : option bool) (seen seen' : list bytes) (there : bool),
  verify_key_event canon hash cr messages_of fuel st e g deep seen = Ok (there, seen') ->
  exists pre n said ilk labels count, field_of (d_ked e) (s! "i") (VStr pre) /\ ordinal (d_ked e) n /\ sad_said e = Ok said /\ of_type (d_ked e) ilk /\
    In (ilk, labels) required /\ Forall (has_field (d_ked e)) labels /\ count_key_events st pre = Ok count /\ n <= count /\
    (there = true <-> n < count) /\ (there = true -> exists e', logged canon st pre (asked_for n) e' said) /\
    (ilk = s! "icp" -> n = 0 /\ said = pre) /\
    (ilk <> s! "icp" -> 1 <= asked_for n /\ exists before p, logged canon st pre (asked_for n - 1) before p /\ field_of (d_ked e) (s! "p") (VStr p)).
Proof. exact C120_l. Qed.
Print Assumptions C120_log_continuity.

Example C120_case : verify_key_event no_floats mix toy no_messages 1 (view no_floats empty) event0 [GSigs sigs0] None [] = Ok (false, []) /\
  verify_key_event no_floats mix toy no_messages 1 (view no_floats log1) event1 [GSigs sigs1] None [] = Ok (false, []) /\
  verify_key_event no_floats mix toy no_messages 1 (view no_floats log2) event2 [GSigs sigs2] None [] = Ok (false, []) /\
  verify_key_event no_floats mix toy no_messages 1 (view no_floats log3) event1 [GSigs sigs1] None [] = Ok (true, []) /\
  verify_key_event no_floats mix toy no_messages 1 (view no_floats log1) event2 [GSigs sigs2] None [] = Err EOutOfOrder.
Proof. repeat (match goal with |- _ /\ _ => split; [vm_compute; reflexivity|] end). vm_compute. reflexivity. Qed.

(** An accepted key event carries only groups of indexed signatures, each with the index of one of the keys the event is to be signed with: its own if it sets keys,
   else those of the last event before it that does. Those of the signatures that verify over the event's own bytes, under the key each one names, satisfy the
   threshold that comes with these keys. *)
Theorem C121_signatures_counted :
  forall (canon : bytes -> option bytes) (hash : bytes -> bytes -> bytes) (cr : crypto) (messages_of : bytes -> R (list message)) (fuel : nat) (st : store) (e : sadder)
    (g : list group) (deep : option bool) (seen seen' : list bytes) (there : bool),
  verify_key_event canon hash cr messages_of fuel st e g deep seen = Ok (there, seen') ->
  exists pre n keys t sigs good, field_of (d_ked e) (s! "i") (VStr pre) /\ ordinal (d_ked e) n /\ governing canon st pre n e keys t /\
    attached g sigs /\ Forall (fun x => i_index x < len keys) sigs /\ those (verifies cr keys (d_raw e)) sigs good /\ satisfy t (map i_index good) = Ok true.
Proof. exact C121_l. Qed.
Print Assumptions C121_signatures_counted.

Example C121_case : verify_key_event no_floats mix toy no_messages 1 (view no_floats empty) event0 [GSigs sigs0] None [] = Ok (false, []) /\
  verify_key_event no_floats mix toy no_messages 1 (view no_floats empty) event0 [GSigs (firstn 1 sigs0)] None [] = Err EVerification /\
  exists t, serder_tholder no_floats event0 = Ok (Some t) /\ tholder_num t = Ok (Some 2).
Proof. split; [vm_compute; reflexivity|]. split; [vm_compute; reflexivity|]. eexists. split; [vm_compute; reflexivity|]. vm_compute. reflexivity. Qed.

(** False as stated: an inception that asks for the signatures of both of its keys is accepted with one signature given twice. *)
Theorem C121_threshold_of_signers_refuted :
  correct toy /\ sized_hash mix /\ exists e x t, serder_with_raw no_floats (d_raw e) = Ok e /\ serder_tholder no_floats e = Ok (Some t) /\ tholder_num t = Ok (Some 2) /\
  verify_key_event no_floats mix toy no_messages 1 (view no_floats empty) e [GSigs [x; x]] None [] = Ok (false, []).
Proof. exact C121_no_l. Qed.
Print Assumptions C121_threshold_of_signers_refuted.

(** The signatures counted fulfil the threshold: with a number k, at least k of the attached signatures verify, and if no index is given twice, these are made with k
   different keys of the list; with weights, the keys that signed earn every clause. Missing for the full statement: with a number, a signature given again is
   counted again. *)
Theorem C121_threshold_of_signers_partial :
  forall (canon : bytes -> option bytes) (hash : bytes -> bytes -> bytes) (cr : crypto) (messages_of : bytes -> R (list message)) (fuel : nat) (st : store) (e : sadder)
    (g : list group) (deep : option bool) (seen seen' : list bytes) (there : bool),
  verify_key_event canon hash cr messages_of fuel st e g deep seen = Ok (there, seen') ->
  exists pre n keys t sigs good, field_of (d_ked e) (s! "i") (VStr pre) /\ ordinal (d_ked e) n /\ governing canon st pre n e keys t /\
    attached g sigs /\ those (verifies cr keys (d_raw e)) sigs good /\ fulfilled t (map i_index good) /\
    (NoDup (map i_index sigs) -> forall k, t_thold t = VInt (Z.of_N k) ->
      exists idx, NoDup idx /\ k <= len idx /\ forall i, In i idx -> exists x, In x sigs /\ i_index x = i /\ verifies cr keys (d_raw e) x).
Proof. exact C121_partial_l. Qed.
Print Assumptions C121_threshold_of_signers_partial.

Example C121_distinct_case : NoDup (map i_index sigs0) /\ verify_key_event no_floats mix toy no_messages 1 (view no_floats empty) event0 [GSigs sigs0] None [] = Ok (false, []).
Proof. split; [|vm_compute; reflexivity]. change (map i_index sigs0) with [0; 1]. repeat constructor; cbn; intuition discriminate. Qed.

(** An accepted rotation honours what the last establishment event before it announced. Of its signatures that verify, those count whose key has its Blake3 digest at the
   signature's other index in the list of announced digests, and these satisfy the announced threshold. *)
Theorem C122_rotation_honours_commitment :
  forall (canon : bytes -> option bytes) (hash : bytes -> bytes -> bytes) (cr : crypto) (messages_of : bytes -> R (list message)) (fuel : nat) (st : store) (e : sadder)
    (g : list group) (deep : option bool) (seen seen' : list bytes) (there : bool),
  sized_hash hash -> verify_key_event canon hash cr messages_of fuel st e g deep seen = Ok (there, seen') -> of_type (d_ked e) (s! "rot") ->
  exists pre n keys t sigs good e' digests nt shown, field_of (d_ked e) (s! "i") (VStr pre) /\ ordinal (d_ked e) n /\ governing canon st pre n e keys t /\
    attached g sigs /\ those (verifies cr keys (d_raw e)) sigs good /\
    announcing canon st pre n e' /\ serder_digers e' = Ok digests /\ serder_ntholder canon e' = Ok (Some nt) /\ those (reveals hash keys digests) good shown /\
    satisfy nt (map i_ondex shown) = Ok true /\ fulfilled nt (map i_ondex shown).
Proof. exact C122_l. Qed.
Print Assumptions C122_rotation_honours_commitment.

Example C122_case : verify_key_event no_floats mix toy no_messages 1 (view no_floats log1) event1 [GSigs sigs1] None [] = Ok (false, []) /\
  verify_key_event no_floats mix toy no_messages 1 (view no_floats log1) event1 [GSigs (firstn 1 sigs1)] None [] = Err EValidation /\ sized_hash mix.
Proof. split; [vm_compute; reflexivity|]. split; [vm_compute; reflexivity|]. exact mix_sized. Qed.

(** False as stated: after an inception that announces two next keys and asks for both, a rotation is accepted that one of these keys signed alone, its signature given twice. *)
Theorem C122_all_announced_keys_refuted :
  correct toy /\ sized_hash mix /\ exists e x nt, serder_with_raw no_floats (d_raw e) = Ok e /\ of_type (d_ked e) (s! "rot") /\
  serder_ntholder no_floats event0 = Ok (Some nt) /\ tholder_num nt = Ok (Some 2) /\
  verify_key_event no_floats mix toy no_messages 1 (view no_floats log1) e [GSigs [x; x]] None [] = Ok (false, []).
Proof. exact C122_no_l. Qed.
Print Assumptions C122_all_announced_keys_refuted.

(** After an establishment event that announces no next keys, or no threshold for them, no rotation is ever accepted, whoever signs it. *)
Theorem C122_no_announcement_no_rotation :
  forall (canon : bytes -> option bytes) (hash : bytes -> bytes -> bytes) (cr : crypto) (messages_of : bytes -> R (list message)) (fuel : nat) (st : store) (e : sadder)
    (g : list group) (deep : option bool) (seen : list bytes) (pre : bytes) (n : N),
  sized_hash hash -> of_type (d_ked e) (s! "rot") -> field_of (d_ked e) (s! "i") (VStr pre) -> ordinal (d_ked e) n ->
  (forall e', announcing canon st pre n e' -> serder_digers e' = Ok [] \/ lacks (d_ked e') (s! "nt")) ->
  is_ok (verify_key_event canon hash cr messages_of fuel st e g deep seen) = false.
Proof. exact C122_none_l. Qed.
Print Assumptions C122_no_announcement_no_rotation.

Example C122_abandoned_case : exists ks e pre e', ks_verfers_qb64 toy keys0 = Ok ks /\ incept no_floats mix ks None None None None None None None None None (Some (s! "E")) None None = Ok e /\
  serder_pre e = Ok pre /\ serder_digers e = Ok [] /\ rotate no_floats mix pre ks pre None 1 None (Some [s! "x"]) None None None None None None None None None = Ok e' /\
  verify_key_event no_floats mix toy no_messages 1 (view no_floats empty) e [GSigs (signed keys0 e)] None [] = Ok (false, []) /\
  verify_key_event no_floats mix toy no_messages 1 (view no_floats (insert_key_event empty pre (d_raw e))) e' [GSigs (signed keys0 e')] None [] = Err EValidation.
Proof. do 4 eexists. do 5 (split; [vm_compute; reflexivity|]). split; vm_compute; reflexivity. Qed.
