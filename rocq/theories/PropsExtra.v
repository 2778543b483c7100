(** Properties C154 and C155: further signatures on accepted events. Theorem statements only; the proofs are in [ExtraThms]. *)
From Coq Require Import String.
From Coq Require Import NArith ZArith QArith Bool List Lia.
From Verif Require Import Base Tables Matter Indexer Prims Json Tholder Common Saider Diger Sadder Signer Prefixer Pather Short Verify Ingest Events SpecPrims SpecTholder SpecSaider SpecSadder SpecSigner SpecLog SpecIngest SpecExtra World SadderFacts VerifyThms ExtraThms.
Import ListNotations.
Open Scope N_scope.

(** No key is needed to bring verification down. Take any accepted event, in any store, and attach one more signature whose index is the number of the keys the event
   is signed with: verification panics. The rest of the signature does not matter. *)
Theorem C154_verification_answers_refuted :
  forall (canon : bytes -> option bytes) (hash : bytes -> bytes -> bytes) (cr : crypto) (messages_of : bytes -> R (list message)) (fuel : nat) (st : store) (e : sadder)
    (g : list group) (deep : option bool) (seen : list bytes) (r : bool * list bytes) (pre : bytes) (n : N) (ks : list matter) (t : tholder) (x : indexer),
  verify_key_event canon hash cr messages_of fuel st e g deep seen = Ok r ->
  field_of (d_ked e) (s! "i") (VStr pre) -> ordinal (d_ked e) n -> governing canon st pre n e ks t -> i_index x = len ks ->
  verify_key_event canon hash cr messages_of fuel st e (g ++ [GSigs [x]]) deep seen = Panic.
Proof. exact C154_refuted_l. Qed.
Print Assumptions C154_verification_answers_refuted.

Example C154_case : verify_key_event no_floats mix toy no_messages 1 (view no_floats log1) event1 [GSigs sigs1] None [] = Ok (false, []) /\
  (exists ks t, governing no_floats (view no_floats log1) pre0 1 event1 ks t /\ len ks = 2 /\ field_of (d_ked event1) (s! "i") (VStr pre0) /\ ordinal (d_ked event1) 1) /\
  verify_key_event no_floats mix toy no_messages 1 (view no_floats log1) event1 [GSigs sigs1; GSigs [stray 2]] None [] = Panic /\
  verify_key_event no_floats mix toy no_messages 1 (view no_floats log1) event1 [GSigs sigs1; GSigs [stray 3]] None [] = Err EVerification.
Proof.
  split; [vm_compute; reflexivity|]. split; [destruct governs1 as (ks & t & A & B & C & D & _); exists ks, t; auto|]. split; vm_compute; reflexivity.
Qed.

(** So does a stream: if ingesting one that starts with a key event succeeds, the same event with one more such signature brings ingestion down, whatever follows it. *)
Theorem C154_ingestion_answers_refuted :
  forall (canon : bytes -> option bytes) (hash : bytes -> bytes -> bytes) (cr : crypto) (messages_of : bytes -> R (list message)) (group_text : group -> R bytes)
    (schema_check : bytes -> bytes -> R bool) (age : bytes -> R Z) (seen_said : ledger -> bytes -> bool) (fuel : nat) (l l' : ledger) (stream stream' : bytes) (deep verify : option bool)
    (raw : bytes) (g : list group) (rest rest' : list message) (e : sadder) (ilk pre : bytes) (n : N) (ks : list matter) (t : tholder) (x : indexer),
  messages_of stream = Ok (MPayload raw :: MGroup (GQuadlets g) :: rest) -> messages_of stream' = Ok (MPayload raw :: MGroup (GQuadlets (g ++ [GSigs [x]])) :: rest') ->
  verify <> Some false -> ingest_messages canon hash cr messages_of group_text schema_check age seen_said fuel l stream deep verify = (l', Ok tt) ->
  serder_with_raw canon raw = Ok e -> of_type (d_ked e) ilk -> In ilk [s! "icp"; s! "rot"; s! "ixn"] ->
  field_of (d_ked e) (s! "i") (VStr pre) -> ordinal (d_ked e) n -> governing canon (view canon l) pre n e ks t -> i_index x = len ks ->
  ingest_messages canon hash cr messages_of group_text schema_check age seen_said fuel l stream' deep verify = (l, Panic).
Proof. exact C154_stream_l. Qed.
Print Assumptions C154_ingestion_answers_refuted.

Example C154_stream_case : let ingest := ingest_messages no_floats mix toy in
  let ms (t : bytes) : R (list message) := Ok [MPayload (d_raw event0); MGroup (GQuadlets (if beq t (s! "good") then [GSigs sigs0] else [GSigs sigs0; GSigs [stray 2]]))] in
  snd (ingest ms sigs_text (fun _ _ => Ok true) (fun _ => Ok 0%Z) (fun _ _ => false) 5%nat empty (s! "good") None None) = Ok tt /\
  snd (ingest ms sigs_text (fun _ _ => Ok true) (fun _ => Ok 0%Z) (fun _ _ => false) 5%nat empty (s! "bad") None None) = Panic.
Proof. split; vm_compute; reflexivity. Qed.

(** Otherwise attachments cannot do it. Take an event that is accepted with some signatures and attach instead any groups whatsoever in which no signature has the number
   of keys as its index: verification answers or reports an error. The keys and announced digests must have texts, weighted thresholds a weight with a small denominator for each key.
   Missing for the full statement: the index equal to the number of keys; thresholds with other weights; events that no signatures make acceptable. *)
Theorem C154_verification_answers_partial :
  forall (canon : bytes -> option bytes) (hash : bytes -> bytes -> bytes) (cr : crypto) (messages_of : bytes -> R (list message)) (fuel : nat) (st : store) (e : sadder)
    (g g' : list group) (deep : option bool) (seen : list bytes) (r : bool * list bytes) (pre : bytes) (n : N) (ks : list matter) (t : tholder),
  sized_hash hash -> verify_key_event canon hash cr messages_of fuel st e g deep seen = Ok r ->
  field_of (d_ked e) (s! "i") (VStr pre) -> ordinal (d_ked e) n -> governing canon st pre n e ks t -> legible canon st pre n ks -> settled canon st pre n ks t ->
  ~ indexed g' (len ks) -> verify_key_event canon hash cr messages_of fuel st e g' deep seen <> Panic.
Proof. exact C154_partial_l. Qed.
Print Assumptions C154_verification_answers_partial.

Example C154_answers_case : verify_key_event no_floats mix toy no_messages 1 (view no_floats log1) event1 [GSigs sigs1] None [] = Ok (false, []) /\
  (exists ks t, governing no_floats (view no_floats log1) pre0 1 event1 ks t /\ len ks = 2 /\ field_of (d_ked event1) (s! "i") (VStr pre0) /\ ordinal (d_ked event1) 1 /\
    legible no_floats (view no_floats log1) pre0 1 ks /\ settled no_floats (view no_floats log1) pre0 1 ks t) /\ sized_hash mix /\
  verify_key_event no_floats mix toy no_messages 1 (view no_floats log1) event1 [GSigs [stray 1; stray 7]] None [] = Err EForeign.
Proof.
  split; [vm_compute; reflexivity|]. split; [exact governs1|]. split; [exact mix_sized|]. vm_compute. reflexivity.
Qed.

(** A signature too many can bring verification down although all of them are good. The library builds an inception with two keys and the weights ["1"], both keys sign it and
   both signatures verify. With the first signature the event is accepted; with both, verification panics. *)
Theorem C155_more_signatures_refuted :
  exists ks nd e sigs, ks_verfers_qb64 toy keys0 = Ok ks /\ ks_digers_qb64 mix toy keys1 = Ok nd /\
    incept no_floats mix ks (Some (VArr [VStr (s! "1")])) (Some nd) (Some (VStr (s! "2"))) None None None None None None (Some (s! "E")) None None = Ok e /\
    ks_sign mix toy (fun _ => []) keys0 (d_raw e) None = Ok sigs /\ Forall (verifies toy (got [] (serder_verfers e)) (d_raw e)) (map fst sigs) /\
    verify_key_event no_floats mix toy no_messages 1 (view no_floats empty) e [GSigs (firstn 1 (map fst sigs))] None [] = Ok (false, []) /\
    verify_key_event no_floats mix toy no_messages 1 (view no_floats empty) e [GSigs (map fst sigs)] None [] = Panic.
Proof. exact C155_refuted_l. Qed.
Print Assumptions C155_more_signatures_refuted.

(** Further signatures never make an accepted event refused. Attach to an accepted event more signatures with indices of its keys, good or bad ones, for which the
   signature check gives an answer: verification gives the same answer as before, unless a weighted threshold makes it panic. It does not if weighted thresholds have a weight
   with a small denominator for each key. Missing for the full statement: thresholds with other weights. *)
Theorem C155_more_signatures_partial :
  forall (canon : bytes -> option bytes) (hash : bytes -> bytes -> bytes) (cr : crypto) (messages_of : bytes -> R (list message)) (fuel : nat) (st : store) (e : sadder)
    (g : list group) (deep : option bool) (seen : list bytes) (r : bool * list bytes) (pre : bytes) (n : N) (ks : list matter) (t : tholder) (more : list (list indexer)),
  sized_hash hash -> verify_key_event canon hash cr messages_of fuel st e g deep seen = Ok r ->
  field_of (d_ked e) (s! "i") (VStr pre) -> ordinal (d_ked e) n -> governing canon st pre n e ks t -> legible canon st pre n ks ->
  Forall (fun x => exists v b, nth_error ks (N.to_nat (i_index x)) = Some v /\ verfer_verify cr v (i_raw x) (d_raw e) = Ok b) (concat more) ->
  (verify_key_event canon hash cr messages_of fuel st e (g ++ map GSigs more) deep seen = Ok r \/
   verify_key_event canon hash cr messages_of fuel st e (g ++ map GSigs more) deep seen = Panic /\
   (t_weighted t = true \/ exists e' nt, announcing canon st pre n e' /\ serder_ntholder canon e' = Ok (Some nt) /\ t_weighted nt = true)) /\
  (settled canon st pre n ks t -> verify_key_event canon hash cr messages_of fuel st e (g ++ map GSigs more) deep seen = Ok r).
Proof. exact C155_partial_l. Qed.
Print Assumptions C155_more_signatures_partial.

Example C155_case : verify_key_event no_floats mix toy no_messages 1 (view no_floats log1) event1 [GSigs sigs1] None [] = Ok (false, []) /\
  (exists ks t, governing no_floats (view no_floats log1) pre0 1 event1 ks t /\ len ks = 2 /\ field_of (d_ked event1) (s! "i") (VStr pre0) /\ ordinal (d_ked event1) 1 /\
    legible no_floats (view no_floats log1) pre0 1 ks /\ settled no_floats (view no_floats log1) pre0 1 ks t) /\ sized_hash mix /\
  verify_key_event no_floats mix toy no_messages 1 (view no_floats log1) event1 [GSigs sigs1; GSigs [Ix (s! "A") (repeat x00 64) 1 1; Ix (s! "A") (repeat x00 64) 0 5]; GSigs sigs1] None [] = Ok (false, []).
Proof.
  split; [vm_compute; reflexivity|]. split; [exact governs1|]. split; [exact mix_sized|]. vm_compute. reflexivity.
Qed.
