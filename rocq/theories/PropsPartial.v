(** Properties C145 to C148: events with reserve keys. Theorem statements only; the proofs are in [PartialThms]. *)
From Coq Require Import String.
From Coq Require Import NArith ZArith QArith Bool List Lia.
From Verif Require Import Base Tables Matter Indexer Prims Json Tholder Common Saider Diger Sadder Signer Prefixer Pather Short Verify Ingest Events Spec SpecPrims SpecJson SpecCommon SpecTholder SpecSaider SpecSadder SpecPrefixer SpecSigner SpecLog SpecIngest SpecBuild SpecLife World LifeThms FollowThms FollowFacts SignerThms VerifyThms IngestThms LogThms SadderFacts BaseFacts Partial SpecPartial PartialCases PartialThms.
Import ListNotations.
Open Scope N_scope.

(** A rotation that shows reserve keys and brings new signing keys, built for an identifier with the number of its next event (below 2^32) and the identifier of its last event,
   is accepted once the key set of the reserve keys and the new key set have signed it, if the last establishment event announced the digests of the reserve keys, all of them
   and in order, with a threshold they reach together. The reserve keys may come from a salt or be given as texts. The event gives the say to the new key set. *)
Theorem C145_reserve_rotation_accepted :
  forall (canon : bytes -> option bytes) (hash : bytes -> bytes -> bytes) (cr : crypto) (kdf : bytes -> bytes -> N -> N -> N -> option bytes) (messages_of : bytes -> R (list message))
    (random : bytes) (rng : N -> bytes) (pre dig : bytes) (sn key_sn : N) (code : option bytes) (scount rcount : option N) (tier salt next_salt : option bytes)
    (current next_keys : option (list bytes)) (next_sith : option bytes) (e : sadder) (sk : keyset) (ck : option keyset) (k : keyset) (sigs : list (indexer * matter)) (p : matter)
    (st : store) (pe ae : sadder) (fuel : nat) (deep : option bool) (seen : list bytes),
  correct cr -> sized_hash hash -> rotate_built hash cr kdf canon random pre dig sn key_sn code scount rcount tier salt next_salt current next_keys next_sith = Ok (e, sk, ck) ->
  shows cr ck current k -> both_sign hash cr rng k sk (d_raw e) = Ok sigs ->
  prefixer_with_qb64 hash pre = Ok p -> sn < 2 ^ 32 -> count_key_events st pre = Ok sn -> logged canon st pre (sn - 1) pe dig -> announcing canon st pre sn ae -> names_next canon hash cr ae k ->
  deep <> Some true ->
  k_offset sk < 2 ^ 32 /\ empowers canon cr e sk /\ verify_key_event canon hash cr messages_of (S fuel) st e [GSigs (map fst sigs)] deep seen = Ok (false, seen).
Proof. exact C145_l. Qed.
Print Assumptions C145_reserve_rotation_accepted.

Example C145_rotation_case : rotate_built mix toy toy_kdf no_floats salt1 ppre ppre 1 1 None None None None (Some salt0) (Some salt1) None None None = Ok (part1, pkeys1, Some shown1) /\
  shows toy (Some shown1) None shown1 /\ both_sign mix toy no_rng shown1 pkeys1 (d_raw part1) = Ok psigs1 /\ is_ok (prefixer_with_qb64 mix ppre) = true /\ count_key_events (view no_floats plog1) ppre = Ok 1 /\
  logged no_floats (view no_floats plog1) ppre 0 part0 ppre /\ announcing no_floats (view no_floats plog1) ppre 1 part0 /\ names_next no_floats mix toy part0 shown1 /\ correct toy /\ sized_hash mix.
Proof.
  split; [exact rotated|]. split; [now left|]. split; [exact rotated_signed|]. split; [vm_compute; reflexivity|]. split; [exact (proj2 plog1_logged)|]. split; [exact (proj1 plog1_logged)|].
  split; [exact part0_announces|]. split; [exact part0_names|]. split; [exact toy_correct|exact mix_sized].
Qed.

(** An interaction built for an identifier with the number of its next event (below 2^32) and the identifier of its last event, and signed by a key set whose keys stand in the
   last establishment event after others, as many as the offset of the key set, and reach the threshold together, is accepted. *)
Theorem C145_interaction_by_later_keys_accepted :
  forall (canon : bytes -> option bytes) (hash : bytes -> bytes -> bytes) (cr : crypto) (messages_of : bytes -> R (list message)) (k : keyset) (pre dig : bytes) (sn : N)
    (data : option value) (ver : option version) (kind : option bytes) (rng : N -> bytes) (e : sadder) (sigs : list (indexer * matter)) (p : matter) (st : store) (pe ee : sadder)
    (fuel : nat) (deep : option bool) (seen : list bytes),
  correct cr -> sized_hash hash -> interact canon hash pre dig (Some sn) data ver kind = Ok e -> ks_sign hash cr rng k (d_raw e) None = Ok sigs ->
  prefixer_with_qb64 hash pre = Ok p -> sn < 2 ^ 32 -> count_key_events st pre = Ok sn -> logged canon st pre (sn - 1) pe dig -> established canon st pre (sn - 1) ee ->
  empowers canon cr ee k -> k_offset k < 2 ^ 32 -> deep <> Some true ->
  verify_key_event canon hash cr messages_of (S fuel) st e [GSigs (map fst sigs)] deep seen = Ok (false, seen).
Proof. exact C145_used_l. Qed.
Print Assumptions C145_interaction_by_later_keys_accepted.

Example C145_interaction_case : k_offset pkeys1 = 3 /\ interact no_floats mix ppre psaid1 (Some 2) None None None = Ok part2 /\ ks_sign mix toy no_rng pkeys1 (d_raw part2) None = Ok psigs2 /\
  is_ok (prefixer_with_qb64 mix ppre) = true /\ count_key_events (view no_floats plog2) ppre = Ok 2 /\ logged no_floats (view no_floats plog2) ppre 1 part1 psaid1 /\
  established no_floats (view no_floats plog2) ppre 1 part1 /\ empowers no_floats toy part1 pkeys1 /\ correct toy /\ sized_hash mix.
Proof.
  split; [reflexivity|]. split; [exact used|]. split; [exact used_signed|]. split; [vm_compute; reflexivity|]. split; [exact (proj2 (proj2 plog2_logged))|]. split; [exact (proj1 plog2_logged)|].
  split; [exact (proj1 (proj2 plog2_logged))|]. split; [exact part1_empowers|]. split; [exact toy_correct|exact mix_sized].
Qed.

(** The whole life of an identifier with reserve keys: it is begun with reserve keys from a salt, self-addressing and transferable, and then rotated with the salts in turn and used
   in interactions in any order and as often as its controller likes, each time with the number of the next event and the identifier of the last, numbers of key generations
   going up by one with each rotation. Then any ledger without events of that identifier takes in every message, one after the other, without an error, and in the end holds
   for that identifier exactly these events with their signatures, and for others what it held before. The events are to have no floats, to nest at most 127 deep and to be
   shorter than 2^32 bytes, and the numbers to stay below 2^32. *)
Theorem C146_shared_life_accepted :
  forall (canon : bytes -> option bytes) (hash : bytes -> bytes -> bytes) (cr : crypto) (kdf : bytes -> bytes -> N -> N -> N -> option bytes) (messages_of : bytes -> R (list message))
    (group_text : group -> R bytes) (schema_check : bytes -> bytes -> R bool) (age : bytes -> R Z) (seen_said : ledger -> bytes -> bool) (fuel : nat) (deep verify : option bool) (l : ledger)
    (code : option bytes) (rcount : option N) (tier : option bytes) (pre : bytes) (n : N) (dig : bytes) (k : keyset) (salt : bytes) (m : N) (evs : list (sadder * list indexer)),
  correct cr -> sized_hash hash -> textual group_text -> shared_life canon hash cr kdf code rcount tier pre n dig k salt m evs -> n <= 2 ^ 32 ->
  (forall e sigs, In (e, sigs) evs -> data (d_ked e) /\ nests 127 (d_ked e) /\ len (d_raw e) < 2 ^ 32 /\ exists t, group_text (GQuadlets [GSigs sigs]) = Ok t) ->
  l_kel l pre = [] -> deep <> Some true -> verify <> Some false ->
  exists l', fed canon hash cr messages_of group_text schema_check age seen_said (S fuel) deep verify l evs l' /\
    Forall2 (fun ev text => exists t, group_text (GQuadlets [GSigs (snd ev)]) = Ok t /\ text = d_raw (fst ev) ++ t) evs (l_kel l' pre) /\ len (l_kel l' pre) = n /\
    forall other, other <> pre -> l_kel l' other = l_kel l other.
Proof. exact C146_l. Qed.
Print Assumptions C146_shared_life_accepted.

Example C146_case : correct toy /\ sized_hash mix /\ textual sigs_text /\
  shared_life no_floats mix toy toy_kdf None None None ppre 3 psaid2 pkeys1 salt1 2 [(part0, map fst psigs0); (part1, map fst psigs1); (part2, map fst psigs2)] /\
  (forall e sigs, In (e, sigs) [(part0, map fst psigs0); (part1, map fst psigs1); (part2, map fst psigs2)] ->
     data (d_ked e) /\ nests 127 (d_ked e) /\ len (d_raw e) < 2 ^ 32 /\ exists t, sigs_text (GQuadlets [GSigs sigs]) = Ok t).
Proof.
  split; [exact toy_correct|]. split; [exact mix_sized|]. split; [exact sigs_textual|]. split; [exact shared3|].
  intros e sigs I. assert (data_check (d_ked e) = true /\ nests_check 127 (d_ked e) = true /\ len (d_raw e) <? 2 ^ 32 = true /\ is_ok (sigs_text (GQuadlets [GSigs sigs])) = true) as (A & B & C & D).
  { destruct I as [[= <- <-]|[[= <- <-]|[[= <- <-]|[]]]]; (split; [vm_compute; reflexivity|split; [vm_compute; reflexivity|split; vm_compute; reflexivity]]). }
  split; [now apply data_checked|]. split; [now apply nests_checked|]. split; [now apply N.ltb_lt|]. destruct (sigs_text _) as [t| |]; try discriminate. eauto.
Qed.

(** Once an event built with reserve keys has given the say to a key set, no event is accepted under it without a signature of each key of this set: an accepted event that has to be
   signed with the keys this event sets, be it that event itself or one after it, carries for each of these keys a signature that verifies over its own bytes. Reserve keys count
   for nothing there. *)
Theorem C147_signing_keys_all_needed :
  forall (canon : bytes -> option bytes) (hash : bytes -> bytes -> bytes) (cr : crypto) (kdf : bytes -> bytes -> N -> N -> N -> option bytes) (messages_of : bytes -> R (list message))
    (fuel : nat) (st : store) (e x : sadder) (k : keyset) (count : N) (own : bool) (g : list group) (deep : option bool) (seen seen' : list bytes) (there : bool) (pre : bytes) (n : N),
  sized_hash hash -> partly canon hash cr kdf e k count own -> k_offset k + count < 2 ^ 27 ->
  verify_key_event canon hash cr messages_of fuel st x g deep seen = Ok (there, seen') -> field_of (d_ked x) (s! "i") (VStr pre) -> ordinal (d_ked x) n -> rules canon st pre n x e ->
  exists keys sigs, serder_verfers e = Ok keys /\ attached g sigs /\
    forall i, k_offset k <= i < k_offset k + count -> exists s, In s sigs /\ i_index s = i /\ verifies cr keys (d_raw x) s.
Proof. exact C147_signing_l. Qed.
Print Assumptions C147_signing_keys_all_needed.

Example C147_signing_case : partly no_floats mix toy toy_kdf part1 pkeys1 2 true /\ k_offset pkeys1 + 2 < 2 ^ 27 /\
  verify_key_event no_floats mix toy (fun _ => Err EValue) 1 (view no_floats plog2) part2 [GSigs (map fst psigs2)] None [] = Ok (false, []) /\
  verify_key_event no_floats mix toy (fun _ => Err EValue) 1 (view no_floats plog2) part2 [GSigs (tl (map fst psigs2))] None [] = Err EVerification /\
  field_of (d_ked part2) (s! "i") (VStr ppre) /\ serder_sn part2 = Ok 2 /\ rules no_floats (view no_floats plog2) ppre 2 part2 part1 /\ sized_hash mix.
Proof.
  split; [exact (partly_rotated _ _ _ _ _ _ _ _ _ _ _ _ _ _ _ _ _ _ _ _ _ rotated)|]. split; [reflexivity|]. split; [exact (proj1 accepted2)|]. split; [exact (proj2 accepted2)|].
  split; [apply field_assoc; vm_compute; reflexivity|]. split; [vm_compute; reflexivity|]. split; [|exact mix_sized]. exists (s! "ixn"). split; [apply field_assoc; vm_compute; reflexivity|]. right.
  split; [cbn; intuition discriminate|]. exact (proj1 (proj2 plog2_logged)).
Qed.

(** Once an event built with reserve keys has announced their digests, with equal weights, no rotation is accepted after it without all of them: for each announced digest an accepted
   rotation carries a signature that verifies over the rotation's own bytes under a key with this digest. So whoever holds the signing keys alone, or all reserve keys but one,
   cannot rotate. *)
Theorem C147_reserve_keys_all_needed :
  forall (canon : bytes -> option bytes) (hash : bytes -> bytes -> bytes) (cr : crypto) (kdf : bytes -> bytes -> N -> N -> N -> option bytes) (messages_of : bytes -> R (list message))
    (fuel : nat) (st : store) (e x : sadder) (k : keyset) (count : N) (digests : list matter) (g : list group) (deep : option bool) (seen seen' : list bytes) (there : bool) (pre : bytes) (n : N),
  sized_hash hash -> partly canon hash cr kdf e k count true -> serder_digers e = Ok digests -> len digests < 2 ^ 27 ->
  verify_key_event canon hash cr messages_of fuel st x g deep seen = Ok (there, seen') -> of_type (d_ked x) (s! "rot") -> field_of (d_ked x) (s! "i") (VStr pre) -> ordinal (d_ked x) n ->
  announcing canon st pre n e ->
  exists keys sigs, serder_verfers x = Ok keys /\ attached g sigs /\
    forall j, j < len digests -> exists s, In s sigs /\ i_ondex s = j /\ verifies cr keys (d_raw x) s /\ reveals hash keys digests s.
Proof. exact C147_reserve_l. Qed.
Print Assumptions C147_reserve_keys_all_needed.

Example C147_reserve_case : partly no_floats mix toy toy_kdf part0 pkeys0 2 true /\ (exists digests, serder_digers part0 = Ok digests /\ len digests = 3) /\
  verify_key_event no_floats mix toy (fun _ => Err EValue) 1 (view no_floats plog1) part1 [GSigs (map fst psigs1)] None [] = Ok (false, []) /\
  verify_key_event no_floats mix toy (fun _ => Err EValue) 1 (view no_floats plog1) part1 [GSigs (tl (map fst psigs1))] None [] = Err EValidation /\
  of_type (d_ked part1) (s! "rot") /\ field_of (d_ked part1) (s! "i") (VStr ppre) /\ serder_sn part1 = Ok 1 /\ announcing no_floats (view no_floats plog1) ppre 1 part0 /\ sized_hash mix.
Proof.
  split; [refine (partly_begun _ _ _ _ _ _ _ _ _ _ _ _ _ _ _ _ _ _ begun); reflexivity|]. split; [eexists; split; [vm_compute; reflexivity|reflexivity]|]. split; [exact (proj1 accepted1)|]. split; [exact (proj2 accepted1)|].
  split; [apply field_assoc; vm_compute; reflexivity|]. split; [apply field_assoc; vm_compute; reflexivity|]. split; [vm_compute; reflexivity|]. split; [exact part0_announces|exact mix_sized].
Qed.

(** A partial rotation takes its reserve keys in one of two ways: from two salts, and then the keys shown, the next digests and their threshold are not to be given, or from texts,
   and then all three are needed and no salt is to be given. Any other choice of arguments is refused with a value error, whatever else is given. With texts the result is the bare
   event, without signatures; with salts it starts with the event and goes on with attachments. *)
Theorem C148_rotation_arguments :
  forall (hash : bytes -> bytes -> bytes) (cr : crypto) (kdf : bytes -> bytes -> N -> N -> N -> option bytes) (canon : bytes -> option bytes) (random : bytes) (rng : N -> bytes)
    (pre dig : bytes) (sn key_sn : N) (code : option bytes) (scount rcount : option N) (tier salt next_salt : option bytes) (current next_keys : option (list bytes)) (next_sith : option bytes),
  let salts := salt <> None /\ next_salt <> None /\ current = None /\ next_keys = None /\ next_sith = None in
  let texts := salt = None /\ next_salt = None /\ current <> None /\ next_keys <> None /\ next_sith <> None in
  let result := rotate_partial hash cr kdf canon random rng pre dig sn key_sn code scount rcount tier salt next_salt current next_keys next_sith in
  (~ salts -> ~ texts -> result = Err EValue) /\
  (forall said sk message, result = Ok (said, sk, message) -> exists e ck, rotate_built hash cr kdf canon random pre dig sn key_sn code scount rcount tier salt next_salt current next_keys next_sith = Ok (e, sk, ck) /\
     sad_said e = Ok said /\ (texts /\ message = d_raw e \/ salts /\ exists sigs ckeys, ck = Some ckeys /\ both_sign hash cr rng ckeys sk (d_raw e) = Ok sigs /\ signed_message e sigs = Ok message)).
Proof. exact C148_rotation_l. Qed.
Print Assumptions C148_rotation_arguments.

Example C148_rotation_case : is_ok (rotate_partial mix toy toy_kdf no_floats salt1 no_rng ppre ppre 1 1 None None None None (Some salt0) (Some salt1) None None None) = true /\
  rotate_partial mix toy toy_kdf no_floats salt1 no_rng ppre ppre 1 1 None None None None None None (Some (got [] (ks_verfers_qb64 toy shown1))) (Some [ppre]) (Some (s! """1""")) =
    Ok (match rotate_built mix toy toy_kdf no_floats salt1 ppre ppre 1 1 None None None None None None (Some (got [] (ks_verfers_qb64 toy shown1))) (Some [ppre]) (Some (s! """1""")) with
        | Ok (e, k, _) => (got [] (sad_said e), k, d_raw e) | _ => ([], no_keys, []) end) /\
  rotate_partial mix toy toy_kdf no_floats salt1 no_rng ppre ppre 1 1 None None None None (Some salt0) None None None None = Err EValue.
Proof. split; [vm_compute; reflexivity|]. split; vm_compute; reflexivity. Qed.

(** A partial inception needs the next digests or a salt for the reserve keys. From a salt and without a threshold for the next keys it never succeeds unless it is told that the keys
   are transferable: left out, that argument means they are not, no reserve keys are made, and the weights do not fit the empty list of digests. *)
Theorem C148_inception_arguments :
  forall (hash : bytes -> bytes -> bytes) (cr : crypto) (kdf : bytes -> bytes -> N -> N -> N -> option bytes) (canon : bytes -> option bytes) (random : bytes) (rng : N -> bytes)
    (code : option bytes) (scount rcount : option N) (transferable : option bool) (pcode tier salt : option bytes) (next_keys : option (list bytes)) (next_sith : option bytes) (r : bytes * keyset * bytes),
  or_else rcount 3 < 2 ^ 64 -> incept_partial hash cr kdf canon random rng code scount rcount transferable pcode tier salt next_keys next_sith = Ok r ->
  next_keys <> None \/ salt <> None /\ (transferable = Some true \/ next_sith <> None).
Proof. exact C148_inception_l. Qed.
Print Assumptions C148_inception_arguments.

Example C148_inception_case : is_ok (incept_partial mix toy toy_kdf no_floats (zeros 16) no_rng None None None (Some true) (Some (s! "E")) None (Some salt0) None None) = true /\
  incept_partial mix toy toy_kdf no_floats (zeros 16) no_rng None None None None (Some (s! "E")) None (Some salt0) None None = Err EValue /\
  incept_partial mix toy toy_kdf no_floats (zeros 16) no_rng None None None (Some true) (Some (s! "E")) None None None None = Err EProgrammer.
Proof. split; [vm_compute; reflexivity|]. split; vm_compute; reflexivity. Qed.
