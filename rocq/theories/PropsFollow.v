(** Properties C138 to C140: what is built is accepted. Theorem statements only; the proofs are in [FollowThms]. *)
From Coq Require Import String.
From Coq Require Import NArith ZArith QArith Bool List Lia.
From Verif Require Import Base Tables Matter Indexer Prims Json Tholder Common Saider Diger Sadder Signer Prefixer Pather Short Verify Ingest Events Spec SpecPrims SpecJson SpecCommon SpecTholder SpecSaider SpecSadder SpecPrefixer SpecSigner SpecLog SpecIngest SpecBuild World FollowThms FollowFacts SignerThms VerifyThms IngestThms LogThms SadderFacts BaseFacts.
Import ListNotations.
Open Scope N_scope.

(** What holds: an inception built for the public keys of a key set, with a self-addressing identifier (code E) and no delegator, with no threshold given or one that is not
   zero and has a weight for each key, and signed by the whole key set, is accepted by every store that has no events of its identifier. The event's field i is its own
   identifier, and it sets those keys with a threshold they reach together. Missing: other codes of the identifier, no code with a single key, delegated inceptions, and
   fewer weights than keys, for all of which the statement is false. *)
Theorem C138_inception_accepted_partial :
  forall (canon : bytes -> option bytes) (hash : bytes -> bytes -> bytes) (cr : crypto) (messages_of : bytes -> R (list message)) (k : keyset) (keys : list bytes) (sith : option value)
    (ndigs : option (list bytes)) (nsith : option value) (toad : option N) (wits cnfg : option (list bytes)) (data : option (list value)) (ver : option version) (kind : option bytes)
    (intive : option bool) (rng : N -> bytes) (e : sadder) (sigs : list (indexer * matter)),
  correct cr -> sized_hash hash -> k_offset k = 0 -> ks_verfers_qb64 cr k = Ok keys -> covers canon sith (len keys) ->
  incept canon hash keys sith ndigs nsith toad wits cnfg data ver kind (Some (s! "E")) intive None = Ok e -> ks_sign hash cr rng k (d_raw e) None = Ok sigs ->
  exists pre, field_of (d_ked e) (s! "i") (VStr pre) /\ sad_said e = Ok pre /\ sets_keys canon e keys /\
    forall st fuel deep seen, count_key_events st pre = Ok 0 ->
      verify_key_event canon hash cr messages_of (S fuel) st e [GSigs (map fst sigs)] deep seen = Ok (false, seen).
Proof. exact C138_l. Qed.
Print Assumptions C138_inception_accepted_partial.

Example C138_case : exists ks nd, ks_verfers_qb64 toy keys0 = Ok ks /\ ks_digers_qb64 mix toy keys1 = Ok nd /\
  incept no_floats mix ks (Some (VStr (s! "2"))) (Some nd) (Some (VStr (s! "2"))) None None None None None None (Some (s! "E")) None None = Ok event0 /\
  (exists sigs, ks_sign mix toy (fun _ => []) keys0 (d_raw event0) None = Ok sigs) /\ correct toy /\ sized_hash mix /\ covers no_floats (Some (VStr (s! "2"))) (len ks) /\
  count_key_events (view no_floats empty) pre0 = Ok 0.
Proof.
  do 2 eexists. split; [vm_compute; reflexivity|]. split; [vm_compute; reflexivity|]. split; [vm_compute; reflexivity|]. split; [eexists; vm_compute; reflexivity|].
  split; [exact toy_correct|]. split; [exact mix_sized|]. split; [|vm_compute; reflexivity]. intros v t [= <-] T. vm_compute in T. injection T as <-. split; discriminate.
Qed.

(** An inception that was built is accepted, by whatever store and with whatever signatures, only if its identifier was asked for with the code E and it has no delegator. *)
Theorem C138_only_self_addressing_accepted :
  forall (canon : bytes -> option bytes) (hash : bytes -> bytes -> bytes) (cr : crypto) (messages_of : bytes -> R (list message)) (keys : list bytes) (sith : option value)
    (ndigs : option (list bytes)) (nsith : option value) (toad : option N) (wits cnfg : option (list bytes)) (data : option (list value)) (ver : option version) (kind : option bytes)
    (code : option bytes) (intive : option bool) (delpre : option bytes) (e : sadder) (fuel : nat) (st : store) (g : list group) (deep : option bool) (seen : list bytes) (there : bool * list bytes),
  sized_hash hash -> incept canon hash keys sith ndigs nsith toad wits cnfg data ver kind code intive delpre = Ok e ->
  verify_key_event canon hash cr messages_of fuel st e g deep seen = Ok there -> code = Some (s! "E") /\ delpre = None.
Proof. exact C138_only_l. Qed.
Print Assumptions C138_only_self_addressing_accepted.

Example C138_only_case : exists ks nd, incept no_floats mix ks (Some (VStr (s! "2"))) (Some nd) (Some (VStr (s! "2"))) None None None None None None (Some (s! "E")) None None = Ok event0 /\
  verify_key_event no_floats mix toy no_messages 1 (view no_floats empty) event0 [GSigs sigs0] None [] = Ok (false, []).
Proof. exists (got [] (ks_verfers_qb64 toy keys0)), (got [] (ks_digers_qb64 mix toy keys1)). split; vm_compute; reflexivity. Qed.

(** False as stated: an inception built with the defaults for a single key, whose identifier is then the key itself, is refused by an empty store although the key signed it,
   because field d differs from field i; and verifying an inception for two keys with one weight panics when both have signed. *)
Theorem C138_inception_accepted_refuted :
  correct toy /\ sized_hash mix /\
  (exists ks e sigs, ks_verfers_qb64 toy keys2 = Ok ks /\ incept no_floats mix ks None None None None None None None None None None None None = Ok e /\ ks_sign mix toy (fun _ => []) keys2 (d_raw e) None = Ok sigs /\
    serder_with_raw no_floats (d_raw e) = Ok e /\ verify_key_event no_floats mix toy no_messages 1 (view no_floats empty) e [GSigs (map fst sigs)] None [] = Err EVerification) /\
  (exists ks e sigs, ks_verfers_qb64 toy keys0 = Ok ks /\ incept no_floats mix ks (Some (VArr [VStr (s! "1")])) None None None None None None None None (Some (s! "E")) None None = Ok e /\
    ks_sign mix toy (fun _ => []) keys0 (d_raw e) None = Ok sigs /\ serder_with_raw no_floats (d_raw e) = Ok e /\
    verify_key_event no_floats mix toy no_messages 1 (view no_floats empty) e [GSigs (map fst sigs)] None [] = Panic).
Proof. exact C138_no_l. Qed.
Print Assumptions C138_inception_accepted_refuted.

(** An interaction built for an identifier with the number of its next event (below 2^32) and the identifier of its last event, and signed by the whole key set whose keys the
   last establishment event set, with a threshold they reach together, is accepted. *)
Theorem C139_interaction_accepted :
  forall (canon : bytes -> option bytes) (hash : bytes -> bytes -> bytes) (cr : crypto) (messages_of : bytes -> R (list message)) (k : keyset) (keys : list bytes) (pre dig : bytes) (sn : N)
    (data : option value) (ver : option version) (kind : option bytes) (rng : N -> bytes) (e : sadder) (sigs : list (indexer * matter)) (p : matter) (st : store) (pe ee : sadder)
    (fuel : nat) (deep : option bool) (seen : list bytes),
  correct cr -> sized_hash hash -> k_offset k = 0 -> ks_verfers_qb64 cr k = Ok keys -> interact canon hash pre dig (Some sn) data ver kind = Ok e -> ks_sign hash cr rng k (d_raw e) None = Ok sigs ->
  prefixer_with_qb64 hash pre = Ok p -> sn < 2 ^ 32 -> count_key_events st pre = Ok sn -> logged canon st pre (sn - 1) pe dig -> established canon st pre (sn - 1) ee -> sets_keys canon ee keys ->
  deep <> Some true -> verify_key_event canon hash cr messages_of (S fuel) st e [GSigs (map fst sigs)] deep seen = Ok (false, seen).
Proof. exact C139_l. Qed.
Print Assumptions C139_interaction_accepted.

Example C139_case : exists ks dig e sigs p, ks_verfers_qb64 toy keys1 = Ok ks /\ sad_said event1 = Ok dig /\ interact no_floats mix pre0 dig (Some 2) None None None = Ok e /\
  ks_sign mix toy (fun _ => []) keys1 (d_raw e) None = Ok sigs /\ prefixer_with_qb64 mix pre0 = Ok p /\ count_key_events (view no_floats log2) pre0 = Ok 2 /\
  logged no_floats (view no_floats log2) pre0 1 event1 dig /\ established no_floats (view no_floats log2) pre0 1 event1 /\ sets_keys no_floats event1 ks /\ correct toy /\ sized_hash mix.
Proof.
  do 5 eexists. do 6 (split; [vm_compute; reflexivity|]). split. { exists (d_raw event1). split; [vm_compute; reflexivity|]. split; vm_compute; reflexivity. }
  split. { exists (d_raw event1). split; vm_compute; reflexivity. } split; [|split; [exact toy_correct|exact mix_sized]].
  split; [apply field_assoc; vm_compute; reflexivity|]. eexists. split; [apply field_assoc; vm_compute; reflexivity|]. eexists. split; [vm_compute; reflexivity|].
  split; [discriminate|]. split; [vm_compute; discriminate|discriminate].
Qed.

(** A rotation, not a delegated one, built for an identifier with the number of its next event (below 2^32) and the identifier of its last event, for the keys of a key set
   whose digests, all of them and in order, the last establishment event announced with a threshold they reach together, with no threshold given or one that is not zero and
   has a weight for each key, and signed by the whole key set, is accepted; and it sets those keys with a threshold they reach together. *)
Theorem C140_rotation_accepted :
  forall (canon : bytes -> option bytes) (hash : bytes -> bytes -> bytes) (cr : crypto) (messages_of : bytes -> R (list message)) (k : keyset) (keys : list bytes) (pre dig : bytes)
    (ilk : option bytes) (sn : N) (sith : option value) (ndigs : option (list bytes)) (nsith : option value) (toad : option N) (wits cuts adds : option (list bytes)) (data : option (list value))
    (ver : option version) (kind : option bytes) (intive : option bool) (rng : N -> bytes) (e : sadder) (sigs : list (indexer * matter)) (p : matter) (st : store) (pe ae : sadder)
    (fuel : nat) (deep : option bool) (seen : list bytes),
  correct cr -> sized_hash hash -> k_offset k = 0 -> ks_verfers_qb64 cr k = Ok keys -> covers canon sith (len keys) ->
  rotate canon hash pre keys dig ilk sn sith ndigs nsith toad wits cuts adds data ver kind intive = Ok e -> ilk <> Some (s! "drt") -> ks_sign hash cr rng k (d_raw e) None = Ok sigs ->
  prefixer_with_qb64 hash pre = Ok p -> sn < 2 ^ 32 -> count_key_events st pre = Ok sn -> logged canon st pre (sn - 1) pe dig -> announcing canon st pre sn ae -> names_next canon hash cr ae k ->
  deep <> Some true -> sets_keys canon e keys /\ verify_key_event canon hash cr messages_of (S fuel) st e [GSigs (map fst sigs)] deep seen = Ok (false, seen).
Proof. exact C140_l. Qed.
Print Assumptions C140_rotation_accepted.

Example C140_case : exists ks nd dig e sigs p, ks_verfers_qb64 toy keys1 = Ok ks /\ ks_digers_qb64 mix toy keys2 = Ok nd /\ sad_said event0 = Ok dig /\
  rotate no_floats mix pre0 ks dig None 1 None (Some nd) None None None None None None None None None = Ok e /\
  ks_sign mix toy (fun _ => []) keys1 (d_raw e) None = Ok sigs /\ prefixer_with_qb64 mix pre0 = Ok p /\ count_key_events (view no_floats log1) pre0 = Ok 1 /\
  logged no_floats (view no_floats log1) pre0 0 event0 dig /\ announcing no_floats (view no_floats log1) pre0 1 event0 /\ names_next no_floats mix toy event0 keys1.
Proof.
  do 6 eexists. do 7 (split; [vm_compute; reflexivity|]). assert (logged no_floats (view no_floats log1) pre0 0 event0 pre0) as L. { exists (d_raw event0). split; [vm_compute; reflexivity|]. split; vm_compute; reflexivity. }
  split; [exact L|]. split. { exists event0, pre0, (s! "icp"). split; [exact L|]. split; [apply field_assoc; vm_compute; reflexivity|]. left. split; [now left|reflexivity]. }
  eexists _, (VStr (s! "2")). split; [vm_compute; reflexivity|]. split; [apply field_assoc; vm_compute; reflexivity|]. split; [apply field_assoc; vm_compute; reflexivity|]. eexists. split; [vm_compute; reflexivity|].
  split; [discriminate|]. split; [vm_compute; discriminate|discriminate].
Qed.
