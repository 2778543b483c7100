(** Vocabulary of the statements about events with reserve keys. *)
From Coq Require Import String.
From Coq Require Import NArith ZArith QArith List Bool.
From Verif Require Import Base Matter Indexer Prims Json Tholder Common Signer Sadder Short Verify Ingest Events Partial SpecTholder SpecSadder SpecBuild SpecLog.
Import ListNotations.
Open Scope N_scope.

(** A threshold of one clause that gives nothing to the first [zeros] keys and asks for all of the [n] keys after them. *)
Definition all_of (v : value) (zeros n : N) : Prop := exists p, n = Npos p /\ weights v [repeat 0%Q (N.to_nat zeros) ++ repeat (1 # p) (N.to_nat n)].
(** An event gives the say to a key set: its keys are as many others as the offset of the key set says and then those of the key set, which reach the threshold together. *)
Definition empowers (canon : bytes -> option bytes) (cr : crypto) (e : sadder) (k : keyset) : Prop :=
  exists others keys vs t, ks_verfers_qb64 cr k = Ok keys /\ len others = k_offset k /\ field_of (d_ked e) (s! "k") (VArr (map VStr (others ++ keys))) /\
    serder_verfers e = Ok vs /\ serder_tholder canon e = Ok (Some t) /\ forall idx, (forall i, In i idx <-> k_offset k <= i < k_offset k + len keys) -> satisfy t idx = Ok true.
(** The event that sets the keys an event of a type has to be signed with: itself, or the last one before. *)
Definition rules (canon : bytes -> option bytes) (st : store) (pre : bytes) (n : N) (e e' : sadder) : Prop :=
  exists ilk, of_type (d_ked e) ilk /\ (In ilk establishing /\ e' = e \/ ~ In ilk establishing /\ established canon st pre (asked_for n - 1) e').

(** The keys a partial rotation shows are those of a key set: the one it made itself from a salt, or one whose keys it was given as texts. *)
Definition shows (cr : crypto) (ck : option keyset) (current : option (list bytes)) (k : keyset) : Prop :=
  ck = Some k \/ ck = None /\ k_offset k = 0 /\ exists shown, current = Some shown /\ ks_verfers_qb64 cr k = Ok shown.

(** [shared_life pre n dig k salt m evs]: an identifier begun with reserve keys from a salt and since then rotated with the salts in turn and used in between, each event with the
    signatures its functions make; the reserve keys to be shown next come from [salt] under number [m]. Code, number of reserve keys and tier stay the same. *)
Inductive shared_life (canon : bytes -> option bytes) (hash : bytes -> bytes -> bytes) (cr : crypto) (kdf : bytes -> bytes -> N -> N -> N -> option bytes) (code : option bytes)
    (rcount : option N) (tier : option bytes) : bytes -> N -> bytes -> keyset -> bytes -> N -> list (sadder * list indexer) -> Prop :=
| shared_begun random rng scount salt e k sigs pre :
    incept_parts hash cr kdf canon random rng code scount rcount (Some true) (Some (s! "E")) tier (Some salt) None None = Ok (e, k, sigs) -> serder_pre e = Ok pre ->
    shared_life canon hash cr kdf code rcount tier pre 1 pre k salt 1 [(e, map fst sigs)]
| shared_rotated pre n dig k0 salt m evs random rng scount next_salt e k ck sigs said :
    shared_life canon hash cr kdf code rcount tier pre n dig k0 salt m evs ->
    rotate_built hash cr kdf canon random pre dig n m code scount rcount tier (Some salt) (Some next_salt) None None None = Ok (e, k, Some ck) ->
    both_sign hash cr rng ck k (d_raw e) = Ok sigs -> sad_said e = Ok said -> shared_life canon hash cr kdf code rcount tier pre (n + 1) said k next_salt (m + 1) (evs ++ [(e, map fst sigs)])
| shared_used pre n dig k salt m evs data ver kind rng e sigs said :
    shared_life canon hash cr kdf code rcount tier pre n dig k salt m evs -> interact canon hash pre dig (Some n) data ver kind = Ok e -> ks_sign hash cr rng k (d_raw e) None = Ok sigs ->
    sad_said e = Ok said -> shared_life canon hash cr kdf code rcount tier pre (n + 1) said k salt m (evs ++ [(e, map fst sigs)]).

(** [partly e k n own]: the event [e] was built with reserve keys and gives the say to the [n] keys of [k]; with [own] the weights of the next keys were not given. Numbers
    of keys are below 2^64. *)
Inductive partly (canon : bytes -> option bytes) (hash : bytes -> bytes -> bytes) (cr : crypto) (kdf : bytes -> bytes -> N -> N -> N -> option bytes) : sadder -> keyset -> N -> bool -> Prop :=
| partly_begun random rng code scount rcount transferable tier salt next_keys next_sith e k sigs :
    or_else rcount 3 < 2 ^ 64 ->
    incept_parts hash cr kdf canon random rng code scount rcount transferable (Some (s! "E")) tier salt next_keys next_sith = Ok (e, k, sigs) ->
    partly canon hash cr kdf e k (or_else scount 2) (is_none next_sith)
| partly_rotated random pre dig sn key_sn code scount rcount tier salt next_salt current next_keys next_sith e k ck :
    rotate_built hash cr kdf canon random pre dig sn key_sn code scount rcount tier salt next_salt current next_keys next_sith = Ok (e, k, ck) ->
    partly canon hash cr kdf e k (or_else scount 2) (is_none next_sith).
