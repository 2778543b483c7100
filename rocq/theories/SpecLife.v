(** Vocabulary of the statements about the life of an identifier: what its controller does, one event after the other. *)
From Coq Require Import String.
From Coq Require Import NArith ZArith List Bool.
From Verif Require Import Base Matter Indexer Json Tholder Common Signer Sadder Short Verify Ingest Events SpecTholder SpecSadder SpecBuild.
Import ListNotations.
Open Scope N_scope.

(** What an event says about the next keys: nothing the controller keeps, or the digests of a key set that is not empty, with a threshold for all of them. *)
Definition announces_next (canon : bytes -> option bytes) (hash : bytes -> bytes -> bytes) (cr : crypto) (nk : option keyset) (ndigs : option (list bytes)) (nsith : option value) : Prop :=
  match nk with
  | None => True
  | Some k => exists nd, ndigs = Some nd /\ nd <> [] /\ len nd < 2 ^ 27 /\ ks_digers_qb64 hash cr k = Ok nd /\ covers canon nsith (len nd)
  end.
(** [life pre n dig k nk evs]: after the events [evs], each with the signatures of all the keys that were current, the identifier [pre] has [n] events, the last with
    identifier [dig]; its keys are those of [k], and, if it can be rotated, the next are those of [nk]. *)
Inductive life (canon : bytes -> option bytes) (hash : bytes -> bytes -> bytes) (cr : crypto) : bytes -> N -> bytes -> keyset -> option keyset -> list (sadder * list indexer) -> Prop :=
| life_begun k nk keys sith ndigs nsith toad wits cnfg data ver kind intive rng e sigs pre :
    k_offset k = 0 -> ks_verfers_qb64 cr k = Ok keys -> covers canon sith (len keys) -> announces_next canon hash cr nk ndigs nsith ->
    incept canon hash keys sith ndigs nsith toad wits cnfg data ver kind (Some (s! "E")) intive None = Ok e -> ks_sign hash cr rng k (d_raw e) None = Ok sigs -> serder_pre e = Ok pre ->
    life canon hash cr pre 1 pre k nk [(e, map fst sigs)]
| life_rotated pre n dig k0 k nk evs keys ilk sith ndigs nsith toad wits cuts adds data ver kind intive rng e sigs said :
    life canon hash cr pre n dig k0 (Some k) evs ->
    k_offset k = 0 -> ks_verfers_qb64 cr k = Ok keys -> covers canon sith (len keys) -> announces_next canon hash cr nk ndigs nsith ->
    rotate canon hash pre keys dig ilk n sith ndigs nsith toad wits cuts adds data ver kind intive = Ok e -> ilk <> Some (s! "drt") -> ks_sign hash cr rng k (d_raw e) None = Ok sigs ->
    sad_said e = Ok said -> life canon hash cr pre (n + 1) said k nk (evs ++ [(e, map fst sigs)])
| life_used pre n dig k nk evs data ver kind rng e sigs said :
    life canon hash cr pre n dig k nk evs -> interact canon hash pre dig (Some n) data ver kind = Ok e -> ks_sign hash cr rng k (d_raw e) None = Ok sigs ->
    sad_said e = Ok said -> life canon hash cr pre (n + 1) said k nk (evs ++ [(e, map fst sigs)]).

(** Each event with its signatures, as a message of its own, is taken into the ledger without an error. *)
Inductive fed (canon : bytes -> option bytes) (hash : bytes -> bytes -> bytes) (cr : crypto) (messages_of : bytes -> R (list message)) (group_text : group -> R bytes)
    (schema_check : bytes -> bytes -> R bool) (age : bytes -> R Z) (seen_said : ledger -> bytes -> bool) (fuel : nat) (deep verify : option bool)
    : ledger -> list (sadder * list indexer) -> ledger -> Prop :=
| fed_none l : fed canon hash cr messages_of group_text schema_check age seen_said fuel deep verify l [] l
| fed_more l evs l1 e sigs l2 : fed canon hash cr messages_of group_text schema_check age seen_said fuel deep verify l evs l1 ->
    ingest_loop canon hash cr messages_of group_text schema_check age seen_said fuel deep verify l1 [] [MPayload (d_raw e); MGroup (GQuadlets [GSigs sigs])] = (l2, Ok tt) ->
    fed canon hash cr messages_of group_text schema_check age seen_said fuel deep verify l (evs ++ [(e, sigs)]) l2.
