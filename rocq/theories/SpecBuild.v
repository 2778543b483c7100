(** Vocabulary of the statements about the events a controller builds. *)
From Coq Require Import String.
From Coq Require Import NArith ZArith List Bool.
From Verif Require Import Base Matter Indexer Json Tholder Signer Sadder Short Verify Events SpecTholder SpecSadder.
Import ListNotations.
Open Scope N_scope.

(** A threshold that [n] keys reach when all of them sign: a number from 1 to [n], or as many weights as there are keys. *)
Definition suits (canon : bytes -> option bytes) (v : value) (n : N) : Prop :=
  exists t, tholder_new canon None None (Some v) = Ok t /\ t_thold t <> VInt 0 /\ t_size t <= n /\ (t_weighted t = true -> SpecTholder.keys (t_thold t) = n).
(** A threshold asked for that is not zero and, if of weights, has one for each key. *)
Definition covers (canon : bytes -> option bytes) (sith : option value) (n : N) : Prop :=
  forall v t, sith = Some v -> tholder_new canon None None (Some v) = Ok t -> t_thold t <> VInt 0 /\ (t_weighted t = true -> SpecTholder.keys (t_thold t) = n).
(** An event sets these keys, with a threshold they reach together. *)
Definition sets_keys (canon : bytes -> option bytes) (e : sadder) (keys : list bytes) : Prop :=
  field_of (d_ked e) (s! "k") (VArr (map VStr keys)) /\ exists v, field_of (d_ked e) (s! "kt") v /\ suits canon v (len keys).
(** An event announces the keys of a key set as the next ones, by their digests, with a threshold they reach together. *)
Definition names_next (canon : bytes -> option bytes) (hash : bytes -> bytes -> bytes) (cr : crypto) (e : sadder) (k : keyset) : Prop :=
  exists nd v, ks_digers_qb64 hash cr k = Ok nd /\ field_of (d_ked e) (s! "n") (VArr (map VStr nd)) /\ field_of (d_ked e) (s! "nt") v /\ suits canon v (len nd).
