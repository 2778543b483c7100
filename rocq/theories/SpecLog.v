(** Vocabulary of the statements about key-event logs. *)
From Coq Require Import String.
From Coq Require Import NArith ZArith List Bool.
From Verif Require Import Base Matter Indexer Json Tholder Signer Sadder Short Verify SpecPrims SpecTholder SpecSadder.
Import ListNotations.
Open Scope N_scope.

(** The sequence number an event announces: its field s, in hexadecimal. *)
Definition ordinal (v : value) (n : N) : Prop :=
  exists h, field_of v (s! "s") (VStr h) /\ (h = [] /\ n = 0 \/ h <> [] /\ hex_reading h n /\ n < 2 ^ 128).
(** The type of an event, and whether it sets the keys. *)
Definition of_type (v : value) (t : bytes) : Prop := field_of v (s! "t") (VStr t).
Definition establishing : list bytes := [s! "icp"; s! "rot"; s! "dip"; s! "drt"].
(** The store holds, in the log of [pre] under number [n], the event [e] with identifier [said]. *)
Definition logged (canon : bytes -> option bytes) (st : store) (pre : bytes) (n : N) (e : sadder) (said : bytes) : Prop :=
  exists text, get_key_event st pre n = Ok text /\ serder_with_raw canon text = Ok e /\ sad_said e = Ok said.
(** The store's last establishment event with a number up to [n]. *)
Definition established (canon : bytes -> option bytes) (st : store) (pre : bytes) (n : N) (e : sadder) : Prop :=
  exists text, get_latest_establishment_event_as_of_sn st pre n = Ok text /\ serder_with_raw canon text = Ok e.
(** Numbers are handed to the store as 32-bit ones. *)
Definition asked_for (n : N) : N := n mod 2 ^ 32.

(** The fields an event of a type must have. *)
Definition required : list (bytes * list bytes) :=
  [ (s! "icp", [s! "v"; s! "t"; s! "d"; s! "i"; s! "s"; s! "kt"; s! "k"; s! "nt"; s! "n"; s! "bt"; s! "b"; s! "c"; s! "a"]);
    (s! "rot", [s! "v"; s! "d"; s! "i"; s! "s"; s! "t"; s! "p"; s! "kt"; s! "k"; s! "nt"; s! "n"; s! "bt"; s! "br"; s! "ba"; s! "a"]);
    (s! "ixn", [s! "v"; s! "d"; s! "i"; s! "s"; s! "t"; s! "p"; s! "a"]) ].
Definition has_field (v : value) (k : bytes) : Prop := exists x, field_of v k x.

(** The elements of a list that satisfy a condition, in order and with their repetitions. *)
Inductive those {A} (P : A -> Prop) : list A -> list A -> Prop :=
| those_none : those P [] []
| those_yes x l k : P x -> those P l k -> those P (x :: l) (x :: k)
| those_no x l k : ~ P x -> those P l k -> those P (x :: l) k.
(** An indexed signature verifies under the key its index names. *)
Definition verifies (cr : crypto) (keys : list matter) (ser : bytes) (x : indexer) : Prop :=
  exists v, nth_error keys (N.to_nat (i_index x)) = Some v /\ verfer_verify cr v (i_raw x) ser = Ok true.
(** The keys and the threshold an event with number [n] is to be signed with: its own if it sets keys, else those of the last event before that does. *)
Definition governing (canon : bytes -> option bytes) (st : store) (pre : bytes) (n : N) (e : sadder) (keys : list matter) (t : tholder) : Prop :=
  exists ilk e', of_type (d_ked e) ilk /\ (In ilk establishing /\ e' = e \/ ~ In ilk establishing /\ established canon st pre (asked_for n - 1) e') /\
    serder_verfers e' = Ok keys /\ serder_tholder canon e' = Ok (Some t).
(** The event whose announcement of the next keys an event with number [n] has to honour: the one before, if that sets keys, else the last one that does. *)
Definition announcing (canon : bytes -> option bytes) (st : store) (pre : bytes) (n : N) (e' : sadder) : Prop :=
  exists before said ilk, logged canon st pre (asked_for n - 1) before said /\ of_type (d_ked before) ilk /\
    (In ilk establishing /\ e' = before \/ ~ In ilk establishing /\ established canon st pre (asked_for n - 1) e').
(** The key at the index of a signature is the one whose Blake3 digest stands at its other index. *)
Definition reveals (hash : bytes -> bytes -> bytes) (keys digests : list matter) (x : indexer) : Prop :=
  exists v d t, nth_error keys (N.to_nat (i_index x)) = Some v /\ nth_error digests (N.to_nat (i_ondex x)) = Some d /\ infil v = Ok t /\ d = Mt (s! "E") 0 (hash (s! "E") t).
(** The signatures attached to an event. *)
Definition attached (g : list group) (sigs : list indexer) : Prop := exists ls, g = map GSigs ls /\ sigs = concat ls.

(** A log in order: the event stored under a number carries the prefix and the number, and no two have the same identifier. *)
Definition orderly (canon : bytes -> option bytes) (st : store) (pre : bytes) (n : N) : Prop :=
  (forall m e said, m < n -> logged canon st pre m e said -> field_of (d_ked e) (s! "i") (VStr pre) /\ ordinal (d_ked e) m) /\
  (forall m m' e e' said, m < n -> m' < n -> logged canon st pre m e said -> logged canon st pre m' e' said -> m = m').

(** What a satisfied threshold means: as many signatures as the number says, repeated ones counted again; or, for weights, every clause earned by different keys. *)
Definition fulfilled (t : tholder) (idx : list N) : Prop :=
  (exists k, t_thold t = VInt (Z.of_N k) /\ 1 <= k /\ k <= len idx) \/
  t_weighted t = true /\ (SpecTholder.keys (t_thold t) < 2 ^ 32 -> exists ws, weights (t_thold t) ws /\ meets idx 0 ws).
