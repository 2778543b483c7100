(** Vocabulary of the statements about taking streams of messages into a store. *)
From Coq Require Import String.
From Coq Require Import NArith ZArith List Bool.
From Verif Require Import Base Matter Json Signer Sadder Short Verify Ingest SpecSadder SpecLog.
Import ListNotations.
Open Scope N_scope.

(** The ledger holds an event or a credential with this identifier. *)
Definition known (canon : bytes -> option bytes) (l : ledger) (said : bytes) : Prop :=
  (exists pre text e, In text (l_kel l pre) /\ serder_with_raw canon text = Ok e /\ sad_said e = Ok said) \/
  (exists pre text e, In text (l_tel l pre) /\ serder_with_raw canon text = Ok e /\ sad_said e = Ok said) \/
  (exists text e, In text (l_acdc l) /\ creder_with_raw canon text = Ok e /\ sad_said e = Ok said).
(** Asked for the data with an identifier, the store finds the events and credentials inserted. *)
Definition finds_all (canon : bytes -> option bytes) (seen_said : ledger -> bytes -> bool) : Prop := forall l said, known canon l said -> seen_said l said = true.
(** Nothing is taken out, replaced or put before. *)
Definition extends (l l' : ledger) : Prop :=
  (forall pre, exists more, l_kel l' pre = l_kel l pre ++ more) /\ (forall pre, exists more, l_tel l' pre = l_tel l pre ++ more) /\ (exists more, l_acdc l' = l_acdc l ++ more).
(** The ledgers that taking in any number of streams, from an empty one, can lead to, when verification is not switched off. A stream may fail midway. *)
Inductive reached (canon : bytes -> option bytes) (hash : bytes -> bytes -> bytes) (cr : crypto) (messages_of : bytes -> R (list message)) (group_text : group -> R bytes)
    (schema_check : bytes -> bytes -> R bool) (age : bytes -> R Z) (seen_said : ledger -> bytes -> bool) : ledger -> Prop :=
| reached_empty : reached canon hash cr messages_of group_text schema_check age seen_said empty
| reached_more l fuel stream deep verify l' r : reached canon hash cr messages_of group_text schema_check age seen_said l -> verify <> Some false ->
    ingest_messages canon hash cr messages_of group_text schema_check age seen_said fuel l stream deep verify = (l', r) ->
    reached canon hash cr messages_of group_text schema_check age seen_said l'.
(** The text of a group is a string. *)
Definition textual (group_text : group -> R bytes) : Prop := forall g t, group_text g = Ok t -> utf8 t = true.
