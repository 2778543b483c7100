(** Vocabulary of the statements about all messages of a stream. *)
From Coq Require Import String.
From Coq Require Import NArith ZArith List Bool.
From Verif Require Import Base Matter Json Signer Sadder Short Verify Ingest SpecSadder SpecLog.
Import ListNotations.
Open Scope N_scope.

(** The text is that of an event or a credential with this identifier. *)
Definition identified (canon : bytes -> option bytes) (raw said : bytes) : Prop := exists e, (serder_with_raw canon raw = Ok e \/ creder_with_raw canon raw = Ok e) /\ sad_said e = Ok said.
(** The event or the credential in the text, with the attachments that follow it, passes verification against the ledger. *)
Inductive checked (canon : bytes -> option bytes) (hash : bytes -> bytes -> bytes) (cr : crypto) (messages_of : bytes -> R (list message)) (schema_check : bytes -> bytes -> R bool) (age : bytes -> R Z)
    (l : ledger) (raw : bytes) : message -> Prop :=
| checked_key e ilk value fuel deep seen r : serder_with_raw canon raw = Ok e -> of_type (d_ked e) ilk -> In ilk [s! "icp"; s! "rot"; s! "ixn"] ->
    verify_key_event canon hash cr messages_of fuel (view canon l) e value deep seen = Ok r -> checked canon hash cr messages_of schema_check age l raw (MGroup (GQuadlets value))
| checked_registry e ilk value fuel deep seen r : serder_with_raw canon raw = Ok e -> of_type (d_ked e) ilk -> In ilk [s! "vcp"; s! "iss"; s! "rev"] ->
    verify_transaction_event canon hash cr messages_of fuel (view canon l) e value deep seen = Ok r -> checked canon hash cr messages_of schema_check age l raw (MGroup (GSources value))
| checked_credential e value fuel deep seen r : creder_with_raw canon raw = Ok e ->
    verify_acdc canon hash cr messages_of schema_check age fuel (view canon l) e value deep seen = Ok r -> checked canon hash cr messages_of schema_check age l raw (MGroup (GQuadlets value)).
