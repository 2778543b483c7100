(** Vocabulary of the statements about verifying again what a ledger holds. *)
From Coq Require Import String.
From Coq Require Import NArith ZArith List Bool.
From Verif Require Import Base Json Sadder Verify SpecSadder SpecLog SpecCred.
Import ListNotations.

(** The parser reads back what the printer of groups printed. *)
Definition reads_back (messages_of : bytes -> R (list message)) (group_text : group -> R bytes) : Prop :=
  forall g t, group_text g = Ok t -> exists more, messages_of t = Ok (MGroup g :: more).
(** The answer of a verification, an error or a panic, without the identifiers it went through. *)
Definition verdict (r : R (bool * list bytes)) : R bool := match r with Ok (there, _) => Ok there | Err x => Err x | Panic => Panic end.
(** A credential is in good standing: the last event in the log of its identifier is no revocation and, by this clock, not too old. *)
Definition standing (canon : bytes -> option bytes) (age : bytes -> R Z) (st : store) (said : bytes) : Prop :=
  exists state ilk dt secs, current canon st said state /\ of_type (d_ked state) ilk /\ ilk <> s! "rev" /\ ilk <> s! "brv" /\
    field_of (d_ked state) (s! "dt") (VStr dt) /\ age dt = Ok secs /\ (secs <= 36000000000)%Z.
