(** Vocabulary of the statements about the witnesses of an identifier. *)
From Coq Require Import String.
From Coq Require Import NArith ZArith List Bool.
From Verif Require Import Base Json Sadder SpecPrims SpecSadder SpecLog.
Import ListNotations.
Open Scope N_scope.

(** The witness threshold an event announces: its field bt, an integer or a hexadecimal text. *)
Definition witness_threshold (e : sadder) (m : N) : Prop :=
  field_of (d_ked e) (s! "bt") (VInt (Z.of_N m)) \/ exists h, field_of (d_ked e) (s! "bt") (VStr h) /\ h <> [] /\ hex_reading h m.
(** Of [n] witnesses, this many are taken to fail or to lie: fewer than a third. *)
Definition faulty (n : N) : N := (n - 1) / 3.
(** Any two groups of [m] out of [n] witnesses share one that is honest; and the honest ones are enough. *)
Definition safe (n m : N) : Prop := n + faulty n < 2 * m.
Definition live (n m : N) : Prop := m + faulty n <= n.
(** The witnesses that are cut. *)
Definition cut_out (cuts wits gone : list bytes) : Prop := those (fun w => In w cuts) wits gone.
(** Some witness that is cut stands so far back that fewer witnesses follow it than are cut besides it. *)
Definition cut_too_far (cuts wits : list bytes) : Prop :=
  exists before w after gone, wits = before ++ w :: after /\ In w cuts /\ cut_out cuts wits gone /\ len after + 1 < len gone.
