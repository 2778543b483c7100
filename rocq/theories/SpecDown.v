(** Vocabulary of the statement about attachments that bring verification down. *)
From Coq Require Import String.
From Coq Require Import NArith List Bool.
From Verif Require Import Base Matter Indexer Signer Short Verify.
Import ListNotations.
Open Scope N_scope.

(** The signature names one of the keys and checking it gives an answer, good or bad. *)
Definition checkable (cr : crypto) (keys : list matter) (ser : bytes) (x : indexer) : Prop :=
  exists v b, nth_error keys (N.to_nat (i_index x)) = Some v /\ verfer_verify cr v (i_raw x) ser = Ok b.
(** Reading the groups from the front, a signature comes whose index is the number of the keys, after groups of signatures only and checkable signatures only. *)
Definition overrun (cr : crypto) (keys : list matter) (ser : bytes) (g : list group) : Prop :=
  exists ls l x l' rest, g = map GSigs ls ++ GSigs (l ++ x :: l') :: rest /\ i_index x = len keys /\ Forall (checkable cr keys ser) (concat ls ++ l).
