(** Vocabulary of the exact statement about stripping paths. *)
From Coq Require Import NArith List.
From Verif Require Import Base.
Import ListNotations.
Open Scope N_scope.

(** Stripping from [q] the elements of a root, the last of them first: each takes away the entry that now stands where the element last stood in [q]. *)
Inductive strips (q : list bytes) : list bytes -> list bytes -> Prop :=
| strips_none : strips q [] q
| strips_one r x a b u e w : strips q r (u ++ e :: w) -> q = a ++ x :: b -> ~ In x b -> len u = len a -> strips q (x :: r) (u ++ w).
