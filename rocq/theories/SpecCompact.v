(** Vocabulary of the statement that printed JSON is as short as possible. *)
From Coq Require Import String.
From Coq Require Import NArith List Bool.
From Verif Require Import Base.
Import ListNotations.
Open Scope N_scope.

(** The same text, except that in escapes of control characters (backslash, u, four hexadecimal digits) the last digit may be an upper-case letter. *)
Inductive recased : bytes -> bytes -> Prop :=
| rc_end : recased [] []
| rc_same c a b : recased a b -> recased (c :: a) (c :: b)
| rc_upper d up low a b : In d [s! "0"; s! "1"] -> In (up, low) [(s! "A", s! "a"); (s! "B", s! "b"); (s! "C", s! "c"); (s! "D", s! "d"); (s! "E", s! "e"); (s! "F", s! "f")] ->
    recased a b -> recased (s! "\u00" ++ d ++ up ++ a) (s! "\u00" ++ d ++ low ++ b).
