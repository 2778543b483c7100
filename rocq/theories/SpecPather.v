(** Vocabulary of the statements about paths. *)
From Coq Require Import String.
From Coq Require Import NArith ZArith List Bool.
From Verif Require Import Base Matter Json Pather Spec SpecPrims SpecCounter SpecSadder.
Import ListNotations.
Open Scope N_scope.

(** The text of a path: each element after a dash; the empty path is a dash. *)
Definition path_text (els : list bytes) : bytes := match els with [] => s! "-" | _ => concat (map (fun e => s! "-" ++ e) els) end.
(** A path has these elements. *)
Definition elements (m : matter) (els : list bytes) : Prop := path_of m = Ok (VArr (map VStr els)).
(** Elements can be told apart: none contains a dash and the first is not empty. *)
Definition separable (els : list bytes) : Prop := (forall e, In e els -> ~ In x2d e) /\ (forall r, els <> [] :: r).

(** The decimal text of an integer. *)
Definition integer_text (z : Z) (t : bytes) : Prop :=
  exists d n, decimal d n /\ (forall r, d = s! "0" ++ r -> r = []) /\ (z = Z.of_N n /\ t = d \/ 0 < n /\ z = (- Z.of_N n)%Z /\ t = s! "-" ++ d).
(** An element of a path may be given as a text or as an integer of 64 bits. *)
Definition names (v : value) (t : bytes) : Prop := v = VStr t \/ exists z, v = VInt z /\ (- 2 ^ 63 <= z < 2 ^ 63)%Z /\ integer_text z t.

(** An element that counts as a position: a decimal number of 64 bits. *)
Definition position (e : bytes) (n : N) : Prop := decimal e n /\ n < 2 ^ 64.
(** Following elements into a value: a position selects an entry of a map or of an array, any other element the first entry of that label of a map. *)
Inductive follows : value -> list bytes -> value -> Prop :=
| follows_end v : follows v [] v
| follows_label v e x r w : e <> [] -> (forall n, ~ position e n) -> field_of v e x -> follows x r w -> follows v (e :: r) w
| follows_entry m e n k x r w : position e n -> nth_error m (N.to_nat n) = Some (k, x) -> follows x r w -> follows (VObj m) (e :: r) w
| follows_item l e n x r w : position e n -> nth_error l (N.to_nat n) = Some x -> follows x r w -> follows (VArr l) (e :: r) w.
