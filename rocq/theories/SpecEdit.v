(** Vocabulary of C99-C100: data values as trees whose children may be labelled. *)
From Coq Require Import String.
From Coq Require Import NArith ZArith List Bool.
From Verif Require Import Base Json Edit.
Import ListNotations.
Open Scope N_scope.

(** The children of a value in order, with their labels. *)
Definition children (v : value) : list (option bytes * value) :=
  match v with
  | VArr l => map (fun x => (None, x)) l
  | VObj m => map (fun e => (Some (fst e), snd e)) m
  | _ => []
  end.

(** The subtree at a place (child numbers from the root). *)
Fixpoint subtree (v : value) (place : list nat) : option value :=
  match place with
  | [] => Some v
  | n :: r => match nth_error (children v) n with Some (_, x) => subtree x r | None => None end
  end.

(** The brackets [path] denote the place [p] in [v]: a position is a child number, a label is the number of the child with that label. *)
Inductive denotes : value -> list step -> list nat -> Prop :=
| den_nil v : denotes v [] []
| den_pos v i l x path p : nth_error (children v) (N.to_nat i) = Some (l, x) -> denotes x path p ->
    denotes v (SPos i :: path) (N.to_nat i :: p)
| den_label v k n x path p : nth_error (children v) n = Some (Some k, x) -> denotes x path p ->
    denotes v (SLabel k :: path) (n :: p).

Definition is_object (v : value) : Prop := exists m, v = VObj m.
Definition labels (v : value) : list (option bytes) := map fst (children v).
(** The kind of a value: what it is apart from its children. *)
Definition same_shape (v w : value) : Prop :=
  match v, w with
  | VArr _, VArr _ | VObj _, VObj _ => labels v = labels w
  | VArr _, _ | VObj _, _ => False
  | _, _ => v = w
  end.
Definition inside (p q : list nat) : Prop := exists r, q = p ++ r.

(** [replaced p x v w]: [w] is [v] with the subtree at [p] replaced by [x], and nothing else changed. *)
Definition replaced (p : list nat) (x v w : value) : Prop :=
  subtree w p = Some x /\
  (forall q, ~ inside p q -> ~ inside q p -> subtree w q = subtree v q) /\
  (forall q, inside q p -> q <> p -> exists a b, subtree v q = Some a /\ subtree w q = Some b /\ same_shape a b).

(** Labels of the paths are Rust strings. *)
Definition step_ok (s : step) : Prop := match s with SLabel k => utf8 k = true | SPos _ => True end.

(** The first occurrences of the labels of a list of entries, and the last value given to a label. *)
Fixpoint first_labels (seen : list bytes) (l : list (bytes * value)) : list bytes :=
  match l with
  | [] => []
  | (k, _) :: r => if existsb (beq k) seen then first_labels seen r else k :: first_labels (k :: seen) r
  end.
Definition last_value (k : bytes) (l : list (bytes * value)) : option value :=
  match find (fun e => beq (fst e) k) (rev l) with Some (_, x) => Some x | None => None end.

(** Any Value that can exist: the labels of one object are distinct (it is a map). *)
Inductive proper : value -> Prop :=
| proper_node v : NoDup (match v with VObj m => map fst m | _ => [] end) -> Forall (fun e => proper (snd e)) (children v) -> proper v.
