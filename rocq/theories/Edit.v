(** Model of editing data values through [IndexMut] and of building objects ([src/data.rs]). Definitions only. *)
From Coq Require Import String.
From Coq Require Import NArith ZArith List Bool.
From Verif Require Import Base Json.
Import ListNotations.
Open Scope N_scope.

(** One pair of brackets: [v["k"]] or [v[3]]. *)
Inductive step := SLabel (k : bytes) | SPos (i : N).

(** data.rs:146-166 Index, one step, and a chain of brackets [v[a][b]...]. *)
Definition index1 (v : value) (s : step) : R value :=
  match s with SLabel k => index_str v k | SPos i => index_nat v i end.
Fixpoint read (v : value) (path : list step) : R value :=
  match path with
  | [] => Ok v
  | s :: r => let* x := index1 v s in read x r
  end.

Fixpoint set_nth {A} (n : nat) (x : A) (l : list A) : list A :=
  match l, n with
  | [], _ => []
  | _ :: r, O => x :: r
  | y :: r, S n => y :: set_nth n x r
  end.

(** data.rs:168-191 IndexMut, one step; [f] is what is done through the mutable reference. A label that is absent is inserted with Null first. When
    the step panics the model forgets the value (in Rust it is unwinding). *)
Definition index_mut1 (v : value) (s : step) (f : value -> R value) : R value :=
  match s, v with
  | SLabel k, VObj m =>
    let m' := if contains_key k m then m else insert k VNull m in
    match assoc k m' with
    | Some y => let* y' := f y in Ok (VObj (insert k y' m'))
    | None => Panic
    end
  | SPos i, VArr l =>
    match nth_error l (N.to_nat i) with
    | Some y => let* y' := f y in Ok (VArr (set_nth (N.to_nat i) y' l))
    | None => Panic
    end
  | SPos i, VObj m =>
    match nth_error m (N.to_nat i) with
    | Some (k, y) => let* y' := f y in Ok (VObj (set_nth (N.to_nat i) (k, y') m))
    | None => Panic
    end
  | _, _ => Panic
  end.
(** A chain of brackets used mutably. *)
Fixpoint update (v : value) (path : list step) (f : value -> R value) : R value :=
  match path with
  | [] => f v
  | s :: r => index_mut1 v s (fun y => update y r f)
  end.
(** [v[a][b] = x] and taking [&mut v[a][b]] without writing through it. *)
Definition assign (v : value) (path : list step) (x : value) : R value := update v path (fun _ => Ok x).
Definition touch (v : value) (path : list step) : R value := update v path (fun y => Ok y).

(** data.rs:452-545 the object arms of [dat!] (one [insert] per entry, in order) and data.rs:256-264 From<&HashMap>, where [l] is the order in
    which the hash map happens to iterate. *)
Definition object_of (l : list (bytes * value)) : value := VObj (fold_left (fun m e => insert (fst e) (snd e) m) l []).

(** data.rs:312-388 TryFrom<&Value>. [trunc] is the [as i64] cast of a float and [widen] the [as f64] cast of an integer, both left abstract. *)
Definition try_string (v : value) : R bytes := match v with VStr s => Ok s | _ => Err EConversion end.
Definition try_bool (v : value) : R bool := match v with VBool b => Ok b | _ => Err EConversion end.
Definition try_i64 (trunc : bytes -> Z) (v : value) : R Z :=
  match v with VInt z => Ok z | VFloat t => Ok (trunc t) | _ => Err EConversion end.
Definition try_f64 (widen : Z -> bytes) (v : value) : R bytes :=
  match v with VFloat t => Ok t | VInt z => Ok (widen z) | _ => Err EConversion end.
Definition try_vec (v : value) : R (list value) := match v with VArr l => Ok l | _ => Err EConversion end.
Definition try_map (v : value) : R (list (bytes * value)) := match v with VObj m => Ok m | _ => Err EConversion end.
(** data.rs:76-89 to_f64. *)
Definition to_f64 (v : value) : R bytes := match v with VFloat t => Ok t | _ => Err EConversion end.
