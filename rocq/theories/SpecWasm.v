(** Vocabulary of the theorems on the JavaScript bindings. *)
From Coq Require Import String.
From Coq Require Import NArith ZArith List Bool.
From Verif Require Import Base Json Sadder Wasm.
Import ListNotations.
Open Scope N_scope.

(** The pair of 64-bit words is the number. *)
Definition denotes (p : u128_js) (n : N) : Prop := low p < 2 ^ 64 /\ high p < 2 ^ 64 /\ n = high p * 2 ^ 64 + low p.

(** The events a script can hold: built by one of the two constructors, from an event of the script if from one. *)
Inductive scripted (canon : bytes -> option bytes) : sadder -> Prop :=
| scripted_new code raw kind ked sad s : (forall x, sad = Some x -> scripted canon x) -> js_serder_new canon code raw kind ked sad = Ok s -> scripted canon s
| scripted_with_ked ked code kind s : js_serder_with_ked canon ked code kind = Ok s -> scripted canon s.

(** An array of JavaScript strings. *)
Definition strings (l : list bytes) : list (option bytes) := map Some l.

(** Two names are the same when underscores are disregarded. *)
Definition same_name (a b : bytes) : Prop := filter (fun c => negb (Byte.eqb c x5f)) a = filter (fun c => negb (Byte.eqb c x5f)) b.
