(** Vocabulary of the statements about data values and their JSON text. *)
From Coq Require Import String.
From Coq Require Import NArith ZArith List Bool.
From Verif Require Import Base Json.
Import ListNotations.
Open Scope N_scope.

(** A data value without floats: integers are 64-bit, strings and labels are UTF-8 (Rust [String]), labels of one object are distinct (a map). *)
Inductive data : value -> Prop :=
| data_null : data VNull
| data_bool b : data (VBool b)
| data_int z : (- 2 ^ 63 <= z < 2 ^ 63)%Z -> data (VInt z)
| data_str s : utf8 s = true -> data (VStr s)
| data_arr l : Forall data l -> data (VArr l)
| data_obj m : NoDup (map fst m) -> Forall (fun k => utf8 k = true) (map fst m) -> Forall data (map snd m) -> data (VObj m).

(** Arrays and objects nest at most [n] deep. *)
Inductive nests : nat -> value -> Prop :=
| nests_null n : nests n VNull
| nests_bool n b : nests n (VBool b)
| nests_int n z : nests n (VInt z)
| nests_float n t : nests n (VFloat t)
| nests_str n s : nests n (VStr s)
| nests_arr n l : Forall (nests n) l -> nests (S n) (VArr l)
| nests_obj n m : Forall (nests n) (map snd m) -> nests (S n) (VObj m).

(** No float occurs in the value. *)
Inductive float_free : value -> Prop :=
| ff_null : float_free VNull
| ff_bool b : float_free (VBool b)
| ff_int z : float_free (VInt z)
| ff_str s : float_free (VStr s)
| ff_arr l : Forall float_free l -> float_free (VArr l)
| ff_obj m : Forall float_free (map snd m) -> float_free (VObj m).

(** A number that the loader cannot represent occurs somewhere in the JSON document: an integer of 2^63 or more, or a float whose shortest text has
    no decimal point. *)
Inductive unloadable : jval -> Prop :=
| un_int n : 2 ^ 63 <= n -> unloadable (JPos n)
| un_float t : ~ In x2e t -> unloadable (JFloat t)
| un_arr l j : In j l -> unloadable j -> unloadable (JArr l)
| un_obj m k j : In (k, j) m -> unloadable j -> unloadable (JObj m).
