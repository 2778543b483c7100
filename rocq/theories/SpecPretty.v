(** JSON documents with white space between the tokens. *)
From Coq Require Import String.
From Coq Require Import NArith ZArith Bool List.
From Verif Require Import Base Json.
Import ListNotations.
Open Scope N_scope.

Definition blank (w : bytes) : Prop := forall c, In c w -> In c [x20; x09; x0a; x0d].

(** [text_of v t]: [t] is a JSON text of the value [v], tokens separated by any white space, without white space around it. *)
Inductive text_of : value -> bytes -> Prop :=
| to_null : text_of VNull (s! "null")
| to_true : text_of (VBool true) (s! "true")
| to_false : text_of (VBool false) (s! "false")
| to_int z : text_of (VInt z) (int_text z)
| to_str s : text_of (VStr s) (json_string s)
| to_arr0 w : blank w -> text_of (VArr []) (s! "[" ++ w ++ s! "]")
| to_arr l b : elements l b -> text_of (VArr l) (s! "[" ++ b ++ s! "]")
| to_obj0 w : blank w -> text_of (VObj []) (s! "{" ++ w ++ s! "}")
| to_obj m b : fields m b -> text_of (VObj m) (s! "{" ++ b ++ s! "}")
with elements : list value -> bytes -> Prop :=
| el_last v t w1 w2 : text_of v t -> blank w1 -> blank w2 -> elements [v] (w1 ++ t ++ w2)
| el_more v t w1 w2 l b : text_of v t -> blank w1 -> blank w2 -> elements l b -> elements (v :: l) (w1 ++ t ++ w2 ++ s! "," ++ b)
with fields : list (bytes * value) -> bytes -> Prop :=
| fi_last k v t w1 w2 w3 w4 : text_of v t -> blank w1 -> blank w2 -> blank w3 -> blank w4 ->
    fields [(k, v)] (w1 ++ json_string k ++ w2 ++ s! ":" ++ w3 ++ t ++ w4)
| fi_more k v t w1 w2 w3 w4 m b : text_of v t -> blank w1 -> blank w2 -> blank w3 -> blank w4 -> fields m b ->
    fields ((k, v) :: m) (w1 ++ json_string k ++ w2 ++ s! ":" ++ w3 ++ t ++ w4 ++ s! "," ++ b).

(** The first [n] bytes, if they are whole characters. *)
Definition cut (t : bytes) (n : N) (x : bytes) : Prop := exists r, t = x ++ r /\ len x = n /\ utf8 x = true.
