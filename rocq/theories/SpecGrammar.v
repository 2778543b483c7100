(** The grammar of JSON (RFC 8259) and what its texts denote, for the exact statements about reading JSON. *)
From Coq Require Import String.
From Coq Require Import NArith ZArith List Bool.
From Verif Require Import Base Json SpecPrims SpecCounter.
Import ListNotations.
Open Scope N_scope.

(** White space: spaces, tabs, line feeds, carriage returns. *)
Definition blank (w : bytes) : Prop := over [x20; x09; x0a; x0d] w.

(** ** Numbers *)
(** The integer part: decimal digits without superfluous zero. *)
Definition whole (t : bytes) (n : N) : Prop := decimal t n /\ forall r, t = s! "0" ++ r -> r = [].
Definition fraction (t : bytes) : Prop := t = [] \/ exists d n, decimal d n /\ t = s! "." ++ d.
Definition exponent (t : bytes) : Prop :=
  t = [] \/ exists e sign d n, In e [s! "e"; s! "E"] /\ In sign [[]; s! "+"; s! "-"] /\ decimal d n /\ t = e ++ sign ++ d.
(** An integer is kept exactly if it has 64 bits; everything else is a float, whose text is [canon]'s. *)
Inductive number (canon : bytes -> option bytes) : bytes -> jval -> Prop :=
| num_pos t n : whole t n -> n < 2 ^ 64 -> number canon t (JPos n)
| num_neg t n : whole t n -> 0 < n <= 2 ^ 63 -> number canon (s! "-" ++ t) (JNeg n)
| num_float sign t n fr ex x : In sign [[]; s! "-"] -> whole t n -> fraction fr -> exponent ex ->
    (fr <> [] \/ ex <> [] \/ (sign = [] /\ 2 ^ 64 <= n) \/ (sign = s! "-" /\ (n = 0 \/ 2 ^ 63 < n))) ->
    canon (sign ++ t ++ fr ++ ex) = Some x -> number canon (sign ++ t ++ fr ++ ex) (JFloat x).

(** ** Strings *)
(** The UTF-8 bytes of a code point. *)
Inductive char_bytes : N -> bytes -> Prop :=
| char1 a : b2n a < 128 -> char_bytes (b2n a) [a]
| char2 a b x y : b2n a = 192 + x -> b2n b = 128 + y -> y < 64 -> 128 <= x * 64 + y < 2048 -> char_bytes (x * 64 + y) [a; b]
| char3 a b c x y z : b2n a = 224 + x -> b2n b = 128 + y -> b2n c = 128 + z -> y < 64 -> z < 64 -> 2048 <= (x * 64 + y) * 64 + z < 65536 ->
    char_bytes ((x * 64 + y) * 64 + z) [a; b; c]
| char4 a b c d x y z t : b2n a = 240 + x -> b2n b = 128 + y -> b2n c = 128 + z -> b2n d = 128 + t -> y < 64 -> z < 64 -> t < 64 ->
    65536 <= ((x * 64 + y) * 64 + z) * 64 + t < 1114112 -> char_bytes (((x * 64 + y) * 64 + z) * 64 + t) [a; b; c; d].
Definition four_hex (h : bytes) (n : N) : Prop := len h = 4 /\ over (s! "0123456789abcdefABCDEF") h /\ hex_number (lowercase h) = n.
(** The one-letter escapes: quote, backslash, slash, b, f, n, r, t. *)
Definition short_escapes : list (byte * byte) := [(x22, x22); (x5c, x5c); (x2f, x2f); (x62, x08); (x66, x0c); (x6e, x0a); (x72, x0d); (x74, x09)].
(** What stands between the quotes, and the bytes it denotes. A code point beyond 65535 is written as a surrogate pair. *)
Inductive chars : bytes -> bytes -> Prop :=
| ch_end : chars [] []
| ch_plain c b s : 32 <= b2n c -> c <> x22 -> c <> x5c -> chars b s -> chars (c :: b) (c :: s)
| ch_escape e c b s : In (e, c) short_escapes -> chars b s -> chars (s! "\" ++ [e] ++ b) (c :: s)
| ch_unicode h n u b s : four_hex h n -> ~ 55296 <= n <= 57343 -> char_bytes n u -> chars b s -> chars (s! "\u" ++ h ++ b) (u ++ s)
| ch_pair h n l m u b s : four_hex h n -> 55296 <= n <= 56319 -> four_hex l m -> 56320 <= m <= 57343 ->
    char_bytes (65536 + (n - 55296) * 1024 + (m - 56320)) u -> chars b s -> chars (s! "\u" ++ h ++ s! "\u" ++ l ++ b) (u ++ s).

(** ** Documents *)
(** The first occurrences of each label. *)
Fixpoint firsts (l : list bytes) : list bytes := match l with [] => [] | k :: r => k :: filter (fun x => negb (beq x k)) (firsts r) end.
(** The members of an object: each label once, where it occurs first, with the value it is given last. *)
Definition merges (l m : list (bytes * jval)) : Prop :=
  map fst m = firsts (map fst l) /\ Forall (fun kv => exists a b, l = a ++ kv :: b /\ ~ In (fst kv) (map fst b)) m.
(** The text of a document whose arrays and objects nest at most [n] deep. *)
Inductive document (canon : bytes -> option bytes) : nat -> bytes -> jval -> Prop :=
| doc_null n : document canon n (s! "null") JNull
| doc_true n : document canon n (s! "true") (JBool true)
| doc_false n : document canon n (s! "false") (JBool false)
| doc_number n t j : number canon t j -> document canon n t j
| doc_string n b s : chars b s -> utf8 s = true -> document canon n (s! """" ++ b ++ s! """") (JStr s)
| doc_empty n w : blank w -> document canon (S n) (s! "[" ++ w ++ s! "]") (JArr [])
| doc_array n t l : elements canon n t l -> document canon (S n) (s! "[" ++ t ++ s! "]") (JArr l)
| doc_none n w : blank w -> document canon (S n) (s! "{" ++ w ++ s! "}") (JObj [])
| doc_object n t l m : members canon n t l -> merges l m -> document canon (S n) (s! "{" ++ t ++ s! "}") (JObj m)
with elements (canon : bytes -> option bytes) : nat -> bytes -> list jval -> Prop :=
| el_last n w t w' j : blank w -> document canon n t j -> blank w' -> elements canon n (w ++ t ++ w') [j]
| el_more n w t w' j r l : blank w -> document canon n t j -> blank w' -> elements canon n r l -> elements canon n (w ++ t ++ w' ++ s! "," ++ r) (j :: l)
with members (canon : bytes -> option bytes) : nat -> bytes -> list (bytes * jval) -> Prop :=
| mem_last n w b k w1 w2 t w3 j : blank w -> chars b k -> utf8 k = true -> blank w1 -> blank w2 -> document canon n t j -> blank w3 ->
    members canon n (w ++ s! """" ++ b ++ s! """" ++ w1 ++ s! ":" ++ w2 ++ t ++ w3) [(k, j)]
| mem_more n w b k w1 w2 t w3 j r l : blank w -> chars b k -> utf8 k = true -> blank w1 -> blank w2 -> document canon n t j -> blank w3 -> members canon n r l ->
    members canon n (w ++ s! """" ++ b ++ s! """" ++ w1 ++ s! ":" ++ w2 ++ t ++ w3 ++ s! "," ++ r) ((k, j) :: l).
(** The whole text: a document nested at most 127 deep, between white space. *)
Definition text_of (canon : bytes -> option bytes) (t : bytes) (j : jval) : Prop :=
  exists w d w', t = w ++ d ++ w' /\ blank w /\ document canon 127 d j /\ blank w'.

(** The value a document is loaded as: integers below 2^63 and floats printed with a point. *)
Inductive loads : jval -> value -> Prop :=
| lo_null : loads JNull VNull
| lo_bool b : loads (JBool b) (VBool b)
| lo_pos n : n < 2 ^ 63 -> loads (JPos n) (VInt (Z.of_N n))
| lo_neg n : loads (JNeg n) (VInt (- Z.of_N n))
| lo_float t : In x2e t -> loads (JFloat t) (VFloat t)
| lo_str s : loads (JStr s) (VStr s)
| lo_arr l vs : Forall2 loads l vs -> loads (JArr l) (VArr vs)
| lo_obj m vs : map fst m = map fst vs -> Forall2 loads (map snd m) (map snd vs) -> loads (JObj m) (VObj vs).
