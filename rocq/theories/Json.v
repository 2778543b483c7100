(** Model of [src/data.rs] (the Value type, its JSON text, reading JSON) together with the behaviour of the crate serde_json it relies on: string
    escaping, and the recursive-descent parser with its recursion limit. Definitions only.

    Floats. A float value is represented by the text serde_json prints for it. What number text denotes which float is left abstract: [canon tok]
    is the printed form of the f64 that the JSON number [tok] denotes, or [None] when it is out of range. Everything below is parametric in [canon]. *)
From Coq Require Import String.
From Coq Require Import NArith ZArith List Bool.
From Verif Require Import Base Util Prims.
Import ListNotations.
Open Scope N_scope.

(** data.rs:17-43 Number and Value. Objects are IndexMaps: association lists in insertion order, keys distinct. *)
Inductive value :=
| VNull
| VBool (b : bool)
| VInt (z : Z)
| VFloat (tok : bytes)
| VStr (s : bytes)
| VArr (l : list value)
| VObj (l : list (bytes * value)).

Definition i64_max : N := 9223372036854775807.
Definition i64_min_abs : N := 9223372036854775808.
Definition is_i64 (z : Z) : bool := ((-9223372036854775808 <=? z) && (z <=? 9223372036854775807))%Z.

(** ** Maps (crate indexmap) *)
(** [get]. *)
Fixpoint assoc {A} (k : bytes) (l : list (bytes * A)) : option A :=
  match l with
  | [] => None
  | (k', v) :: r => if beq k' k then Some v else assoc k r
  end.
(** [insert]: replaces in place, or appends. *)
Fixpoint insert {A} (k : bytes) (v : A) (l : list (bytes * A)) : list (bytes * A) :=
  match l with
  | [] => [(k, v)]
  | (k', v') :: r => if beq k' k then (k', v) :: r else (k', v') :: insert k v r
  end.
Definition contains_key {A} (k : bytes) (l : list (bytes * A)) : bool := match assoc k l with Some _ => true | None => false end.

(** ** Accessors: data.rs:45-103 *)
Definition to_bool (v : value) : R bool := match v with VBool b => Ok b | _ => Err EConversion end.
Definition to_string (v : value) : R bytes := match v with VStr s => Ok s | _ => Err EConversion end.
Definition to_i64 (v : value) : R Z := match v with VInt z => Ok z | _ => Err EConversion end.
Definition to_vec (v : value) : R (list value) := match v with VArr l => Ok l | _ => Err EConversion end.
Definition to_map (v : value) : R (list (bytes * value)) := match v with VObj m => Ok m | _ => Err EConversion end.

(** data.rs:146-166 Index by position and by label: panics when absent. *)
Definition index_nat (v : value) (i : N) : R value :=
  match v with
  | VArr l => match nth_error l (N.to_nat i) with Some x => Ok x | None => Panic end
  | VObj m => match nth_error m (N.to_nat i) with Some (_, x) => Ok x | None => Panic end
  | _ => Panic
  end.
Definition index_str (v : value) (k : bytes) : R value :=
  match v with
  | VObj m => match assoc k m with Some x => Ok x | None => Panic end
  | _ => Panic
  end.
(** data.rs:178-191 IndexMut by label followed by an assignment: inserts when absent. *)
Definition set_str (v : value) (k : bytes) (x : value) : R value :=
  match v with VObj m => Ok (VObj (insert k x m)) | _ => Panic end.

(** ** Printing *)
Definition hex2 (c : byte) : bytes := [hex_char (b2n c / 16); hex_char (b2n c mod 16)].
(** serde_json string escaping (format_escaped_str). *)
Definition escape1 (c : byte) : bytes :=
  match c with
  | x22 => [x5c; x22]
  | x5c => [x5c; x5c]
  | x08 => [x5c; x62]
  | x0c => [x5c; x66]
  | x0a => [x5c; x6e]
  | x0d => [x5c; x72]
  | x09 => [x5c; x74]
  | _ => if b2n c <? 32 then [x5c; x75; x30; x30] ++ hex2 c else [c]
  end.
Definition json_string (s : bytes) : bytes := x22 :: concat (map escape1 s) ++ [x22].

(** Decimal integers (crate itoa). *)
Fixpoint dec_loop (fuel : nat) (n : N) (out : bytes) : bytes :=
  match fuel with
  | O => out
  | S f => if n =? 0 then out else dec_loop f (n / 10) (n2b (48 + n mod 10) :: out)
  end.
(** Enough digits for 128 bits. *)
Definition dec_text (n : N) : bytes := if n =? 0 then s! "0" else dec_loop 40 n [].
Definition int_text (z : Z) : bytes := if (z <? 0)%Z then x2d :: dec_text (Z.to_N (- z)) else dec_text (Z.to_N z).

(** [slice::join(sep)]. *)
Fixpoint join (sep : bytes) (l : list bytes) : bytes :=
  match l with
  | [] => []
  | [x] => x
  | x :: r => x ++ sep ++ join sep r
  end.

(** data.rs:105-132 to_json. *)
Fixpoint to_json (v : value) : bytes :=
  match v with
  | VNull => s! "null"
  | VBool b => if b then s! "true" else s! "false"
  | VInt z => int_text z
  | VFloat tok => tok
  | VStr s => json_string s
  | VArr l => x5b :: join [x2c] (map to_json l) ++ [x5d]
  | VObj m => x7b :: join [x2c] (map (fun kv => json_string (fst kv) ++ x3a :: to_json (snd kv)) m) ++ [x7d]
  end.

(** ** Parsing (serde_json::from_str / from_slice into serde_json::Value) *)
(** serde_json::Value; numbers as kept by serde_json: u64, negative i64, or float. *)
Inductive jval :=
| JNull
| JBool (b : bool)
| JPos (n : N)
| JNeg (n : N) (* the integer -n *)
| JFloat (tok : bytes)
| JStr (s : bytes)
| JArr (l : list jval)
| JObj (l : list (bytes * jval)).

Definition is_ws (c : byte) : bool := match c with x20 | x0a | x09 | x0d => true | _ => false end.
Fixpoint skip_ws (s : bytes) : bytes :=
  match s with c :: r => if is_ws c then skip_ws r else s | [] => [] end.
Definition is_digit (c : byte) : bool := (48 <=? b2n c) && (b2n c <=? 57).

(** Longest prefix of digits. *)
Fixpoint digits (s : bytes) : bytes * bytes :=
  match s with
  | c :: r => if is_digit c then let '(d, r') := digits r in (c :: d, r') else ([], s)
  | [] => ([], [])
  end.
Fixpoint dec_num (acc : N) (s : bytes) : N :=
  match s with [] => acc | c :: r => dec_num (acc * 10 + (b2n c - 48)) r end.

(** Four hexadecimal digits of a unicode escape. *)
Definition hex4 (s : bytes) : option (N * bytes) :=
  match s with
  | a :: b :: c :: d :: r =>
    match hex_digit a, hex_digit b, hex_digit c, hex_digit d with
    | Some a, Some b, Some c, Some d => Some (((a * 16 + b) * 16 + c) * 16 + d, r)
    | _, _, _, _ => None
    end
  | _ => None
  end.
(** UTF-8 form of a code point ([char::encode_utf8]). *)
Definition utf8_of (n : N) : bytes :=
  if n <? 128 then [n2b n]
  else if n <? 2048 then [n2b (192 + n / 64); n2b (128 + n mod 64)]
  else if n <? 65536 then [n2b (224 + n / 4096); n2b (128 + (n / 64) mod 64); n2b (128 + n mod 64)]
  else [n2b (240 + n / 262144); n2b (128 + (n / 4096) mod 64); n2b (128 + (n / 64) mod 64); n2b (128 + n mod 64)].
(** The rest of the text after an expected first character. *)
Definition eat (c : byte) (s : bytes) : option bytes :=
  match s with x :: r => if Byte.eqb x c then Some r else None | [] => None end.
(** One-letter escapes. *)
Definition simple_escape (c : byte) : option byte :=
  match c with
  | x22 => Some x22 | x5c => Some x5c | x2f => Some x2f | x62 => Some x08 | x66 => Some x0c | x6e => Some x0a | x72 => Some x0d | x74 => Some x09
  | _ => None
  end.
(** Escape after the backslash: the bytes it stands for and the rest. A leading surrogate must be followed by a trailing one. *)
Definition unescape (s : bytes) : option (bytes * bytes) :=
  match s with
  | [] => None
  | c :: r =>
    match simple_escape c with
    | Some x => Some ([x], r)
    | None =>
      if negb (Byte.eqb c x75) then None
      else
        match hex4 r with
        | Some (n, r1) =>
          if (56320 <=? n) && (n <=? 57343) then None
          else if (55296 <=? n) && (n <=? 56319) then
            match eat x5c r1 with
            | Some r1' =>
              match eat x75 r1' with
              | Some r2 =>
                match hex4 r2 with
                | Some (n2, r3) =>
                  if (56320 <=? n2) && (n2 <=? 57343) then Some (utf8_of ((n - 55296) * 1024 + (n2 - 56320) + 65536), r3) else None
                | None => None
                end
              | None => None
              end
            | None => None
            end
          else Some (utf8_of n, r1)
        | None => None
        end
    end
  end.
(** String contents up to the closing quote; control characters are errors. [fuel] bounds the number of characters. *)
Fixpoint pstr (fuel : nat) (s : bytes) : option (bytes * bytes) :=
  match fuel with
  | O => None
  | S f =>
    match s with
    | [] => None
    | c :: r =>
      if Byte.eqb c x22 then Some ([], r)
      else if Byte.eqb c x5c then
        match unescape r with
        | Some (u, r') => match pstr f r' with Some (t, r'') => Some (u ++ t, r'') | None => None end
        | None => None
        end
      else if b2n c <? 32 then None
      else match pstr f r with Some (t, r') => Some (c :: t, r') | None => None end
    end
  end.
(** A string after its opening quote; the result must be UTF-8 ([from_slice] checks, in [from_str] it always is). *)
Definition pstring (s : bytes) : R (bytes * bytes) :=
  match pstr (S (length s)) s with
  | Some (t, r) => if utf8 t then Ok (t, r) else Err EForeign
  | None => Err EForeign
  end.

Section Canon.
Variable canon : bytes -> option bytes.

(** Fraction and exponent of a number: the consumed text and the rest, [None] when malformed. *)
Definition pfrac (s : bytes) : option (bytes * bytes) :=
  match eat x2e s with
  | Some r => match digits r with ([], _) => None | (d, r') => Some (x2e :: d, r') end
  | None => Some ([], s)
  end.
Definition psign (s : bytes) : bytes * bytes :=
  match eat x2b s with
  | Some r => ([x2b], r)
  | None => match eat x2d s with Some r => ([x2d], r) | None => ([], s) end
  end.
Definition pexp (s : bytes) : option (bytes * bytes) :=
  match s with
  | c :: r =>
    if Byte.eqb c x65 || Byte.eqb c x45 then
      let '(sg, r1) := psign r in
      match digits r1 with ([], _) => None | (d, r2) => Some (c :: sg ++ d, r2) end
    else Some ([], s)
  | [] => Some ([], [])
  end.
Definition pfloat (tok : bytes) (rest : bytes) : R (jval * bytes) :=
  match canon tok with Some t => Ok (JFloat t, rest) | None => Err EForeign end.

(** No digit at all, or a superfluous leading zero. *)
Definition bad_lead (d : bytes) : bool :=
  match d with [] => true | c :: r => Byte.eqb c x30 && match r with [] => false | _ => true end end.
(** A number after its optional minus sign: no superfluous leading zero; with a fraction or exponent a float; without, an integer when it fits u64
    (or i64, if negative), else a float. *)
Definition pnum (neg : bool) (s : bytes) : R (jval * bytes) :=
  let '(d, r) := digits s in
  if bad_lead d then Err EForeign
  else
    match pfrac r with
    | None => Err EForeign
    | Some (fr, r1) =>
      match pexp r1 with
      | None => Err EForeign
      | Some (ex, r2) =>
        let sign := if neg then [x2d] else [] in
        match fr, ex with
        | [], [] =>
          let n := dec_num 0 d in
          if u64_max <? n then pfloat (sign ++ d) r
          else if neg then (if (n =? 0) || (i64_min_abs <? n) then pfloat (sign ++ d) r else Ok (JNeg n, r))
          else Ok (JPos n, r)
        | _, _ => pfloat (sign ++ d ++ fr ++ ex) r2
        end
      end
    end.

(** Literal names. *)
Definition plit (lit : bytes) (j : jval) (s : bytes) : R (jval * bytes) :=
  if beq (take (len lit) s) lit then Ok (j, drop (len lit) s) else Err EForeign.

(** A value. [depth] is serde_json's remaining depth (128 at the start): entering an array or object decrements it and fails on zero. Running out
    of [fuel] is [Panic]; with the fuel given by [pjson] this does not happen (JsonFacts.v). *)
Fixpoint pval (fuel depth : nat) (s : bytes) {struct fuel} : R (jval * bytes) :=
  match fuel with
  | O => Panic
  | S f =>
    match skip_ws s with
    | [] => Err EForeign
    | c :: r =>
      if Byte.eqb c x6e then plit (s! "ull") JNull r
      else if Byte.eqb c x74 then plit (s! "rue") (JBool true) r
      else if Byte.eqb c x66 then plit (s! "alse") (JBool false) r
      else if Byte.eqb c x2d then pnum true r
      else if is_digit c then pnum false (c :: r)
      else if Byte.eqb c x22 then let* t := pstring r in Ok (JStr (fst t), snd t)
      else if Byte.eqb c x5b then
        match depth with
        | S (S _ as d) =>
          match eat x5d (skip_ws r) with
          | Some r' => Ok (JArr [], r')
          | None => let* t := parr f d (skip_ws r) in Ok (JArr (fst t), snd t)
          end
        | _ => Err EForeign
        end
      else if Byte.eqb c x7b then
        match depth with
        | S (S _ as d) =>
          match eat x7d (skip_ws r) with
          | Some r' => Ok (JObj [], r')
          | None => let* t := pobj f d [] (skip_ws r) in Ok (JObj (fst t), snd t)
          end
        | _ => Err EForeign
        end
      else Err EForeign
    end
  end
(** One or more elements and the closing bracket. *)
with parr (fuel depth : nat) (s : bytes) {struct fuel} : R (list jval * bytes) :=
  match fuel with
  | O => Panic
  | S f =>
    let* t := pval f depth s in
    match eat x5d (skip_ws (snd t)) with
    | Some r => Ok ([fst t], r)
    | None =>
      match eat x2c (skip_ws (snd t)) with
      | Some r => let* u := parr f depth r in Ok (fst t :: fst u, snd u)
      | None => Err EForeign
      end
    end
  end
(** One or more members and the closing brace; a repeated key replaces the earlier value in place. *)
with pobj (fuel depth : nat) (acc : list (bytes * jval)) (s : bytes) {struct fuel} : R (list (bytes * jval) * bytes) :=
  match fuel with
  | O => Panic
  | S f =>
    match eat x22 (skip_ws s) with
    | None => Err EForeign
    | Some r =>
      let* k := pstring r in
      match eat x3a (skip_ws (snd k)) with
      | None => Err EForeign
      | Some r2 =>
        let* t := pval f depth r2 in
        match eat x7d (skip_ws (snd t)) with
        | Some r' => Ok (insert (fst k) (fst t) acc, r')
        | None =>
          match eat x2c (skip_ws (snd t)) with
          | Some r' => pobj f depth (insert (fst k) (fst t) acc) r'
          | None => Err EForeign
          end
        end
      end
    end
  end.

(** A whole text: nothing but white space may follow. *)
Definition pjson (s : bytes) : R jval :=
  let* t := pval (length s + length s + 2) 128 s in
  match skip_ws (snd t) with [] => Ok (fst t) | _ => Err EForeign end.

(** data.rs:281-310 From<&JsonValue>: the unwraps panic on integers beyond i64 and on floats printed without a point. *)
Fixpoint of_json (j : jval) : R value :=
  match j with
  | JNull => Ok VNull
  | JBool b => Ok (VBool b)
  | JPos n => if n <=? i64_max then Ok (VInt (Z.of_N n)) else Panic
  | JNeg n => Ok (VInt (- Z.of_N n))
  | JFloat t => if existsb (Byte.eqb x2e) t then Ok (VFloat t) else Panic
  | JStr s => Ok (VStr s)
  | JArr l =>
    let* vs := (fix go (l : list jval) : R (list value) :=
                  match l with [] => Ok [] | j :: r => let* v := of_json j in let* vs := go r in Ok (v :: vs) end) l in
    Ok (VArr vs)
  | JObj l =>
    let* m := (fix go (l : list (bytes * jval)) (acc : list (bytes * value)) : R (list (bytes * value)) :=
                 match l with [] => Ok acc | (k, j) :: r => let* v := of_json j in go r (insert k v acc) end) l [] in
    Ok (VObj m)
  end.

(** A text read into a Value. *)
Definition value_of_text (s : bytes) : R value := let* j := pjson s in of_json j.

End Canon.
