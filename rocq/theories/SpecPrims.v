(** Vocabulary of the theorems on numbers, sequence numbers, date-times, base64 text, keys and signatures. *)
From Coq Require Import String.
From Coq Require Import NArith List Bool.
From Verif Require Import Base.
Import ListNotations.
Open Scope N_scope.

(** The four integer codes and their widths in bytes. *)
Definition number_sizes : list (bytes * N) := [(s! "M", 2); (s! "0H", 4); (s! "N", 8); (s! "0A", 16)].

(** Lexicographic order of byte strings, as a database sorts its keys. *)
Fixpoint lex (a b : bytes) : comparison :=
  match a, b with
  | [], [] => Eq
  | [], _ => Lt
  | _, [] => Gt
  | x :: a', y :: b' => match b2n x ?= b2n y with Eq => lex a' b' | c => c end
  end.

(** Lower-case hexadecimal. *)
Definition hex_alphabet : bytes := s! "0123456789abcdef".
Fixpoint index_of (c : byte) (l : bytes) : N :=
  match l with [] => 0 | x :: r => if Byte.eqb x c then 0 else 1 + index_of c r end.
Definition hex_number (s : bytes) : N := fold_left (fun acc c => acc * 16 + index_of c hex_alphabet) s 0.
(** Lower-case hexadecimal digits, at least one, no superfluous leading zero. *)
Definition lower_hex (s : bytes) : Prop :=
  s <> [] /\ (forall c, In c s -> In c hex_alphabet) /\ (forall r, s = x30 :: r -> r = []).

(** [h] is a hexadecimal numeral of either case, possibly with a plus sign, denoting [n]. *)
Definition lowercase (s : bytes) : bytes := map (fun c => if (65 <=? b2n c) && (b2n c <=? 90) then n2b (b2n c + 32) else c) s.
Definition hex_reading (h : bytes) (n : N) : Prop :=
  exists sign d, h = sign ++ d /\ (sign = [] \/ sign = s! "+") /\ d <> [] /\ (forall c, In c d -> In c (s! "0123456789abcdefABCDEF")) /\
    hex_number (lowercase d) = n.

(** Characters of the date-times that survive the translation: digits, letters other than c, d, p, and the signs : . + - _ *)
Definition iso_alphabet : bytes := s! "0123456789ABCDEFGHIJKLMNOPQRSTUVWXYZabefghijklmnoqrstuvwxyz:.+-_".
Definition base64url_alphabet : bytes := s! "ABCDEFGHIJKLMNOPQRSTUVWXYZabcdefghijklmnopqrstuvwxyz0123456789-_".
Definition over (alphabet s : bytes) : Prop := forall c, In c s -> In c alphabet.
