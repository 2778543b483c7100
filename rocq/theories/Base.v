(** Common vocabulary of the model: results, bytes, strings, slices, UTF-8.
    Definitions only. *)
From Coq Require Import NArith ZArith Bool String Ascii List.
From Coq.Strings Require Export Byte.
Import ListNotations.
Open Scope N_scope.

Arguments N.pow : simpl never.
Arguments N.mul : simpl never.
Arguments N.add : simpl never.
Arguments N.sub : simpl never.
Arguments N.div : simpl never.
Arguments N.modulo : simpl never.
Arguments N.leb : simpl never.
Arguments N.ltb : simpl never.
Arguments N.eqb : simpl never.
Arguments N.of_nat : simpl never.
Arguments N.to_nat : simpl never.

(** A Rust byte string / the UTF-8 bytes of a Rust [str] or [String]. *)
Notation bytes := (list byte).

(** String literal as bytes. *)
Notation "'s!' x" := (list_byte_of_string x%string) (at level 1, x at level 0, only parsing).

(** The variants of [src/error.rs:4-75] (messages dropped), plus [Foreign] for errors converted by
    anyhow from other crates (base64, utf-8, integer parsing, serde_json). *)
Inductive err : Set :=
| EMatter | EEmptyMaterial | EDecode | EUnexpectedCode | EUnexpectedCountCode | EUnexpectedOpCode
| EInvalidVarSize | EInvalidVarRawSize | EInvalidVarIndex | EInvalidCodeSize
| EInvalidBase64Character | EInvalidBase64Index | EShortage | EEmptyQb64
| EUnknownSizage | EUnknownHardage | EUnknownBardage | EUnsupportedSize | ETooSmall
| EPrepad | ENonZeroedPrepad | ENonFixedSizeCode | ENonZeroedLeadByte | ENonZeroedLeadBytes
| ENonZeroedPadBits | EParsing | EParseQb64 | EParseQb2 | EConversion | EValue | EValidation
| EDerivation | EForeign
(** Variants of the error type of the code in sample/keri (crate::error there, which is not part of the repository), as far as they are named there. *)
| EVerification | EDecoding | EEncoding | EProgrammer | EOutOfOrder.

(** [Result<T>] of Rust, with panics made explicit. *)
Inductive R (A : Type) : Type :=
| Ok (a : A)
| Err (e : err)
| Panic.
Arguments Ok {A} a.
Arguments Err {A} e.
Arguments Panic {A}.

(** The [?] operator (a panic propagates as well). *)
Definition bind {A B} (r : R A) (k : A -> R B) : R B :=
  match r with Ok a => k a | Err e => Err e | Panic => Panic end.
Notation "'let*' x ':=' e 'in' k" := (bind e (fun x => k))
  (at level 200, x binder, e at level 100, k at level 200, right associativity).

Definition is_ok {A} (r : R A) : bool := match r with Ok _ => true | _ => false end.
Definition is_err {A} (r : R A) : bool := match r with Err _ => true | _ => false end.
Definition is_panic {A} (r : R A) : bool := match r with Panic => true | _ => false end.

(** Bytes as numbers. *)
Definition b2n (b : byte) : N := Byte.to_N b.
Definition n2b (n : N) : byte := match Byte.of_N n with Some b => b | None => x00 end.

(** Equality of byte strings ([==] on [str], [&[u8]]). *)
Fixpoint beq (a b : bytes) : bool :=
  match a, b with
  | [], [] => true
  | x :: a', y :: b' => Byte.eqb x y && beq a' b'
  | _, _ => false
  end.

(** [.len()] *)
Definition len {A} (l : list A) : N := N.of_nat (length l).

Definition take {A} (n : N) (l : list A) : list A := firstn (N.to_nat n) l.
Definition drop {A} (n : N) (l : list A) : list A := skipn (N.to_nat n) l.

Arguments len : simpl never.
Arguments take : simpl never.
Arguments drop : simpl never.

(** [vec![0; n]] *)
Definition zeros (n : N) : bytes := repeat x00 (N.to_nat n).

Arguments zeros : simpl never.

(** [&v[a..b]] on a byte slice: panics when out of range. *)
Definition slice_bytes {A} (l : list A) (a b : N) : R (list A) :=
  if (a <=? b) && (b <=? len l) then Ok (take (b - a) (drop a l)) else Panic.

(** [&v[a..]] on a byte slice. *)
Definition from_bytes {A} (l : list A) (a : N) : R (list A) := slice_bytes l a (len l).

(** Continuation byte of UTF-8. *)
Definition is_cont (b : byte) : bool := (128 <=? b2n b) && (b2n b <=? 191).

(** [str::is_char_boundary]. *)
Definition boundary (s : bytes) (i : N) : bool :=
  (i =? 0) || (i =? len s) ||
  match nth_error s (N.to_nat i) with Some b => negb (is_cont b) | None => false end.

(** [&s[a..b]] on a [str]: panics out of range or off a character boundary. *)
Definition slice_str (s : bytes) (a b : N) : R bytes :=
  if (a <=? b) && (b <=? len s) && boundary s a && boundary s b
  then Ok (take (b - a) (drop a s)) else Panic.

(** [&s[a..]] on a [str]. *)
Definition from_str (s : bytes) (a : N) : R bytes := slice_str s a (len s).

Definition in_range (lo hi : N) (b : byte) : bool := (lo <=? b2n b) && (b2n b <=? hi).

(** [str::from_utf8] acceptance: the well-formed byte sequences of Unicode table 3-7. *)
Fixpoint utf8 (l : bytes) : bool :=
  match l with
  | [] => true
  | b :: r =>
    if b2n b <=? 127 then utf8 r
    else if in_range 194 223 b then
      match r with c1 :: r1 => is_cont c1 && utf8 r1 | _ => false end
    else if in_range 224 239 b then
      match r with
      | c1 :: c2 :: r2 =>
        (if b2n b =? 224 then in_range 160 191 c1
         else if b2n b =? 237 then in_range 128 159 c1 else is_cont c1)
        && is_cont c2 && utf8 r2
      | _ => false
      end
    else if in_range 240 244 b then
      match r with
      | c1 :: c2 :: c3 :: r3 =>
        (if b2n b =? 240 then in_range 144 191 c1
         else if b2n b =? 244 then in_range 128 143 c1 else is_cont c1)
        && is_cont c2 && is_cont c3 && utf8 r3
      | _ => false
      end
    else false
  end.

(** [String::from_utf8(bytes)?] *)
Definition from_utf8 (l : bytes) : R bytes := if utf8 l then Ok l else Err EForeign.

(** Checked [u32]/[u8]/... arithmetic (overflow panics in the checked profile). *)
Definition u32_max : N := 4294967295.
Definition u64_max : N := 18446744073709551615.
Definition u128_max : N := 340282366920938463463374607431768211455.
Definition u32_sub (a b : N) : R N := if b <=? a then Ok (a - b) else Panic.
Definition u32_add (a b : N) : R N := if a + b <=? u32_max then Ok (a + b) else Panic.
Definition u32_mul (a b : N) : R N := if a * b <=? u32_max then Ok (a * b) else Panic.
(** [64_u32.pow(n)] *)
Definition pow64_u32 (n : N) : R N := if 64 ^ n <=? u32_max then Ok (64 ^ n) else Panic.
(** [x as u32] for a [usize]/[u64]. *)
Definition as_u32 (n : N) : N := n mod 4294967296.

(** Big-endian value of a byte string, and the [n]-byte big-endian form of a number
    ([to_be_bytes] and [from_be_bytes]). *)
Fixpoint be_val_acc (acc : N) (l : bytes) : N :=
  match l with [] => acc | b :: r => be_val_acc (acc * 256 + b2n b) r end.
Definition be_val (l : bytes) : N := be_val_acc 0 l.
Fixpoint be_bytes (n : nat) (v : N) : bytes :=
  match n with
  | O => []
  | S m => be_bytes m (v / 256) ++ [n2b (v mod 256)]
  end.
