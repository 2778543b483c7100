(** Base64url alphabet and the [base64] crate's [URL_SAFE] engine. Definitions only. *)
From Coq Require Import NArith List Bool.
From Verif Require Import Base.
Import ListNotations.
Open Scope N_scope.

(** [src/cesr/core/util.rs:5-73] b64_char_to_index; also the decode table of the crate [base64] (alphabet URL_SAFE).
    [None] is Err(InvalidBase64Character). A non-ASCII character starts with a byte >= 0x80, for which the result is
    [None] too. *)
Definition b64_index (b : byte) : option N :=
  let n := b2n b in
  if (65 <=? n) && (n <=? 90) then Some (n - 65)
  else if (97 <=? n) && (n <=? 122) then Some (n - 71)
  else if (48 <=? n) && (n <=? 57) then Some (n + 4)
  else if n =? 45 then Some 62
  else if n =? 95 then Some 63
  else None.

(** [src/cesr/core/util.rs:75-143] b64_index_to_char, for arguments below 64 (the only ones the code can pass: it
    always passes a remainder modulo 64 or a value masked to six bits). *)
Definition b64_char (i : N) : byte :=
  if i <? 26 then n2b (i + 65)
  else if i <? 52 then n2b (i + 71)
  else if i <? 62 then n2b (i - 4)
  else if i =? 62 then x2d
  else x5f.

Definition is_b64 (b : byte) : bool := match b64_index b with Some _ => true | None => false end.
Definition is_b64s (l : bytes) : bool := forallb is_b64 l.

Definition pad_char : byte := x3d. (* '=' *)

(** Three bytes to four characters. *)
Definition enc3 (a b c : byte) : bytes :=
  let a := b2n a in let b := b2n b in let c := b2n c in
  [b64_char (a / 4); b64_char ((a mod 4) * 16 + b / 16);
   b64_char ((b mod 16) * 4 + c / 64); b64_char (c mod 64)].

(** [base64::engine::general_purpose::URL_SAFE.encode]: RFC 4648 section 5 with padding
    (used at matter/mod.rs:205-241, indexer/mod.rs:252-280, bexter.rs:21). *)
Fixpoint encode (l : bytes) : bytes :=
  match l with
  | a :: b :: c :: r => enc3 a b c ++ encode r
  | [a; b] =>
    [b64_char (b2n a / 4); b64_char ((b2n a mod 4) * 16 + b2n b / 16);
     b64_char ((b2n b mod 16) * 4); pad_char]
  | [a] => [b64_char (b2n a / 4); b64_char ((b2n a mod 4) * 16); pad_char; pad_char]
  | [] => []
  end.

(** Four characters of the alphabet to three bytes. *)
Definition dec4 (a b c d : byte) : R bytes :=
  match b64_index a, b64_index b, b64_index c, b64_index d with
  | Some a, Some b, Some c, Some d =>
    Ok [n2b (a * 4 + b / 16); n2b ((b mod 16) * 16 + c / 4); n2b ((c mod 4) * 64 + d)]
  | _, _, _, _ => Err EForeign
  end.

(** The last quad, which may carry one or two padding characters; bits that do not belong to a byte must be zero
    (decode_allow_trailing_bits = false). *)
Definition dec_last (a b c d : byte) : R bytes :=
  if Byte.eqb d pad_char then
    if Byte.eqb c pad_char then
      match b64_index a, b64_index b with
      | Some a, Some b => if b mod 16 =? 0 then Ok [n2b (a * 4 + b / 16)] else Err EForeign
      | _, _ => Err EForeign
      end
    else
      match b64_index a, b64_index b, b64_index c with
      | Some a, Some b, Some c =>
        if c mod 4 =? 0 then Ok [n2b (a * 4 + b / 16); n2b ((b mod 16) * 16 + c / 4)]
        else Err EForeign
      | _, _, _ => Err EForeign
      end
  else dec4 a b c d.

(** [URL_SAFE.decode]: decode_padding_mode = RequireCanonical, so the length must be a multiple of four
    (used at matter/mod.rs:363,389, indexer/mod.rs:463,486, bexter.rs:79). *)
Fixpoint decode (l : bytes) : R bytes :=
  match l with
  | [] => Ok []
  | a :: b :: c :: d :: r =>
    match r with
    | [] => dec_last a b c d
    | _ => let* x := dec4 a b c d in let* y := decode r in Ok (x ++ y)
    end
  | _ => Err EForeign
  end.
