(** Models of the simple Matter kinds: [number.rs], [seqner.rs], [dater.rs], [bexter.rs], [verfer.rs], [cigar.rs], [siger.rs] and the
    parsing part of [salter.rs] (all in src/cesr/core). A value of any of these types is its Matter (Indexer) state; a signature also
    carries a verification key. Definitions only. *)
From Coq Require Import String.
From Coq Require Import NArith List Bool.
From Verif Require Import Base B64 Util Tables Matter Indexer.
Import ListNotations.
Open Scope N_scope.

(** ** Hexadecimal *)
(** Digit printed by [format!("{:x}")]. *)
Definition hex_char (d : N) : byte := if d <? 10 then n2b (48 + d) else n2b (87 + d).
Fixpoint hex_loop (fuel : nat) (n : N) (out : bytes) : bytes :=
  match fuel with
  | O => out
  | S f => if n =? 0 then out else hex_loop f (n / 16) (hex_char (n mod 16) :: out)
  end.
(** [format!("{n:x}")] for integers of at most 128 bits. *)
Definition to_hex (n : N) : bytes := if n =? 0 then s! "0" else hex_loop 32 n [].

(** [char::to_digit(16)]. *)
Definition hex_digit (c : byte) : option N :=
  let n := b2n c in
  if (48 <=? n) && (n <=? 57) then Some (n - 48)
  else if (97 <=? n) && (n <=? 102) then Some (n - 87)
  else if (65 <=? n) && (n <=? 70) then Some (n - 55)
  else None.
Fixpoint hex_val (acc : N) (s : bytes) : option N :=
  match s with
  | [] => Some acc
  | c :: r => match hex_digit c with Some d => hex_val (acc * 16 + d) r | None => None end
  end.
(** [u128::from_str_radix(s, 16)]: an optional plus sign, then at least one digit; overflow is an error. *)
Definition u128_from_hex (s : bytes) : R N :=
  let digits := match s with x2b :: r => r | _ => s end in
  match digits with
  | [] => Err EForeign
  | _ => match hex_val 0 digits with
         | Some n => if n <=? u128_max then Ok n else Err EForeign
         | None => Err EForeign
         end
  end.

Definition is_none {A} (o : option A) : bool := match o with None => true | Some _ => false end.
Definition or_else {A} (o : option A) (d : A) : A := match o with Some x => x | None => d end.
Definition has_code (codes : list bytes) (code : bytes) : bool := existsb (beq code) codes.

(** The check every [validate_code] performs. *)
Definition validate (codes : list bytes) (code : bytes) : R unit :=
  if has_code codes code then Ok tt else Err EUnexpectedCode.

(** ** Number *)
(** number.rs:15-25 Codex::has_code. *)
Definition number_codes : list bytes := [s! "M"; s! "0H"; s! "N"; s! "0A"].

(** number.rs:44-94 new. [num] is a u128. *)
Definition number_new (num : option N) (numh code raw qb64b qb64 qb2 : option bytes) : R matter :=
  if is_none raw && is_none qb64b && is_none qb64 && is_none qb2 then
    let* num := match num with
                | Some n => Ok n
                | None => match numh with
                          | Some [] => Ok 0
                          | Some h => u128_from_hex h
                          | None => Ok 0
                          end
                end in
    let code := if num <? 65536 then s! "M" else if num <? 4294967296 then s! "0H"
                else if num <? 18446744073709551616 then s! "N" else s! "0A" in
    let raw := if num <? 65536 then be_bytes 2 num else if num <? 4294967296 then be_bytes 4 num
               else if num <? 18446744073709551616 then be_bytes 8 num else be_bytes 16 num in
    matter_new (Some code) (Some raw) None qb64 None
  else
    let code := or_else code (s! "M") in
    let* _u := validate number_codes code in
    matter_new (Some code) raw qb64b qb64 qb2.

(** number.rs:120-147 num; [copy_from_slice] panics unless the lengths agree. *)
Definition number_num (m : matter) : R N :=
  let fixed w := if len (m_raw m) =? w then Ok (be_val (m_raw m)) else Panic in
  if beq (m_code m) (s! "M") then fixed 2
  else if beq (m_code m) (s! "0H") then fixed 4
  else if beq (m_code m) (s! "N") then fixed 8
  else if beq (m_code m) (s! "0A") then fixed 16
  else Err EUnexpectedCode.
(** number.rs:149-152 numh and 154-156 positive. *)
Definition number_numh (m : matter) : R bytes := let* n := number_num m in Ok (to_hex n).
Definition number_positive (m : matter) : R bool := let* n := number_num m in Ok (0 <? n).

(** ** Seqner *)
(** seqner.rs:26-55 new. *)
Definition seqner_new (sn : option N) (snh code raw qb64b qb64 qb2 : option bytes) : R matter :=
  let code := or_else code (s! "0A") in
  let* raw :=
    if is_none raw && is_none qb64b && is_none qb64 && is_none qb2 then
      let* sn := match sn with
                 | Some n => Ok n
                 | None => match snh with Some h => u128_from_hex h | None => Ok 0 end
                 end in
      Ok (Some (be_bytes 16 sn))
    else Ok raw in
  let* m := matter_new (Some code) raw qb64b qb64 qb2 in
  let* _u := validate [s! "0A"] (m_code m) in
  Ok m.
(** seqner.rs:81-83 sn and 85-87 snh. *)
Definition seqner_sn (m : matter) : R N := let* b := slice_bytes (m_raw m) 0 16 in Ok (be_val b).
Definition seqner_snh (m : matter) : R bytes := let* n := seqner_sn m in Ok (to_hex n).

(** ** Dater *)
(** [str::replace(char, char)] for single-byte characters. *)
Definition replace1 (a b : byte) (s : bytes) : bytes := map (fun c => if Byte.eqb c a then b else c) s.
(** dater.rs:25-27 iso_8601_to_b64 and 29-31 b64_to_iso_8601. *)
Definition iso_8601_to_b64 (dts : bytes) : bytes := replace1 x2b x70 (replace1 x2e x64 (replace1 x3a x63 dts)).
Definition b64_to_iso_8601 (dts : bytes) : bytes := replace1 x70 x2b (replace1 x64 x2e (replace1 x63 x3a dts)).

(** dater.rs:44-64 new. [now] is the current time already formatted (33-36). *)
Definition dater_new (now : bytes) (dts code raw qb64b qb64 qb2 : option bytes) : R matter :=
  let code := Some (or_else code (s! "1AAG")) in
  let* m :=
    if is_none raw && is_none qb64b && is_none qb64 && is_none qb2 then
      let b64 := iso_8601_to_b64 (or_else dts now) in
      matter_new code raw qb64b (Some (s! "1AAG" ++ b64)) qb2
    else matter_new code raw qb64b qb64 qb2 in
  let* _u := validate [s! "1AAG"] (m_code m) in
  Ok m.
(** dater.rs:86-90 dts. *)
Definition dater_dts (m : matter) : R bytes :=
  let* z := sizage_of (m_code m) in
  let* t := infil m in
  let* r := from_str t (hs z) in
  Ok (b64_to_iso_8601 r).

(** ** Bexter *)
(** bexter.rs:54-62 Codex::has_code. *)
Definition bexter_codes : list bytes := [s! "4A"; s! "5A"; s! "6A"; s! "7AAA"; s! "8AAA"; s! "9AAA"].
(** util.rs:3 REB64_STRING: every character is a base64url character. *)
Definition reb64 (s : bytes) : bool := is_b64s s.
(** bexter.rs:74-80 rawify. *)
Definition rawify (bext : bytes) : R bytes :=
  let ts := len bext mod 4 in
  let ws := (4 - ts) mod 4 in
  let ls := (3 - ts) mod 3 in
  let base := repeat x41 (N.to_nat ws) ++ bext in
  let* paw := decode base in
  from_bytes paw ls.
(** bexter.rs:14-28 bext. *)
Definition bext_of (m : matter) : R bytes :=
  let* z := sizage_of (m_code m) in
  let bext := encode (zeros (ls z) ++ m_raw m) in
  let* ws :=
    if ls z =? 0 then
      match bext with
      | [] => Ok 0
      | _ => let* f := slice_str bext 0 1 in Ok (if beq f (s! "A") then 1 else 0)
      end
    else Ok ((ls z + 1) mod 4) in
  from_str bext ws.
(** bexter.rs:83-119 new. *)
Definition bexter_new (bext code raw qb64b qb64 qb2 : option bytes) : R matter :=
  let code := or_else code (s! "4A") in
  let* m :=
    if is_none bext && is_none raw && is_none qb64b && is_none qb64 && is_none qb2 then Err EEmptyMaterial
    else
      match bext with
      | Some b =>
        if negb (reb64 b) then Err EValue
        else let* raw := rawify b in matter_new (Some code) (Some raw) None None None
      | None => matter_new (Some code) raw qb64b qb64 qb2
      end in
  let* _u := validate bexter_codes (m_code m) in
  Ok m.

(** ** Keys and signatures *)
(** verfer.rs:18-35 validate_code, 38-49 new. *)
Definition verfer_codes : list bytes := [s! "B"; s! "D"; s! "1AAA"; s! "1AAB"; s! "1AAI"; s! "1AAJ"].
Definition verfer_new (code raw qb64b qb64 qb2 : option bytes) : R matter :=
  let code := or_else code (s! "B") in
  let* m := matter_new (Some code) raw qb64b qb64 qb2 in
  let* _u := validate verfer_codes (m_code m) in
  Ok m.

(** cigar.rs:24-37 validate_code, 40-54 new: the signature with the key attached to it (the default key when none is given). *)
Definition default_verfer : matter := Mt (s! "D") 0 [].
Definition cigar_codes : list bytes := [s! "0B"; s! "0C"; s! "0I"].
Definition cigar_new (verfer : option matter) (code raw qb64b qb64 qb2 : option bytes) : R (matter * matter) :=
  let* m := matter_new code raw qb64b qb64 qb2 in
  let* _u := validate cigar_codes (m_code m) in
  Ok (m, or_else verfer default_verfer).

(** siger.rs:26-51 validate_code, 54-71 new. *)
Definition siger_codes : list bytes :=
  [s! "A"; s! "B"; s! "C"; s! "D"; s! "E"; s! "F"; s! "2A"; s! "2B"; s! "2C"; s! "2D"; s! "2E"; s! "2F"].
Definition siger_new (verfer : option matter) (index ondex : option N) (code raw qb64b qb64 qb2 : option bytes) : R (indexer * matter) :=
  let* x := indexer_new index ondex code raw qb64b qb64 qb2 in
  let* _u := validate siger_codes (i_code x) in
  Ok (x, or_else verfer default_verfer).

(** ** Salter *)
(** salter.rs:36-60 new; [random] are the sixteen bytes drawn when no material is given. The tier is the second component. *)
Definition salter_new (random : bytes) (tier code raw qb64b qb64 qb2 : option bytes) : R (matter * bytes) :=
  let code := or_else code (s! "0A") in
  let* _u := validate [s! "0A"] code in
  let* m :=
    if is_none raw && is_none qb64b && is_none qb64 && is_none qb2 then matter_new (Some code) (Some random) None None None
    else matter_new (Some code) raw qb64b qb64 qb2 in
  Ok (m, or_else tier (s! "low")).
