(** Identifier prefixes: src/prefexing/prefixer.rs. The digest functions are a parameter, as in [Saider]. *)
From Coq Require Import String.
From Coq Require Import NArith Bool List.
From Verif Require Import Base Tables Matter Prims Json Common Saider Diger.
Import ListNotations.
Open Scope N_scope.

(** prefixer.rs:28-55 validate_code. *)
Definition basic_codes : list bytes := [s! "B"; s! "1AAA"; s! "1AAI"].
Definition rotating_codes : list bytes := [s! "D"; s! "1AAB"; s! "1AAJ"].
Definition prefix_codes : list bytes := basic_codes ++ rotating_codes ++ hash_codes.

(** prefixer.rs:58, 328 ILKS, common.rs:51-64. *)
Definition inceptions : list bytes := [s! "icp"; s! "dip"; s! "vcp"].

(** prefixer.rs:91-111 and 135-154: the key a basic prefix is made of. *)
Definition only_key (ked : value) : R matter :=
  let* map := to_map ked in
  if contains_key (s! "k") map then
    let* ks := index_str ked (s! "k") in
    let* keys := to_vec ks in
    match keys with
    | [k] => let* k := to_string k in verfer_new None None None (Some k) None
    | _ => Err EDerivation
    end
  else Err EDerivation.

(** prefixer.rs:117-130: one of the fields 'n', 'b' and 'a', which may be missing or the empty text. *)
Definition unset (ked : value) (label : bytes) : R unit :=
  let* map := to_map ked in
  if contains_key label map then
    let* x := index_str ked label in
    let* s := to_string x in
    match s with [] => Ok tt | _ => Err EDerivation end
  else Ok tt.

(** prefixer.rs:91-133 derive_nontransferable. *)
Definition derive_nontransferable (ked : value) (code : bytes) : R (bytes * bytes) :=
  let* verfer := only_key ked in
  if negb (beq (m_code verfer) code) then Err EDerivation
  else
    let* _u := unset ked (s! "n") in
    let* _u := unset ked (s! "b") in
    let* _u := unset ked (s! "a") in
    Ok (m_raw verfer, m_code verfer).

(** prefixer.rs:135-161 derive_transferable. *)
Definition derive_transferable (ked : value) (code : bytes) : R (bytes * bytes) :=
  let* verfer := only_key ked in
  if negb (beq (m_code verfer) code) then Err EDerivation
  else Ok (m_raw verfer, m_code verfer).

(** prefixer.rs:163-179 derive_digest. *)
Definition derive_digest (hash : bytes -> bytes -> bytes) (ked : value) (code : bytes) : R (bytes * bytes) :=
  let* szg := sizage_of code in
  let* dummy := from_utf8 (repeat x23 (N.to_nat (fs szg))) in
  let* ked := set_str ked (s! "i") (VStr dummy) in
  let* ked := set_str ked (s! "d") (VStr dummy) in
  let* result := sizeify ked None in
  let* dig := digest hash code (z_raw result) in
  Ok (dig, code).

(** prefixer.rs:57-89 derive. *)
Definition derive (hash : bytes -> bytes -> bytes) (ked : value) (code : bytes) : R (bytes * bytes) :=
  let* t := index_str ked (s! "t") in
  let* ilk := to_string t in
  if negb (has_code inceptions ilk) then Err EValue
  else if has_code basic_codes code then derive_nontransferable ked code
  else if has_code rotating_codes code then derive_transferable ked code
  else if has_code hash_codes code then derive_digest hash ked code
  else Err EUnexpectedCode.

(** prefixer.rs:198-201, 231-234, 246-250: the prefix field, looked at when [prefixed] is set. *)
Definition prefix_field (ked : value) (map : list (bytes * value)) (pre : bytes) (prefixed : bool) : R bool :=
  if prefixed then
    if negb (contains_key (s! "i") map) then Ok false
    else
      let* x := index_str ked (s! "i") in
      let* s := to_string x in
      Ok (beq s pre)
  else Ok true.

(** prefixer.rs:181-196 and 219-229: the only key is the prefix. *)
Definition key_field (ked : value) (map : list (bytes * value)) (pre : bytes) : R bool :=
  if negb (contains_key (s! "k") map) then Ok false
  else
    let* ks := index_str ked (s! "k") in
    let* keys := to_vec ks in
    match keys with
    | [k] => let* s := to_string k in Ok (beq s pre)
    | _ => Ok false
    end.

(** prefixer.rs:181-216 verify_nontransferable. *)
Definition verify_nontransferable (ked : value) (pre : bytes) (prefixed : bool) : R bool :=
  let* map := to_map ked in
  let* a := key_field ked map pre in
  if negb a then Ok false
  else
    let* b := prefix_field ked map pre prefixed in
    if negb b then Ok false
    else if contains_key (s! "n") map then
      let* n := index_str ked (s! "n") in
      match n with
      | VArr (_ :: _) => Ok false
      | VStr (_ :: _) => Ok false
      | _ => Ok true
      end
    else Ok true.

(** prefixer.rs:218-240 verify_transferable. *)
Definition verify_transferable (ked : value) (pre : bytes) (prefixed : bool) : R bool :=
  let* map := to_map ked in
  let* a := key_field ked map pre in
  if negb a then Ok false
  else prefix_field ked map pre prefixed.

(** prefixer.rs:242-257 verify_digest. *)
Definition verify_digest (hash : bytes -> bytes -> bytes) (ked : value) (pre : bytes) (prefixed : bool) (code : bytes) : R bool :=
  let* rc := derive_digest hash ked code in
  let* crymat := diger_new hash None (Some (snd rc)) (Some (fst rc)) None None None in
  let* q := infil crymat in
  if negb (beq q pre) then Ok false
  else
    let* map := to_map ked in
    prefix_field ked map pre prefixed.

(** prefixer.rs:260-313 new. The code of a parsed prefix is not validated, only the one given (or "B"). *)
Definition prefixer_new (hash : bytes -> bytes -> bytes) (ked : option value) (allows : option (list bytes))
    (code raw qb64b qb64 qb2 : option bytes) : R matter :=
  match raw, qb64b, qb64, qb2 with
  | None, None, None, None =>
    match ked with
    | None => Err EValidation
    | Some ked =>
      let* code :=
        match code with
        | Some code => Ok code
        | None =>
          let* map := to_map ked in
          if negb (contains_key (s! "i") map) then Err EValidation
          else
            let* x := index_str ked (s! "i") in
            let* s := to_string x in
            let* m := matter_new None None None (Some s) None in
            Ok (m_code m)
        end in
      let* _u := validate prefix_codes code in
      let allows := or_else allows [] in
      if negb (match allows with [] => true | _ => has_code allows code end) then Err EUnexpectedCode
      else
        let* rc := derive hash ked code in
        matter_new (Some (snd rc)) (Some (fst rc)) None None None
    end
  | _, _, _, _ =>
    let* _u := validate prefix_codes (or_else code (s! "B")) in
    matter_new code raw qb64b qb64 qb2
  end.

(** prefixer.rs:335-364 verify. *)
Definition prefixer_verify (hash : bytes -> bytes -> bytes) (self : matter) (ked : value) (prefixed : option bool) : R bool :=
  let prefixed := or_else prefixed false in
  let* t := index_str ked (s! "t") in
  let* ilk := to_string t in
  if negb (has_code inceptions ilk) then Err EValue
  else if has_code basic_codes (m_code self) then
    let* q := infil self in verify_nontransferable ked q prefixed
  else if has_code rotating_codes (m_code self) then
    let* q := infil self in verify_transferable ked q prefixed
  else if has_code hash_codes (m_code self) then
    let* q := infil self in verify_digest hash ked q prefixed (m_code self)
  else Err EUnexpectedCode.
