(** Self-addressing identifiers: src/cesr/core/saider.rs, with src/cesr/crypto/hash.rs. The digest functions are a parameter [hash]: code and bytes
    to digest. *)
From Coq Require Import String.
From Coq Require Import NArith ZArith Bool List.
From Verif Require Import Base Tables Matter Prims Json Common.
Import ListNotations.
Open Scope N_scope.

(** hash.rs:8-57 digest: the nine digest codes, anything else is an error. *)
Definition hash_codes : list bytes := [s! "E"; s! "0D"; s! "F"; s! "0E"; s! "G"; s! "H"; s! "0F"; s! "I"; s! "0G"].
Definition digest (hash : bytes -> bytes -> bytes) (code ser : bytes) : R bytes :=
  if has_code hash_codes code then Ok (hash code ser) else Err EUnexpectedCode.

(** [IndexMap::remove] (indexmap 1.x): swap_remove, the last entry takes the place of the removed one. *)
Fixpoint swap_remove {A} (k : bytes) (m : list (bytes * A)) : list (bytes * A) :=
  match m with
  | [] => []
  | (k', v) :: r =>
    if beq k' k then match r with [] => [] | x :: _ => last r x :: removelast r end
    else (k', v) :: swap_remove k r
  end.

(** saider.rs:20-38 validate_code. *)
Definition said_codes : list bytes := [s! "E"; s! "F"; s! "G"; s! "H"; s! "I"; s! "0D"; s! "0E"; s! "0F"; s! "0G"].

(** saider.rs:40-49 serialize. *)
Definition said_serialize (sad : value) (kind : option bytes) : R bytes :=
  let* map := to_map sad in
  let* knd :=
    if contains_key (s! "v") map then
      let* v := index_str sad (s! "v") in
      let* vs := to_string v in
      let* r := deversify vs in
      Ok (vi_kind r)
    else Ok (s! "JSON") in
  let kind := match kind with Some k => Some k | None => Some knd end in
  dumps sad kind.

(** saider.rs:51-89 derive. *)
Definition said_derive (hash : bytes -> bytes -> bytes) (sad : value) (code kind label : option bytes) (ignore : list bytes) : R (bytes * value) :=
  let label := or_else label (s! "d") in
  let code := or_else code (s! "E") in
  let* _u := validate said_codes code in
  let* szg := sizage_of code in
  let* dummy := from_utf8 (repeat x23 (N.to_nat (fs szg))) in
  let* sad := set_str sad label (VStr dummy) in
  let* map := to_map sad in
  let* ks :=
    if contains_key (s! "v") map then
      let* z := sizeify sad kind in
      Ok (Some (z_kind z), z_ked z)
    else Ok (kind, sad) in
  let '(kind, sad) := ks in
  let* map := to_map sad in
  let map := fold_left (fun map key => if contains_key key map then swap_remove key map else map) ignore map in
  let* cpa := said_serialize (VObj map) kind in
  let* dig := digest hash code cpa in
  Ok (dig, sad).

(** saider.rs:92-165 new. *)
Definition said_new (hash : bytes -> bytes -> bytes) (sad : option value) (label kind : option bytes) (ignore : list bytes)
    (code raw qb64b qb64 qb2 : option bytes) : R matter :=
  match raw, sad with
  | None, None =>
    let* m := matter_new code raw qb64b qb64 qb2 in
    let* _u := validate said_codes (m_code m) in
    Ok m
  | _, _ =>
    let label := or_else label (s! "d") in
    let* cr :=
      match code, raw with
      | Some code, Some raw =>
        let* _u := validate said_codes code in
        Ok (code, raw)
      | _, _ =>
        match sad with
        | None => Err EValidation
        | Some sad =>
          let* map := to_map sad in
          if negb (contains_key label map) then Err EValue
          else
            let* code :=
              match code with
              | Some code => Ok code
              | None =>
                let* x := index_str sad label in
                match to_string x with
                | Ok [] => Ok (s! "E")
                | Ok s => let* m := matter_new None None None (Some s) None in Ok (m_code m)
                | Err _ => Err EValidation
                | Panic => Panic
                end
              end in
            let* _u := validate said_codes code in
            let* d := said_derive hash sad (Some code) kind (Some label) ignore in
            Ok (code, fst d)
        end
      end in
    matter_new (Some (fst cr)) (Some (snd cr)) None None None
  end.

(** saider.rs:167-188 saidify. *)
Definition saidify (hash : bytes -> bytes -> bytes) (sad : value) (code kind label : option bytes) (ignore : list bytes) : R (matter * value) :=
  let code := or_else code (s! "E") in
  let label := or_else label (s! "d") in
  let* map := to_map sad in
  if negb (contains_key label map) then Err EValidation
  else
    let* d := said_derive hash sad (Some code) kind (Some label) ignore in
    let sad := snd d in
    let* saider := said_new hash (Some sad) (Some label) kind ignore (Some code) None None None None in
    let* q := infil saider in
    let* sad := set_str sad label (VStr q) in
    Ok (saider, sad).

(** saider.rs:190-241 verify. *)
Definition said_verify (hash : bytes -> bytes -> bytes) (self : matter) (sad : value) (prefixed versioned : option bool) (kind label : option bytes)
    (ignore : list bytes) : R bool :=
  let label := or_else label (s! "d") in
  let prefixed := or_else prefixed false in
  let versioned := or_else versioned true in
  match said_derive hash sad (Some (m_code self)) kind (Some label) ignore with
  | Panic => Panic
  | Err _ => Ok false
  | Ok (raw, dsad) =>
    match said_new hash None None None [] (Some (m_code self)) (Some raw) None None None with
    | Panic => Panic
    | Err _ => Ok false
    | Ok saider =>
      let* a := infil self in
      let* b := infil saider in
      if negb (beq a b) then Ok false
      else
        let* differ :=
          if versioned then
            let* map := to_map sad in
            if contains_key (s! "v") map then
              let* x := index_str sad (s! "v") in
              let* x := to_string x in
              let* y := index_str dsad (s! "v") in
              let* y := to_string y in
              Ok (negb (beq x y))
            else Ok false
          else Ok false in
        if differ then Ok false
        else
          let* differ :=
            if prefixed then
              let* x := index_str sad label in
              let* x := to_string x in
              let* q := infil self in
              Ok (negb (beq x q))
            else Ok false in
          Ok (negb differ)
    end
  end.
