(** Digests: src/cesr/core/diger.rs. The digest functions are a parameter, as in [Saider]. *)
From Coq Require Import String.
From Coq Require Import NArith Bool List.
From Verif Require Import Base Tables Matter Prims Saider.
Import ListNotations.
Open Scope N_scope.

(** diger.rs:38-56 validate_code. *)
Definition diger_codes : list bytes := [s! "E"; s! "0D"; s! "F"; s! "0E"; s! "G"; s! "H"; s! "0F"; s! "I"; s! "0G"].

(** diger.rs:59-81 new. A failed parse is forgotten when data to digest are given. *)
Definition diger_new (hash : bytes -> bytes -> bytes) (ser code raw qb64b qb64 qb2 : option bytes) : R matter :=
  match matter_new code raw qb64b qb64 qb2 with
  | Panic => Panic
  | Ok m => let* _u := validate diger_codes (m_code m) in Ok m
  | Err _ =>
    match ser with
    | Some ser =>
      let code := or_else code (s! "E") in
      let* _u := validate diger_codes code in
      let* dig := digest hash code ser in
      matter_new (Some code) (Some dig) None None None
    | None => Err EValidation
    end
  end.

(** diger.rs:103-106 verify. *)
Definition diger_verify (hash : bytes -> bytes -> bytes) (self : matter) (ser : bytes) : R bool :=
  let* dig := digest hash (m_code self) ser in
  Ok (beq dig (m_raw self)).

(** diger.rs:118-134 compare_dig. *)
Definition compare_dig (hash : bytes -> bytes -> bytes) (self : matter) (ser dig : bytes) : R bool :=
  let* q := infil self in
  if beq dig q then Ok true
  else
    let* diger := matter_new None None (Some dig) None None in
    if beq (m_code diger) (m_code self) then Ok false
    else
      let* a := diger_verify hash diger ser in
      if a then diger_verify hash self ser else Ok false.

(** diger.rs:136-151 compare_diger. *)
Definition compare_diger (hash : bytes -> bytes -> bytes) (self : matter) (ser : bytes) (diger : matter) : R bool :=
  let* d := infil diger in
  let* q := infil self in
  if beq d q then Ok true
  else if beq (m_code diger) (m_code self) then Ok false
  else
    let* a := diger_verify hash diger ser in
    if a then diger_verify hash self ser else Ok false.

(** diger.rs:108-116 compare. *)
Definition diger_compare (hash : bytes -> bytes -> bytes) (self : matter) (ser : bytes) (dig : option bytes) (diger : option matter) : R bool :=
  match dig, diger with
  | Some dig, _ => compare_dig hash self ser dig
  | None, Some diger => compare_diger hash self ser diger
  | None, None => Err EValue
  end.
