(** The same events changed in place: the methods of src/cesr/core/sadder.rs that fill an existing event. *)
From Coq Require Import String.
From Coq Require Import NArith List Bool.
From Verif Require Import Base Matter Json Common Saider Sadder.
Import ListNotations.
Open Scope N_scope.

(** serder.rs:243-273 and creder.rs:140-170: the setters used below, one field each. *)
Definition with_content (e : sadder) (raw : bytes) (ked : value) (ident kind : bytes) (size : N) (ver : version) : sadder :=
  Sd (d_code e) raw ked ident kind size ver (d_saider e).
Definition with_saider (e : sadder) (m : matter) : sadder := Sd (d_code e) (d_raw e) (d_ked e) (d_ident e) (d_kind e) (d_size e) (d_version e) m.
Definition with_ked (e : sadder) (ked : value) : sadder := Sd (d_code e) (d_raw e) ked (d_ident e) (d_kind e) (d_size e) (d_version e) (d_saider e).
Definition with_code (e : sadder) (code : bytes) : sadder := Sd code (d_raw e) (d_ked e) (d_ident e) (d_kind e) (d_size e) (d_version e) (d_saider e).

(** A method on [&mut self]: the event afterwards and what the call returned. *)
Definition change : Type := sadder * R unit.

(** sadder.rs:109-125, 139-155 and 169-185: the data are already stored; the SAID is read from field d and stored, then its code is compared. *)
Definition settle (e : sadder) : change :=
  match (let* d := index_str (d_ked e) (s! "d") in let* q := to_string d in said_of_qb64 q) with
  | Err x => (e, Err x)
  | Panic => (e, Panic)
  | Ok m =>
    let e := with_saider e m in
    (e, if negb (beq (d_code e) (m_code (d_saider e))) then Err EValidation else Ok tt)
  end.

(** sadder.rs:100-128 populate_from_raw. *)
Definition raw_into (canon : bytes -> option bytes) (e : sadder) (raw : bytes) : change :=
  match inhale canon raw with
  | Err x => (e, Err x)
  | Panic => (e, Panic)
  | Ok (ked, i) =>
    match slice_bytes raw 0 (vi_size i) with
    | Err x => (e, Err x)
    | Panic => (e, Panic)
    | Ok own => settle (with_content e own ked (vi_ident i) (vi_kind i) (vi_size i) (vi_version i))
    end
  end.

(** sadder.rs:130-158 populate_from_ked. *)
Definition ked_into (e : sadder) (ked : value) (kind : option bytes) : change :=
  match sizeify ked kind with
  | Err x => (e, Err x)
  | Panic => (e, Panic)
  | Ok z => settle (with_content e (z_raw z) (z_ked z) (z_ident z) (z_kind z) (as_u32 (len (z_raw z))) (z_version z))
  end.

(** sadder.rs:160-188 populate_from_kind_and_self. *)
Definition kind_into (e : sadder) (kind : bytes) : change := ked_into e (d_ked e) (Some kind).
