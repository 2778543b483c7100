(** Events and credentials: src/cesr/core/sadder.rs, serder.rs and creder.rs. *)
From Coq Require Import String.
From Coq Require Import NArith ZArith Bool List.
From Verif Require Import Base Tables Matter Prims Json Tholder Common Saider Diger.
Import ListNotations.
Open Scope N_scope.

(** The fields of Serder (serder.rs:16-26) and of Creder (creder.rs:12-22); the two structures are the same. *)
Record sadder := Sd { d_code : bytes; d_raw : bytes; d_ked : value; d_ident : bytes; d_kind : bytes; d_size : N; d_version : version; d_saider : matter }.

(** Saider::new with a qb64 only (saider.rs:108-112); no digest is taken on this path. *)
Definition said_of_qb64 (q : bytes) : R matter := said_new (fun _ _ => []) None None None [] None None None (Some q) None.

(** sadder.rs:27-46 inhale. *)
Definition inhale (canon : bytes -> option bytes) (raw : bytes) : R (value * vinfo) :=
  let* result := sniff raw in
  if negb (version_eqb (vi_version result) current_version) then Err EValue
  else
    let* ked := loads canon raw (Some (vi_size result)) (Some (vi_kind result)) in
    Ok (ked, result).

(** sadder.rs:100-128 populate_from_raw. *)
Definition populate_from_raw (canon : bytes -> option bytes) (code raw : bytes) : R sadder :=
  let* r := inhale canon raw in
  let '(ked, i) := r in
  let* own := slice_bytes raw 0 (vi_size i) in
  let* d := index_str ked (s! "d") in
  let* q := to_string d in
  let* saider := said_of_qb64 q in
  if negb (beq code (m_code saider)) then Err EValidation
  else Ok (Sd code own ked (vi_ident i) (vi_kind i) (vi_size i) (vi_version i) saider).

(** sadder.rs:130-158 populate_from_ked and (with the kind given) 160-188 populate_from_kind_and_self; sadder.rs:48-57 exhale is [sizeify]. *)
Definition populate_from_ked (code : bytes) (ked : value) (kind : option bytes) : R sadder :=
  let* z := sizeify ked kind in
  let* d := index_str (z_ked z) (s! "d") in
  let* q := to_string d in
  let* saider := said_of_qb64 q in
  if negb (beq code (m_code saider)) then Err EValidation
  else Ok (Sd code (z_raw z) (z_ked z) (z_ident z) (z_kind z) (as_u32 (len (z_raw z))) (z_version z) saider).

(** sadder.rs:78-98 new. *)
Definition sadder_new (canon : bytes -> option bytes) (code raw kind : option bytes) (ked : option value) (sad : option sadder) : R sadder :=
  let code := or_else code (s! "E") in
  match raw, ked, sad with
  | Some raw, _, _ => populate_from_raw canon code raw
  | None, Some ked, _ => populate_from_ked code ked kind
  | None, None, Some sad => Ok sad
  | None, None, None => Err EValue
  end.

(** serder.rs:28-34 validate_ident, 37-49 new; creder.rs:24-30 and 33-45 with the other protocol and error. *)
Definition serder_new (canon : bytes -> option bytes) (code raw kind : option bytes) (ked : option value) (sad : option sadder) : R sadder :=
  let* s := sadder_new canon (Some (or_else code (s! "E"))) raw kind ked sad in
  if negb (beq (d_ident s) (s! "KERI")) then Err EValidation else Ok s.
Definition creder_new (canon : bytes -> option bytes) (code raw kind : option bytes) (ked : option value) (sad : option sadder) : R sadder :=
  let* s := sadder_new canon (Some (or_else code (s! "E"))) raw kind ked sad in
  if negb (beq (d_ident s) (s! "ACDC")) then Err EValue else Ok s.

(** sadder.rs:190-192 said. *)
Definition sad_said (s : sadder) : R bytes := infil (d_saider s).

(** The loops of serder.rs:66-70, 83-87, 99-101: one primitive for each text. *)
Fixpoint each {A} (f : value -> R A) (l : list value) : R (list A) :=
  match l with
  | [] => Ok []
  | x :: r => let* y := f x in let* ys := each f r in Ok (y :: ys)
  end.
(** serder.rs:59-74 verfers: a field that is not an array counts as absent. *)
Definition verfer_of (v : value) : R matter := let* t := to_string v in verfer_new None None None (Some t) None.
Definition serder_verfers (s : sadder) : R (list matter) :=
  let* map := to_map (d_ked s) in
  if contains_key (s! "k") map then
    let* v := index_str (d_ked s) (s! "k") in
    match to_vec v with Ok l => each verfer_of l | Err _ => Ok [] | Panic => Panic end
  else Ok [].
(** serder.rs:76-91 digers. *)
Definition diger_of (v : value) : R matter := let* t := to_string v in diger_new (fun _ _ => []) None None None None (Some t) None.
Definition serder_digers (s : sadder) : R (list matter) :=
  let* map := to_map (d_ked s) in
  if contains_key (s! "n") map then
    let* v := index_str (d_ked s) (s! "n") in
    match to_vec v with Ok l => each diger_of l | Err _ => Ok [] | Panic => Panic end
  else Ok [].
(** serder.rs:93-105 werfers. *)
Definition serder_werfers (s : sadder) : R (list matter) :=
  let* map := to_map (d_ked s) in
  if contains_key (s! "b") map then
    let* v := index_str (d_ked s) (s! "b") in
    let* l := to_vec v in
    each verfer_of l
  else Ok [].
(** serder.rs:107-118 tholder, 120-131 ntholder. *)
Definition threshold_at (canon : bytes -> option bytes) (label : bytes) (s : sadder) : R (option tholder) :=
  let* map := to_map (d_ked s) in
  if contains_key label map then
    let* v := index_str (d_ked s) label in
    let* t := tholder_new canon None None (Some v) in
    Ok (Some t)
  else Ok None.
Definition serder_tholder (canon : bytes -> option bytes) (s : sadder) : R (option tholder) := threshold_at canon (s! "kt") s.
Definition serder_ntholder (canon : bytes -> option bytes) (s : sadder) : R (option tholder) := threshold_at canon (s! "nt") s.
(** serder.rs:133-141 sner, sn. *)
Definition serder_sner (s : sadder) : R matter :=
  let* v := index_str (d_ked s) (s! "s") in
  let* t := to_string v in
  number_new None (Some t) None None None None None.
Definition serder_sn (s : sadder) : R N := let* m := serder_sner s in number_num m.
(** serder.rs:143-172 fner, _fn: the text is read as qb64. *)
Definition serder_fner (s : sadder) : R (option matter) :=
  let* map := to_map (d_ked s) in
  if contains_key (s! "f") map then
    let* v := index_str (d_ked s) (s! "f") in
    let* t := to_string v in
    let* m := number_new None None None None None (Some t) None in
    Ok (Some m)
  else Ok None.
Definition serder_fn (s : sadder) : R N :=
  let* o := serder_fner s in
  match o with Some m => number_num m | None => Err EValidation end.
(** serder.rs:174-177 pre; 183-190 est. *)
Definition serder_pre (s : sadder) : R bytes := let* v := index_str (d_ked s) (s! "i") in to_string v.
Definition serder_est (s : sadder) : R bool :=
  let* v := index_str (d_ked s) (s! "t") in
  let* ilk := to_string v in
  Ok (has_code [s! "icp"; s! "rot"; s! "dip"; s! "drt"] ilk).

(** creder.rs:55-89 issuer, schema, subject, status, chains. *)
Definition creder_issuer (s : sadder) : R bytes := let* v := index_str (d_ked s) (s! "i") in to_string v.
Definition creder_schema (s : sadder) : R bytes := let* v := index_str (d_ked s) (s! "s") in to_string v.
Definition creder_subject (s : sadder) : R value := index_str (d_ked s) (s! "a").
Definition creder_status (s : sadder) : R (option bytes) :=
  let* map := to_map (d_ked s) in
  match assoc (s! "ri") map with
  | Some v => let* t := to_string v in Ok (Some t)
  | None => Ok None
  end.
Definition creder_chains (s : sadder) : R value :=
  let* map := to_map (d_ked s) in
  Ok (match assoc (s! "e") map with Some v => v | None => VObj [] end).
