(** Model of the schemas of credentials, sample/keri/acdc/schemer.rs. The validator of the crate boon is a pair of parameters: whether a schema compiles under a name, and
    whether a JSON value conforms to a compiled schema. The two global caches are values handed through; a call that fails leaves them as they were. Definitions only. *)
From Coq Require Import String.
From Coq Require Import NArith ZArith Bool List.
From Verif Require Import Base Util Matter Prims Json Common Saider Sadder.
Import ListNotations.
Open Scope N_scope.

(** 149-155 Schemer. *)
Record schemer := Sm { sm_raw : bytes; sm_sed : value; sm_kind : bytes; sm_saider : matter }.
(** 14-17 SchemaCache: the schemas compiled, by identifier. The arena of boon that holds them only grows and an index into it keeps its meaning; so the schema itself stands for it. *)
Definition compiled := list (bytes * jval).
(** 103-105 SchemerCache. *)
Definition known := list (bytes * schemer).

Section Schemas.
Variable canon : bytes -> option bytes.
Variable hash : bytes -> bytes -> bytes.
Variable compiles : bytes -> jval -> bool.
Variable conforms : bytes -> jval -> jval -> bool.

(** 36-68 add. *)
Definition schema_add (c : compiled) (key schema : bytes) (sed : value) : R compiled :=
  match assoc key c with
  | Some _ => Ok c
  | None =>
    let* saider := said_of_qb64 key in
    let* ok := said_verify hash saider sed (Some false) (Some false) (Some (s! "JSON")) (Some (s! "$id")) [] in
    if negb ok then Err EVerification
    else
      let* j := pjson canon schema in
      if compiles key j then Ok ((key, j) :: c) else Err EValue
  end.
(** 70-82 validate. *)
Definition schema_validate (c : compiled) (uri instance : bytes) : R bool :=
  match assoc uri c with
  | Some j => let* i := pjson canon instance in Ok (conforms uri j i)
  | None => Ok false
  end.

(** 181-200 inhale. *)
Definition schema_inhale (raw : bytes) : R (value * bytes * matter) :=
  let* sed := value_of_text canon raw in
  let* map := to_map sed in
  match assoc (s! "$id") map with
  | None => Err EValidation
  | Some v =>
    let* said := to_string v in
    let* saider := said_of_qb64 said in
    let* ok := said_verify hash saider sed (Some true) None (Some (s! "JSON")) (Some (s! "$id")) [] in
    if negb ok then Err EValidation else Ok (sed, s! "JSON", saider)
  end.
(** 202-220 exhale. *)
Definition schema_exhale (sed : value) (code : bytes) (kind : option bytes) : R (bytes * value * bytes * matter) :=
  let kind := or_else kind (s! "JSON") in
  if negb (beq kind (s! "JSON")) then Err EValue
  else
    let* saider := said_new hash (Some sed) (Some (s! "$id")) None [] (Some code) None None None None in
    let* q := infil saider in
    let* sed := set_str sed (s! "$id") (VStr q) in
    Ok (to_json sed, sed, kind, saider).
(** 159-179 new: the schema and the cache after it. *)
Definition schemer_new (c : compiled) (raw : option bytes) (sed : option value) (kind code : option bytes) : R (schemer * compiled) :=
  let code := or_else code (s! "E") in
  let* x :=
    match raw, sed with
    | Some raw, _ => let* x := schema_inhale raw in let '(sed, kind, saider) := x in Ok (Sm raw sed kind saider)
    | None, Some sed => let* x := schema_exhale sed code kind in let '(raw, sed, kind, saider) := x in Ok (Sm raw sed kind saider)
    | None, None => Err EValue
    end in
  let* key := infil (sm_saider x) in
  let* text := from_utf8 (sm_raw x) in
  let* c := schema_add c key text (sm_sed x) in
  Ok (x, c).
(** 242-244 verify. *)
Definition schemer_verify (c : compiled) (x : schemer) (raw : bytes) : R bool :=
  let* key := infil (sm_saider x) in
  let* text := from_utf8 raw in
  schema_validate c key text.

(** 117-123 prime. *)
Fixpoint cache_prime (k : known) (l : list schemer) : R known :=
  match l with
  | [] => Ok k
  | x :: l => let* said := infil (sm_saider x) in cache_prime ((said, x) :: k) l
  end.
(** 125-127 get: indexing a map with a missing key panics. *)
Definition cache_get (k : known) (said : bytes) : R schemer := match assoc said k with Some x => Ok x | None => Panic end.
(** 129-131 verify. *)
Definition cache_verify (c : compiled) (k : known) (said json : bytes) : R bool := let* x := cache_get k said in schemer_verify c x json.
End Schemas.
