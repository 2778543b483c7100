(** Seals, messages with attachments and receipts: src/seal.rs, src/messaging.rs and src/receipting.rs. Definitions only. *)
From Coq Require Import String.
From Coq Require Import NArith ZArith Bool List.
From Verif Require Import Base Tables Matter Indexer Counter Prims Json Common Sadder.
Import ListNotations.
Open Scope N_scope.

(** seal.rs:6-12 Seal. *)
Record seal := Sl { sl_i : bytes; sl_s : bytes; sl_d : bytes; sl_last : bool }.
(** seal.rs:15-19 new. *)
Definition seal_new (i s d : bytes) (last : option bool) : seal := Sl i s d (or_else last false).
(** seal.rs:25-27 s. *)
Definition seal_sn (z : seal) : R bytes :=
  let* m := seqner_new None (Some (sl_s z)) None None None None None in
  infil m.

(** messaging.rs:48-50 and 57-60: the texts of the signatures one after the other. A signature is an indexed primitive and its verification key; only the first is
    printed. *)
Fixpoint siger_texts (sigers : list (indexer * matter)) : R bytes :=
  match sigers with
  | [] => Ok []
  | (x, _) :: r =>
    let* t := iinfil x in
    let* ts := siger_texts r in
    Ok (t ++ ts)
  end.
(** messaging.rs:43-50 and 54-60: a counter and the signatures. *)
Definition siger_group (code : bytes) (sigers : list (indexer * matter)) : R bytes :=
  let* c := counter_of_code_count code (as_u32 (len sigers)) in
  let* h := cinfil c in
  let* ts := siger_texts sigers in
  Ok (h ++ ts).
(** messaging.rs:29-41: the group header made from the seal. *)
Definition seal_header (z : seal) : R bytes :=
  if sl_last z then
    let* c := counter_of_code_count (s! "-H") 1 in
    let* h := cinfil c in
    Ok (h ++ sl_i z)
  else
    let* c := counter_of_code_count (s! "-F") 1 in
    let* h := cinfil c in
    let* sn := seal_sn z in
    Ok (h ++ sl_i z ++ sn ++ sl_d z).

(** messaging.rs:14-66 messagize. The non-indexed signatures are only tested for presence (messaging.rs:63 "todo: complete this"). *)
Definition messagize (serder : sadder) (sigers : option (list (indexer * matter))) (seal : option seal) (wigers : option (list (indexer * matter)))
    (cigars : option (list (matter * matter))) : R bytes :=
  let* message := from_utf8 (d_raw serder) in
  if is_none sigers && is_none wigers && is_none cigars then Err EValue
  else
    let* atc :=
      match sigers with
      | Some sigers =>
        let* h := match seal with Some z => seal_header z | None => Ok [] end in
        let* g := siger_group (s! "-A") sigers in
        Ok (h ++ g)
      | None => Ok []
      end in
    let* watc := match wigers with Some wigers => siger_group (s! "-B") wigers | None => Ok [] end in
    Ok (message ++ atc ++ watc).

(** receipting.rs:11-35 receipt. [canon] is how floats are read; it plays no role here. *)
Definition receipt (canon : bytes -> option bytes) (pre : bytes) (sn : N) (said : bytes) (ver : option version) (kind : option bytes) : R sadder :=
  let ver := or_else ver current_version in
  let kind := or_else kind (s! "JSON") in
  let* vs := versify None (Some ver) (Some kind) (Some 0) in
  let* sner := number_new (Some sn) None None None None None None in
  let* snh := number_numh sner in
  let ked := VObj [(s! "v", VStr vs); (s! "t", VStr (s! "rct")); (s! "d", VStr said); (s! "i", VStr pre); (s! "s", VStr snh)] in
  serder_new canon None None None (Some ked) None.
