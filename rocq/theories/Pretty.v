(** The readable form of events: sadder.rs pretty, with the pretty printer of the crate serde_json. Definitions only. *)
From Coq Require Import String.
From Coq Require Import NArith ZArith Bool List.
From Verif Require Import Base Prims Json Sadder.
Import ListNotations.
Open Scope N_scope.

(** serde_json PrettyFormatter: a new line indented by two spaces for each open bracket. *)
Definition newline (n : nat) : bytes := x0a :: concat (repeat (s! "  ") n).
(** serde_json::to_string_pretty (Serializer and PrettyFormatter): empty arrays and objects stay on one line. Integers are printed by itoa, floats
    (already represented by their printed form) by ryu. *)
Fixpoint jpretty (n : nat) (j : jval) : bytes :=
  match j with
  | JNull => s! "null"
  | JBool b => if b then s! "true" else s! "false"
  | JPos k => dec_text k
  | JNeg k => x2d :: dec_text k
  | JFloat t => t
  | JStr s => json_string s
  | JArr [] => s! "[]"
  | JArr l => s! "[" ++ newline (S n) ++ join (s! "," ++ newline (S n)) (map (jpretty (S n)) l) ++ newline n ++ s! "]"
  | JObj [] => s! "{}"
  | JObj m =>
    s! "{" ++ newline (S n) ++ join (s! "," ++ newline (S n)) (map (fun kv => json_string (fst kv) ++ s! ": " ++ jpretty (S n) (snd kv)) m) ++
    newline n ++ s! "}"
  end.

(** sadder.rs:198-212 pretty. The serialisation of a parsed document does not fail. *)
Definition pretty (canon : bytes -> option bytes) (s : sadder) (size : option N) : R bytes :=
  let* v := pjson canon (to_json (d_ked s)) in
  let t := jpretty 0 v in
  let size := match size with Some n => n | None => 1024 end in
  if size <? len t then slice_str t 0 size else Ok t.
