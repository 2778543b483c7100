(** Vocabulary of the statements about indexed signatures, independent of the model's internals. *)
From Coq Require Import String.
From Coq Require Import NArith List Bool.
From Verif Require Import Base B64 Indexer.
Import ListNotations.
Open Scope N_scope.

(** Indexed signature codes: raw bytes, characters holding the index, characters holding the other index
    (src/cesr/core/indexer/tables.rs:10-60 lists the codes; sizes from the CESR indexed code table). *)
Definition sig_codes : list (bytes * (N * N * N)) :=
  [ (s! "A", (64, 1, 0)); (s! "B", (64, 1, 0)); (s! "C", (64, 1, 0)); (s! "D", (64, 1, 0)); (s! "E", (64, 1, 0)); (s! "F", (64, 1, 0));
    (s! "0A", (114, 1, 1)); (s! "0B", (114, 1, 1));
    (s! "2A", (64, 2, 2)); (s! "2B", (64, 2, 2)); (s! "2C", (64, 2, 2)); (s! "2D", (64, 2, 2)); (s! "2E", (64, 2, 2)); (s! "2F", (64, 2, 2));
    (s! "3A", (114, 3, 3)); (s! "3B", (114, 3, 3)) ].

(** Codes for signatures indexed into the current key list only. *)
Definition current_codes : list bytes := [s! "B"; s! "D"; s! "F"; s! "0B"; s! "2B"; s! "2D"; s! "2F"; s! "3B"].

(** The big Ed448 codes, whose binary form cannot be printed. *)
Definition big448_codes : list bytes := [s! "3A"; s! "3B"].

(** Built by [new_with_code_and_raw] from a signature code; for codes without room for another index, the other index asked for (if
    any) is the index. *)
Definition sig_built (x : indexer) : Prop :=
  exists code n d e raw index ondex,
    In (code, (n, d, e)) sig_codes /\ (e = 0 -> ondex = None \/ ondex = Some index) /\
    indexer_of_code_raw code raw index ondex = Ok x.

(** Number of zero bits between the code part and the material: four when the code part is half a quadlet over. *)
Definition sig_zero_bits (code : bytes) : N :=
  if existsb (beq code) [s! "1z"; s! "4z"] then 8
  else if existsb (beq code) [s! "0A"; s! "0B"; s! "3A"; s! "3B"; s! "0z"] then 0 else 4.
(** Characters of the code with both indices. *)
Definition sig_code_chars (code : bytes) : N :=
  match code with
  | [_] => 2
  | x30 :: _ => 4
  | x31 :: _ => 4
  | x32 :: _ => 6
  | _ => 8
  end.
