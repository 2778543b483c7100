(** Vocabulary of the statements about texts that cannot be cut: positions inside characters and announced lengths, independent of the model's internals. *)
From Coq Require Import String.
From Coq Require Import NArith List Bool.
From Verif Require Import Base B64 Spec SpecIndexer.
Import ListNotations.
Open Scope N_scope.

(** Position [k] of a text is inside a character: the byte there continues a character begun before. *)
Definition inside (s : bytes) (k : N) : Prop :=
  exists c, nth_error s (N.to_nat k) = Some c /\ 128 <= b2n c <= 191.

(** The number of characters that the beginning of a text announces for the whole primitive. *)
Inductive announced (s : bytes) : N -> Prop :=
| announced_fixed code n : In (code, n) fixed_codes -> prefix code s -> announced s ((6 * len code + zero_bits code + 8 * n) / 6)
| announced_variable code v : In code (small_codes ++ large_codes) -> prefix code s -> code_chars code <= len s ->
    base64_number 0 (take (code_chars code - len code) (drop (len code) s)) = Some v -> announced s (code_chars code + 4 * v).

(** Heads of material whose code demands two lead bytes, with a single quadlet. *)
Definition short_lead_heads : list bytes := [s! "3AAA"; s! "6AAB"; s! "6BAB"; s! "9AAAAAAB"; s! "9AABAAAB"].

(** Indexed codes: characters of the index, of the other index and of the whole text (src/cesr/core/indexer/tables.rs:62-100); for the variable-size code see below. *)
Definition indexed_texts : list (bytes * (N * N * N)) :=
  map (fun e => let '(code, (n, i, o)) := e in (code, (i, o, (6 * (len code + i + o) + sig_zero_bits code + 8 * n) / 6))) sig_codes ++
  [(s! "1z", (1, 1, 76)); (s! "4z", (3, 3, 80))].
(** The characters of the index and of the other index, for all codes. *)
Definition index_chars : list (bytes * (N * N)) := (s! "0z", (2, 0)) :: map (fun e => let '(code, (i, o, n)) := e in (code, (i, o))) indexed_texts.

(** The number of characters that the beginning of the text of an indexed primitive announces, its indices being well formed. *)
Inductive indexed_announced (s : bytes) : N -> Prop :=
| indexed_fixed code i o n v w : In (code, (i, o, n)) indexed_texts -> prefix code s -> len code + i + o <= len s ->
    base64_number 0 (take i (drop (len code) s)) = Some v -> base64_number 0 (take o (drop (len code + i) s)) = Some w ->
    (In code current_codes -> w = 0) -> indexed_announced s n
| indexed_variable v : prefix (s! "0z") s -> 4 <= len s -> base64_number 0 (take 2 (drop 2 s)) = Some v -> indexed_announced s (4 + 4 * v).
