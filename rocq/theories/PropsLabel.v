(** Exact versions of C23, C24, C26, C29 and C98 for indexed primitives. Theorem statements only; the proofs are in [LabelThms]. *)
From Coq Require Import String.
From Coq Require Import NArith ZArith QArith Bool List.
From Verif Require Import Base B64 Util Tables Matter Indexer State Spec SpecIndexer SpecLabel LabelThms BaseFacts.
Import ListNotations.
Open Scope N_scope.

(** Which parsed texts print again, and what they print: with a signature code or the variable code the text of what was parsed never
   panics, and prints exactly when the material did not end with the base64 padding sign. With a label code it panics exactly when there
   is no padding sign, prints exactly when there is one, and what it prints is then never the text that was read. *)
Theorem C29_parsed_and_printable :
  forall (s : bytes) (x : indexer) (f : N),
  iexfil s = Ok x -> ifull_size x = Ok f ->
  (~ In (i_code x) (map fst label_codes) ->
     iinfil x <> Panic /\ ((exists t, iinfil x = Ok t) <-> ~ padding_at s (f - 1))) /\
  (In (i_code x) (map fst label_codes) ->
     (iinfil x = Panic <-> ~ padding_at s (f - 1)) /\
     ((exists t, iinfil x = Ok t) <-> padding_at s (f - 1) /\ ~ padding_at s (f - 2)) /\
     forall t, iinfil x = Ok t -> ~ prefix t s).
Proof. exact C29_printable_l. Qed.
Print Assumptions C29_parsed_and_printable.

Example C29_printable_case : exists x, iexfil (s! "0zABYWI=") = Ok x /\ ifull_size x = Ok 8 /\ padding_at (s! "0zABYWI=") 7 /\ is_err (iinfil x) = true.
Proof. eexists. split; [vm_compute; reflexivity|]. repeat split; vm_compute; reflexivity. Qed.
Example C29_label_case : exists x, iexfil (s! "1zAA" ++ repeat x41 72) = Ok x /\ iinfil x = Panic.
Proof. eexists. split; [vm_compute; reflexivity|]. vm_compute; reflexivity. Qed.

(** So a parsed text that prints again prints to the beginning of what was read exactly when its code is not a label code. *)
Theorem C29_indexed_text_not_malleable_exactly :
  forall (s t : bytes) (x : indexer),
  iexfil s = Ok x -> iinfil x = Ok t ->
  (prefix t s <-> ~ In (i_code x) (map fst label_codes)).
Proof. exact C29_exactly_l. Qed.
Print Assumptions C29_indexed_text_not_malleable_exactly.

Example C29_exactly_case : exists x t, iexfil (s! "1zAA" ++ repeat x41 71 ++ s! "=") = Ok x /\ iinfil x = Ok t /\ take 7 t = s! "1zAAAAA".
Proof. do 2 eexists. split; [vm_compute; reflexivity|]. split; vm_compute; reflexivity. Qed.

(** What happens to everything the constructor accepts, whatever the code: with a label code printing panics; with any other code the text
   prints and reads back to the same code, raw and index, and to the same other index when the code has a field for it or is a
   current-only code, and to the index when it has none. *)
Theorem C23_indexed_text_round_trip_exactly :
  forall (code raw : bytes) (index : N) (ondex : option N) (x : indexer),
  indexer_of_code_raw code raw index ondex = Ok x ->
  (In code (map fst label_codes) -> iinfil x = Panic) /\
  (~ In code (map fst label_codes) -> exists t, iinfil x = Ok t /\
     (In code [s! "A"; s! "C"; s! "E"; s! "0z"] -> iexfil t = Ok (iset_ondex index x)) /\
     (~ In code [s! "A"; s! "C"; s! "E"; s! "0z"] -> iexfil t = Ok x)).
Proof. exact C23_exactly_l. Qed.
Print Assumptions C23_indexed_text_round_trip_exactly.

Example C23_exactly_case : exists x, indexer_of_code_raw (s! "A") (repeat x07 64) 3 (Some 5) = Ok x /\ is_ok (iinfil x) = true.
Proof. eexists. split; [vm_compute; reflexivity|]. vm_compute; reflexivity. Qed.

(** The same in binary: printing panics exactly for the label codes and the big Ed448 codes; with any other code the binary form prints
   and reads back the same way. *)
Theorem C24_indexed_binary_round_trip_exactly :
  forall (code raw : bytes) (index : N) (ondex : option N) (x : indexer),
  indexer_of_code_raw code raw index ondex = Ok x ->
  (ibinfil x = Panic <-> In code (map fst label_codes ++ big448_codes)) /\
  (~ In code (map fst label_codes ++ big448_codes) -> exists b, ibinfil x = Ok b /\
     (In code [s! "A"; s! "C"; s! "E"; s! "0z"] -> ibexfil b = Ok (iset_ondex index x)) /\
     (~ In code [s! "A"; s! "C"; s! "E"; s! "0z"] -> ibexfil b = Ok x)).
Proof. exact C24_exactly_l. Qed.
Print Assumptions C24_indexed_binary_round_trip_exactly.

Example C24_exactly_case : exists x, indexer_of_code_raw (s! "0z") (s! "abcdef") 2 None = Ok x /\ is_ok (ibinfil x) = true.
Proof. eexists. split; [vm_compute; reflexivity|]. vm_compute; reflexivity. Qed.

(** What the binary form does in every state of a signature (the big Ed448 codes apart, which panic): it prints exactly when the raw has
   the code's length, the index fits both index fields together, the other index fits when its field is one character, and neither
   number is a power of 64 too large for its field; and what it then holds is each number shortened to its leading digits, so reading
   it back gives the shortened numbers. *)
Theorem C26_binary_index_exactly :
  forall (code : bytes) (n d e : N) (raw : bytes) (index ondex : N),
  In (code, (n, d, e)) sig_codes -> ~ In code big448_codes -> index <= u32_max -> ondex <= u32_max ->
  let x := Ix code raw index ondex in
  ((exists b, ibinfil x = Ok b) <->
     len raw = n /\ index < 64 ^ (d + e) /\ (e = 1 -> ondex < 64) /\ (exists i, shortened d index i) /\ (0 < e -> exists o, shortened e ondex o)) /\
  forall b i o, ibinfil x = Ok b -> shortened d index i -> (0 < e -> shortened e ondex o) ->
    (e = 0 -> In code current_codes -> ibexfil b = Ok (Ix code raw i 0)) /\
    (e = 0 -> ~ In code current_codes -> ibexfil b = Ok (Ix code raw i i)) /\
    (0 < e -> ~ In code current_codes \/ o = 0 -> ibexfil b = Ok (Ix code raw i o)) /\
    (0 < e -> In code current_codes -> o <> 0 -> exists r, ibexfil b = Err r).
Proof. exact C26_exactly_l. Qed.
Print Assumptions C26_binary_index_exactly.

Example C26_exactly_case : shortened 2 5000 78 /\ exists b, ibinfil (Ix (s! "2A") (repeat x07 64) 5000 9) = Ok b /\
  ibexfil b = Ok (Ix (s! "2A") (repeat x07 64) 78 9) /\ is_err (ibinfil (Ix (s! "2A") (repeat x07 64) 4096 9)) = true.
Proof.
  split; [exists 1; split; [vm_compute; reflexivity|split; [right; vm_compute; reflexivity|vm_compute; reflexivity]]|]. eexists. split; [vm_compute; reflexivity|]. split; vm_compute; reflexivity.
Qed.

(** An indexed primitive with the variable code in an arbitrary state: printing its text, and asking for its size, panics exactly when
   four times its index plus four leaves 32 bits; it prints exactly when the raw is three times the index and the index is below 4096, and
   reads back with the other index equal to the index. *)
Theorem C98_variable_code_text :
  forall (raw : bytes) (index ondex : N),
  let x := Ix (s! "0z") raw index ondex in
  (iinfil x = Panic <-> u32_max < 4 * index + 4) /\ (ifull_size x = Panic <-> u32_max < 4 * index + 4) /\
  ((exists t, iinfil x = Ok t) <-> len raw = 3 * index /\ index < 4096) /\
  forall t, iinfil x = Ok t -> iexfil t = Ok (Ix (s! "0z") raw index index).
Proof. exact C98_variable_l. Qed.
Print Assumptions C98_variable_code_text.

Example C98_variable_case : iinfil (Ix (s! "0z") [] 1073741823 0) = Panic /\ is_err (iinfil (Ix (s! "0z") [] 1073741822 0)) = true /\
  iinfil (Ix (s! "0z") (s! "abc") 1 7) = Ok (s! "0zABYWJj").
Proof. repeat split; vm_compute; reflexivity. Qed.

(** An indexed primitive with a label code in an arbitrary state: printing its text panics exactly when both indices fit and the raw is a
   whole number of three bytes; it prints exactly when both indices fit and the raw has 53 bytes, and then reads back with a zero byte
   more in front of the raw, so never to the same value. *)
Theorem C98_label_text :
  forall (code : bytes) (k f : N) (raw : bytes) (index ondex : N),
  In (code, (k, f)) label_codes -> let x := Ix code raw index ondex in
  (iinfil x = Panic <-> index < 64 ^ k /\ ondex < 64 ^ k /\ len raw mod 3 = 0) /\
  ((exists t, iinfil x = Ok t) <-> index < 64 ^ k /\ ondex < 64 ^ k /\ len raw = 53) /\
  forall t, iinfil x = Ok t -> len t = f /\ iexfil t = Ok (Ix code (x00 :: raw) index ondex).
Proof. exact C98_label_l. Qed.
Print Assumptions C98_label_text.

Example C98_label_case : exists t, iinfil (Ix (s! "4z") (repeat x07 53) 5 6) = Ok t /\ iexfil t = Ok (Ix (s! "4z") (x00 :: repeat x07 53) 5 6) /\
  iinfil (Ix (s! "1z") (repeat x07 54) 5 6) = Panic /\ iinfil (Ix (s! "1z") [] 5 6) = Panic.
Proof. eexists. split; [vm_compute; reflexivity|]. repeat split; vm_compute; reflexivity. Qed.
