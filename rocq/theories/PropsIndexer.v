(** Properties C23-C29, C79. Theorem statements only; the proofs are in [IndexerThms]. *)
From Coq Require Import String.
From Coq Require Import NArith ZArith QArith Bool List.
From Verif Require Import Base B64 Util Tables Matter Indexer Spec SpecIndexer IndexerThms BaseFacts.
Import ListNotations.
Open Scope N_scope.

(** False for every accepted combination: a both-lists code without room for the other index accepts one different from the index and
   then loses it; a variable code built without other index reads back with one; and two label codes cannot be printed at all (panic). *)
Theorem C23_indexed_text_round_trip_refuted :
  (exists x t x', indexer_of_code_raw (s! "A") (repeat x07 64) 3 (Some 5) = Ok x /\ i_ondex x = 5 /\
     iinfil x = Ok t /\ iexfil t = Ok x' /\ i_ondex x' = 3) /\
  (exists x t x', indexer_of_code_raw (s! "0z") (s! "abc") 1 None = Ok x /\ i_ondex x = 0 /\
     iinfil x = Ok t /\ iexfil t = Ok x' /\ i_ondex x' = 1) /\
  (exists x, indexer_of_code_raw (s! "1z") (repeat x00 54) 1 None = Ok x /\ iinfil x = Panic) /\
  (exists x, indexer_of_code_raw (s! "4z") (repeat x00 54) 1 None = Ok x /\ iinfil x = Panic).
Proof. exact C23_refuted_l. Qed.
Print Assumptions C23_indexed_text_round_trip_refuted.

(** What holds: for all sixteen signature codes, with the other index absent or equal to the index when the code has no room for it,
   code, raw, index and other index survive printing and parsing (as string or bytes). Missing: see the refutation. *)
Theorem C23_indexed_text_round_trip_partial :
  forall (code : bytes) (n d e : N) (raw : bytes) (index : N) (ondex : option N) (x : indexer),
  In (code, (n, d, e)) sig_codes -> (e = 0 -> ondex = None \/ ondex = Some index) ->
  indexer_of_code_raw code raw index ondex = Ok x ->
  exists t, iinfil x = Ok t /\ iexfil t = Ok x /\ iexfil_b t = Ok x.
Proof. exact C23_partial_l. Qed.
Print Assumptions C23_indexed_text_round_trip_partial.

Example C23_case : exists x t, indexer_of_code_raw (s! "2A") (repeat x07 64) 130 (Some 65) = Ok x /\ iinfil x = Ok t /\ take 6 t = s! "2ACCBB".
Proof. do 2 eexists. split. { vm_compute. reflexivity. } split. { vm_compute. reflexivity. } vm_compute. reflexivity. Qed.

(** The variable code "0z" round trips in text and in binary when the other index given is the index. *)
Theorem C23_variable_round_trip_partial :
  forall (raw : bytes) (index : N) (x : indexer),
  indexer_of_code_raw (s! "0z") raw index (Some index) = Ok x ->
  exists t b, iinfil x = Ok t /\ iexfil t = Ok x /\ ibinfil x = Ok b /\ ibexfil b = Ok x.
Proof. exact C23_variable_l. Qed.
Print Assumptions C23_variable_round_trip_partial.

Example C23_variable_case : exists x, indexer_of_code_raw (s! "0z") (s! "abcdef") 2 (Some 2) = Ok x /\ iinfil x = Ok (s! "0zACYWJjZGVm").
Proof. eexists. split. { vm_compute. reflexivity. } vm_compute. reflexivity. Qed.

(** False for the big Ed448 codes: printing the binary form of any signature with code "3A" or "3B" panics (64^6 overflows u32). *)
Theorem C24_indexed_binary_round_trip_refuted :
  (forall code raw index ondex x, In code big448_codes -> indexer_of_code_raw code raw index ondex = Ok x -> ibinfil x = Panic) /\
  (exists x, indexer_of_code_raw (s! "3A") (repeat x07 114) 5 (Some 9) = Ok x).
Proof. exact C24_refuted_l. Qed.
Print Assumptions C24_indexed_binary_round_trip_refuted.

(** What holds: for the other signature codes the binary form exists and parses back to the same code, raw, index and other index; and
   for all signature codes the decoded text parses as binary to the same value. Missing: see C24's refutation and C23's. *)
Theorem C24_indexed_binary_round_trip_partial :
  forall (code : bytes) (n d e : N) (raw : bytes) (index : N) (ondex : option N) (x : indexer),
  In (code, (n, d, e)) sig_codes -> (e = 0 -> ondex = None \/ ondex = Some index) ->
  indexer_of_code_raw code raw index ondex = Ok x ->
  (~ In code big448_codes -> exists b, ibinfil x = Ok b /\ ibexfil b = Ok x) /\
  (exists t b, iinfil x = Ok t /\ decode t = Ok b /\ ibexfil b = Ok x).
Proof. exact C24_partial_l. Qed.
Print Assumptions C24_indexed_binary_round_trip_partial.

Example C24_case : exists x b, indexer_of_code_raw (s! "2A") (repeat x07 64) 130 (Some 65) = Ok x /\ ibinfil x = Ok b /\ len b = 69.
Proof. do 2 eexists. split. { vm_compute. reflexivity. } split. { vm_compute. reflexivity. } vm_compute. reflexivity. Qed.

(** Signatures: text and binary are each other's base64url encoding, and the text has full_size characters, a whole number of quadlets.
   Missing: the codes "3A" and "3B", whose binary form is a panic (C24); their text still satisfies the length clause. *)
Theorem C25_indexed_text_binary_agree_partial :
  forall (x : indexer),
  sig_built x ->
  (exists t, iinfil x = Ok t /\ ifull_size x = Ok (len t) /\ len t mod 4 = 0) /\
  (~ In (i_code x) big448_codes -> exists t b, iinfil x = Ok t /\ ibinfil x = Ok b /\ decode t = Ok b /\ encode b = t /\ 4 * len b = 3 * len t).
Proof. exact C25_l. Qed.
Print Assumptions C25_indexed_text_binary_agree_partial.

Example C25_case : exists x, sig_built x /\ ~ In (i_code x) big448_codes /\ ifull_size x = Ok 156.
Proof.
  exists (Ix (s! "0B") (repeat x09 114) 63 0). split; [|split; [vm_compute; intuition discriminate|vm_compute; reflexivity]].
  exists (s! "0B"), 114, 1, 1, (repeat x09 114), 63, None. split; [vm_compute; tauto|]. split; [discriminate|]. vm_compute. reflexivity.
Qed.

(** False for the codes "3A" and "3B": every signature with one of them has a text form of whole quadlets, but asking for its binary form panics. *)
Theorem C25_indexed_text_binary_agree_refuted :
  forall (x : indexer),
  sig_built x -> In (i_code x) big448_codes -> (exists t, iinfil x = Ok t /\ len t mod 4 = 0) /\ ibinfil x = Panic.
Proof. exact C25_refuted_l. Qed.
Print Assumptions C25_indexed_text_binary_agree_refuted.

Example C25_refuted_case : exists x, sig_built x /\ In (i_code x) big448_codes.
Proof.
  exists (Ix (s! "3A") (repeat x07 114) 5 9). split; [|vm_compute; tauto].
  exists (s! "3A"), 114, 3, 3, (repeat x07 114), 5, (Some 9). split; [vm_compute; tauto|]. split; [discriminate|]. vm_compute. reflexivity.
Qed.

(** A signature is built exactly when there is enough raw material, the index fits the index characters of the code, an explicit other
   index fits its characters, and no other index is given for a current-only code; the index held is the index given. *)
Theorem C26_index_ranges :
  forall (code : bytes) (n d e : N) (raw : bytes) (index : N) (ondex : option N),
  In (code, (n, d, e)) sig_codes ->
  ((exists x, indexer_of_code_raw code raw index ondex = Ok x) <->
   n <= len raw /\ index < 64 ^ d /\ (forall o, ondex = Some o -> ~ In code current_codes /\ (0 < e -> o < 64 ^ e))) /\
  (forall x, indexer_of_code_raw code raw index ondex = Ok x -> i_code x = code /\ i_raw x = take n raw /\ i_index x = index) /\
  indexer_of_code_raw code raw index ondex <> Panic.
Proof. exact C26_l. Qed.
Print Assumptions C26_index_ranges.

Example C26_case : In (s! "0A", (114, 1, 1)) sig_codes /\ is_ok (indexer_of_code_raw (s! "0A") (repeat x01 114) 63 (Some 63)) = true /\
  is_err (indexer_of_code_raw (s! "0A") (repeat x01 114) 64 (Some 63)) = true /\
  is_err (indexer_of_code_raw (s! "0A") (repeat x01 114) 63 (Some 64)) = true.
Proof. repeat split; try (vm_compute; reflexivity). vm_compute. tauto. Qed.

(** Whatever the state of an indexed primitive (setters included), if its text can be printed then the index characters of the text
   spell the index held, and the other-index characters (when the code has some) the other index held. *)
Theorem C26_printed_index_is_held_index :
  forall (code : bytes) (n d e : N) (x : indexer) (t : bytes),
  In (code, (n, d, e)) sig_codes -> i_code x = code -> iinfil x = Ok t ->
  base64_number 0 (take d (drop (len code) t)) = Some (i_index x) /\
  (0 < e -> base64_number 0 (take e (drop (len code + d) t)) = Some (i_ondex x)).
Proof. exact C26_printed_l. Qed.
Print Assumptions C26_printed_index_is_held_index.

Example C26_printed_case : exists t, iinfil (Ix (s! "2A") (repeat x07 64) 130 65) = Ok t /\ take 2 (drop 2 t) = s! "CC".
Proof. eexists. split. { vm_compute. reflexivity. } vm_compute. reflexivity. Qed.

(** In binary it is false: after set_index(5000) a "2A" signature still prints, with another index. *)
Theorem C26_binary_index_refuted :
  exists b x', ibinfil (Ix (s! "2A") (repeat x07 64) 5000 0) = Ok b /\ ibexfil b = Ok x' /\ i_index x' = 78.
Proof. exact C26_binary_refuted_l. Qed.
Print Assumptions C26_binary_index_refuted.

(** A current-only code is refused with an explicit other index and holds other index 0; the both-lists codes built without one use
   the index for both lists. *)
Theorem C27_current_only :
  forall (code : bytes) (n d e : N) (raw : bytes) (index o : N) (x : indexer),
  In (code, (n, d, e)) sig_codes ->
  (In code current_codes -> exists err, indexer_of_code_raw code raw index (Some o) = Err err) /\
  (In code current_codes -> indexer_of_code_raw code raw index None = Ok x -> i_ondex x = 0) /\
  (~ In code current_codes -> indexer_of_code_raw code raw index None = Ok x -> i_ondex x = index) /\
  (~ In code current_codes -> indexer_of_code_raw code raw index (Some o) = Ok x -> i_ondex x = o).
Proof. exact C27_l. Qed.
Print Assumptions C27_current_only.

Example C27_case : exists x, indexer_of_code_raw (s! "0A") (repeat x01 114) 63 None = Ok x /\ i_ondex x = 63.
Proof. eexists. split. { vm_compute. reflexivity. } reflexivity. Qed.

(** No proper prefix of a printed signature parses, in either domain; each is an error value. *)
Theorem C28_indexed_truncation :
  forall (x : indexer) (t b : bytes) (k : N),
  sig_built x -> iinfil x = Ok t -> decode t = Ok b ->
  (k < len t -> exists e, iexfil (take k t) = Err e) /\ (k < len b -> exists e, ibexfil (take k b) = Err e).
Proof. exact C28_l. Qed.
Print Assumptions C28_indexed_truncation.

Example C28_case : exists x t, indexer_of_code_raw (s! "A") (repeat x07 64) 3 None = Ok x /\ iinfil x = Ok t /\ iexfil (take 87 t) = Err EShortage.
Proof. do 2 eexists. split. { vm_compute. reflexivity. } split. { vm_compute. reflexivity. } vm_compute. reflexivity. Qed.

(** In every text that parses as an indexed primitive, the pad bits (or lead byte) after the code part are zero. *)
Theorem C28_indexed_zero_bits_text :
  forall (s : bytes) (x : indexer),
  iexfil s = Ok x ->
  let k := sig_zero_bits (i_code x) in
  let n := (k + 5) / 6 in
  exists v, base64_number 0 (take n (drop (sig_code_chars (i_code x)) s)) = Some v /\ v < 2 ^ (6 * n - k).
Proof. exact C28_text_l. Qed.
Print Assumptions C28_indexed_zero_bits_text.

Example C28_text_case : is_err (iexfil (s! "AB" ++ s! "E" ++ repeat x41 85)) = true /\ is_ok (iexfil (s! "AB" ++ s! "D" ++ repeat x41 85)) = true.
Proof. split; (vm_compute; reflexivity). Qed.

(** The same for binary input: the zero bits following the code bits are zero. *)
Theorem C28_indexed_zero_bits_binary :
  forall (b : bytes) (x : indexer),
  ibexfil b = Ok x ->
  let k := sig_zero_bits (i_code x) in
  be_val (take ((6 * sig_code_chars (i_code x) + k) / 8) b) mod 2 ^ k = 0.
Proof. exact C28_binary_l. Qed.
Print Assumptions C28_indexed_zero_bits_binary.

Example C28_binary_case : is_err (ibexfil ([x00; x08] ++ repeat x41 64)) = true /\ is_ok (ibexfil ([x00; x10] ++ repeat x41 64)) = true.
Proof. split; (vm_compute; reflexivity). Qed.

(** Trailing text never changes what an accepted text parses to. *)
Theorem C29_trailing_text_ignored :
  forall (s rest : bytes) (x : indexer),
  iexfil s = Ok x -> utf8 rest = true -> iexfil (s ++ rest) = Ok x.
Proof. exact C29_text_l. Qed.
Print Assumptions C29_trailing_text_ignored.

Example C29_case : iexfil (s! "0zACYWJjZGVm") = iexfil (s! "0zACYWJjZGVm-AAB").
Proof. vm_compute. reflexivity. Qed.

(** Trailing bytes never change what accepted bytes parse to, and the parse of a binary form depends only on that prefix. *)
Theorem C29_trailing_bytes_ignored :
  forall (b rest : bytes) (x : indexer),
  ibexfil b = Ok x -> ibexfil (b ++ rest) = Ok x.
Proof. exact C29_bytes_l. Qed.
Print Assumptions C29_trailing_bytes_ignored.

Example C29_bytes_case : is_ok (ibexfil [xd3; x30; x01; x61; x62; x63]) = true /\
  ibexfil [xd3; x30; x01; x61; x62; x63] = ibexfil [xd3; x30; x01; x61; x62; x63; xff; xff].
Proof. split; (vm_compute; reflexivity). Qed.

(** False for the label code "1z": a text using the base64 padding sign parses to a value that prints differently. *)
Theorem C29_indexed_text_not_malleable_refuted :
  exists s x t, iexfil s = Ok x /\ iinfil x = Ok t /\ ~ prefix t s.
Proof. exact C29_refuted_l. Qed.
Print Assumptions C29_indexed_text_not_malleable_refuted.

(** For the sixteen signature codes and the variable code: if what was parsed can be printed, it prints to exactly the beginning of the
   text. Missing: the label codes "1z" and "4z", see the refutation. *)
Theorem C29_indexed_text_not_malleable_partial :
  forall (s t : bytes) (x : indexer),
  iexfil s = Ok x -> iinfil x = Ok t ->
  ~ In (i_code x) [s! "1z"; s! "4z"] -> prefix t s.
Proof. exact C29_mall_l. Qed.
Print Assumptions C29_indexed_text_not_malleable_partial.

Example C29_mall_case : exists x, iexfil (s! "0zACYWJjZGVm-AAB") = Ok x /\ iinfil x = Ok (s! "0zACYWJjZGVm").
Proof. eexists. split. { vm_compute. reflexivity. } vm_compute. reflexivity. Qed.

(** For every code: if a value parsed from binary can be printed in binary, it prints to exactly the beginning of the input; and all
   codes other than "3A", "3B" and "4z" can be printed. *)
Theorem C29_indexed_binary_not_malleable :
  forall (b : bytes) (x : indexer),
  ibexfil b = Ok x ->
  (forall p, ibinfil x = Ok p -> prefix p b) /\
  (~ In (i_code x) [s! "3A"; s! "3B"; s! "4z"] -> exists p, ibinfil x = Ok p).
Proof. exact C29_bmall_l. Qed.
Print Assumptions C29_indexed_binary_not_malleable.

Example C29_bmall_case : exists x, ibexfil [xd3; x30; x01; x61; x62; x63; xff; xff] = Ok x /\ ibinfil x = Ok [xd3; x30; x01; x61; x62; x63].
Proof. eexists. split. { vm_compute. reflexivity. } vm_compute. reflexivity. Qed.

(** Parsing an indexed primitive from any bytes as binary, or from any ASCII text, returns a value or an error, never a panic. *)
Theorem C79_indexed_parsing_never_panics :
  forall (b : bytes),
  ibexfil b <> Panic /\ (Forall (fun c => b2n c < 128) b -> iexfil b <> Panic).
Proof. exact C79_l. Qed.
Print Assumptions C79_indexed_parsing_never_panics.

Example C79_case : iexfil (s! "A") = Err EShortage /\ iexfil (s! "1z==") <> Panic /\ ibexfil [xd7] <> Panic.
Proof. repeat split; vm_compute; try reflexivity; discriminate. Qed.

(** For text that is not ASCII the claim is false: the parser slices inside a character. *)
Theorem C79_non_ascii_text_refuted :
  exists s, utf8 s = true /\ iexfil s = Panic.
Proof. exact C79_refuted_l. Qed.
Print Assumptions C79_non_ascii_text_refuted.
