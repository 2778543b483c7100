(** Properties C19-C22. Theorem statements only; the proofs are in [UtilThms]. *)
From Coq Require Import String.
From Coq Require Import NArith ZArith QArith Bool List.
From Verif Require Import Base B64 Util Tables Matter Indexer Counter FloatLog Spec SpecCounter UtilThms BaseFacts.
Import ListNotations.
Open Scope N_scope.

(** Matter codes: the hard size announced by the first character and by the first sextet is the code's length; sizes are whole
   quadlets; no code is a proper prefix of another. *)
Theorem C19_matter_table :
  forall (c : byte) (r : bytes) (z : sizage),
  sizage_of (c :: r) = Ok z ->
  hardage c = Ok (len (c :: r)) /\ (exists i, b64_index c = Some i /\ bardage i = Ok (len (c :: r))) /\
  (if fs z =? u32_max then (hs z + ss z) mod 4 = 0 else fs z mod 4 = 0) /\
  (forall c' z', sizage_of c' = Ok z' -> prefix (c :: r) c' -> c' = c :: r).
Proof. exact C19_matter_l. Qed.
Print Assumptions C19_matter_table.

Example C19_matter_case : is_ok (sizage_of (s! "1AAG")) = true /\ hardage x31 = Ok 4.
Proof. split; (vm_compute; reflexivity). Qed.

(** The same for the indexed codes. *)
Theorem C19_indexer_table :
  forall (c : byte) (r : bytes) (z : isizage),
  isizage_of (c :: r) = Ok z ->
  ihardage c = Ok (len (c :: r)) /\ (exists i, b64_index c = Some i /\ ibardage i = Ok (len (c :: r))) /\
  (if ifs z =? u32_max then (ihs z + iss z) mod 4 = 0 else ifs z mod 4 = 0) /\
  (forall c' z', isizage_of c' = Ok z' -> prefix (c :: r) c' -> c' = c :: r).
Proof. exact C19_indexer_l. Qed.
Print Assumptions C19_indexer_table.

Example C19_indexer_case : is_ok (isizage_of (s! "2A")) = true /\ ihardage x32 = Ok 2.
Proof. split; (vm_compute; reflexivity). Qed.

(** The same for the counter codes, whose hard size is announced by the first two characters. *)
Theorem C19_counter_table :
  forall (c d : byte) (r : bytes) (z : sizage),
  csizage_of (c :: d :: r) = Ok z ->
  chardage [c; d] = Ok (len (c :: d :: r)) /\
  (exists i j, b64_index c = Some i /\ b64_index d = Some j /\ cbardage [i; j] = Ok (len (c :: d :: r))) /\
  fs z mod 4 = 0 /\ (forall c' z', csizage_of c' = Ok z' -> prefix (c :: d :: r) c' -> c' = c :: d :: r).
Proof. exact C19_counter_l. Qed.
Print Assumptions C19_counter_table.

Example C19_counter_case : is_ok (csizage_of (s! "--AAA")) = true /\ chardage (s! "--") = Ok 5.
Proof. split; (vm_compute; reflexivity). Qed.

(** For every base64 character (pair of characters for counters) text and binary announce the same hard size, or both refuse. *)
Theorem C19_text_and_binary_announce_the_same :
  forall (c d : byte) (i j n : N),
  b64_index c = Some i -> b64_index d = Some j ->
  (hardage c = Ok n <-> bardage i = Ok n) /\ (ihardage c = Ok n <-> ibardage i = Ok n) /\ (chardage [c; d] = Ok n <-> cbardage [i; j] = Ok n).
Proof. exact C19_agree_l. Qed.
Print Assumptions C19_text_and_binary_announce_the_same.

Example C19_agree_case : b64_index x2d = Some 62 /\ is_err (hardage x2d) = true /\ is_err (bardage 62) = true.
Proof. repeat split; vm_compute; reflexivity. Qed.

(** Encoding a number below 64^k on k characters gives k base64url characters that decode to it: up to 5 characters with the 32-bit
   decoder and 10 with the 64-bit one. *)
Theorem C20_base64_integer_round_trip :
  forall (n k : N),
  n < 64 ^ k ->
  (k <= 5 -> b64_to_u32 (uint_to_b64 n k) = Ok n) /\
  (k <= 10 -> len (uint_to_b64 n k) = k /\ base64_number 0 (uint_to_b64 n k) = Some n /\ b64_to_u64 (uint_to_b64 n k) = Ok n).
Proof. exact C20_l. Qed.
Print Assumptions C20_base64_integer_round_trip.

Example C20_case : 1073741823 < 64 ^ 5 /\ uint_to_b64 1073741823 5 = s! "_____" /\ uint_to_b64 66 3 = s! "ABC".
Proof. repeat split; vm_compute; reflexivity. Qed.

(** Decoding and re-encoding on the same number of characters gives back the characters. *)
Theorem C20_base64_integer_inverse :
  forall (s : bytes) (n : N),
  (len s <= 5 -> b64_to_u32 s = Ok n -> uint_to_b64 n (len s) = s) /\
  (len s <= 10 -> b64_to_u64 s = Ok n -> uint_to_b64 n (len s) = s).
Proof. exact C20_inverse_l. Qed.
Print Assumptions C20_base64_integer_inverse.

Example C20_inverse_case : b64_to_u32 (s! "ABC") = Ok 66 /\ b64_to_u64 (s! "ABCDEFGHIJ") <> Panic.
Proof. split; vm_compute; [reflexivity|discriminate]. Qed.

(** Decoding accepts exactly the strings of base64url characters and never panics. *)
Theorem C20_decoding_is_total :
  forall (s : bytes),
  ((exists n, b64_to_u32 s = Ok n) <-> exists v, base64_number 0 s = Some v) /\
  ((exists n, b64_to_u64 s = Ok n) <-> exists v, base64_number 0 s = Some v) /\ b64_to_u32 s <> Panic /\ b64_to_u64 s <> Panic.
Proof. exact C20_total_l. Qed.
Print Assumptions C20_decoding_is_total.

Example C20_total_case : b64_to_u32 (s! "A=") = Err EInvalidBase64Character.
Proof. vm_compute. reflexivity. Qed.

(** False: 65 does not fit one character, and encoding it on one character silently gives another number. *)
Theorem C21_out_of_range_refuted :
  uint_to_b64 65 1 = s! "B" /\ b64_to_u32 (s! "B") = Ok 1.
Proof. exact C21_refuted_l. Qed.
Print Assumptions C21_out_of_range_refuted.

(** What holds: a number of at most 64^k encodes on k characters (k+1 for 64^k itself) to text that decodes to it.
   Missing: larger numbers, see the refutation. *)
Theorem C21_out_of_range_partial :
  forall (n k : N),
  0 < k -> n <= 64 ^ k -> n <= u64_max -> base64_number 0 (uint_to_b64 n k) = Some n.
Proof. exact C21_partial_l. Qed.
Print Assumptions C21_out_of_range_partial.

Example C21_case : uint_to_b64 4096 2 = s! "BAA".
Proof. vm_compute. reflexivity. Qed.

(** What every other number encodes to: its low digits are dropped, as many as bring it to at most k (or, for a power of 64, k+1) characters. The text has exactly that many
   characters and stands for the number divided by the power of 64 dropped. *)
Theorem C21_out_of_range_exactly :
  forall (n k j : N),
  0 < k -> n <= u64_max -> n <= 64 ^ (k + j) -> (j = 0 \/ 64 ^ (k + j - 1) < n) ->
  base64_number 0 (uint_to_b64 n k) = Some (n / 64 ^ j) /\ len (uint_to_b64 n k) = if n =? 64 ^ (k + j) then k + 1 else k.
Proof. exact C21_exact_l. Qed.
Print Assumptions C21_out_of_range_exactly.

Example C21_exact_case : uint_to_b64 262145 1 = s! "B" /\ uint_to_b64 262144 1 = s! "BA" /\ 64 ^ 3 < 262145 <= 64 ^ 4.
Proof. repeat split; vm_compute; congruence. Qed.

(** nab_sextets returns exactly the leading six-bit groups, and fails exactly when the bytes do not hold that many; it never panics. *)
Theorem C22_nab_sextets :
  forall (b : bytes) (k : N),
  (6 * k <= 8 * len b -> exists l, nab_sextets b k = Ok l /\ len l = k /\ forall i, i < k -> nth_error l (N.to_nat i) = Some (six_bits b i)) /\
  (8 * len b < 6 * k -> exists e, nab_sextets b k = Err e).
Proof. exact C22_nab_l. Qed.
Print Assumptions C22_nab_sextets.

Example C22_case : nab_sextets [x04; x10; x41; x04; x10; x41] 3 = Ok [1; 1; 1] /\ is_err (nab_sextets [x04] 2) = true.
Proof. split; (vm_compute; reflexivity). Qed.

(** code_b2_to_b64 spells the leading six-bit groups in base64url characters, for up to eight characters; otherwise it is an error. *)
Theorem C22_code_b2_to_b64 :
  forall (b : bytes) (k : N),
  (k <= 8 -> 6 * k <= 8 * len b ->
     exists s, code_b2_to_b64 b k = Ok s /\ len s = k /\ forall i, i < k -> exists c, nth_error s (N.to_nat i) = Some c /\ b64_index c = Some (six_bits b i)) /\
  (k > 8 \/ 8 * len b < 6 * k -> exists e, code_b2_to_b64 b k = Err e).
Proof. exact C22_code_l. Qed.
Print Assumptions C22_code_b2_to_b64.

Example C22_code_case : code_b2_to_b64 [xf8; x00; x03; xff] 4 = Ok (s! "-AAD").
Proof. vm_compute. reflexivity. Qed.

(** Converting a code of up to eight base64 characters to bytes and back (whatever bytes follow) gives the same code. *)
Theorem C22_code_conversion_inverse :
  forall (s : bytes) (v : N),
  base64_number 0 s = Some v -> 1 <= len s -> len s <= 8 ->
  exists b, code_b64_to_b2 s = Ok b /\ len b = (6 * len s + 7) / 8 /\ forall r, code_b2_to_b64 (b ++ r) (len s) = Ok s.
Proof. exact C22_inv_l. Qed.
Print Assumptions C22_code_conversion_inverse.

Example C22_inv_case : code_b64_to_b2 (s! "1AAG") = Ok [xd4; x00; x06] /\ code_b2_to_b64 [xd4; x00; x06; x99] 4 = Ok (s! "1AAG").
Proof. split; (vm_compute; reflexivity). Qed.

(** The f32 logarithm in the code does not matter for numbers that fit: with any arithmetic whose logarithm of integers is monotone and
   exact at powers of 64, division and subtraction monotone, the code computes what the model computes. *)
Theorem C20_float_logarithm :
  forall (F : Type) (of_int : N -> F) (log2 : F -> F) (div sub add : F -> F -> F) (le : F -> F -> bool) (zero one : F) (n k : N),
  float_ok F of_int log2 div sub le zero -> k <= 10 -> n <= 64 ^ k ->
  uint_to_b64_f F of_int log2 div sub add le zero one n k = uint_to_b64 n k.
Proof. exact C20_float_l. Qed.
Print Assumptions C20_float_logarithm.

Example C20_float_case : float_ok Z Z.of_N Z.log2 Z.div Z.sub Z.leb 0%Z.
Proof. exact float_ok_case. Qed.
