(** Properties C30-C33. Theorem statements only; the proofs are in [CounterThms]. *)
From Coq Require Import String.
From Coq Require Import NArith ZArith QArith Bool List.
From Verif Require Import Base B64 Util Tables Matter Counter Spec SpecCounter CounterThms BaseFacts.
Import ListNotations.
Open Scope N_scope.

(** A built counter prints to four or eight characters and the corresponding three or six bytes; both parse back to it whatever follows. *)
Theorem C30_counter_round_trips :
  forall (code : bytes) (k n : N) (c : counter),
  In (code, k) counter_codes -> counter_of_code_count code n = Ok c ->
  exists t b, cinfil c = Ok t /\ cbinfil c = Ok b /\ decode t = Ok b /\ encode b = t /\ cfull_size c = Ok (len t) /\
    len t = (if k =? 2 then 4 else 8) /\
    (forall rest, utf8 rest = true -> cexfil (t ++ rest) = Ok c) /\ cexfil_b t = Ok c /\
    (forall rest, cbexfil (b ++ rest) = Ok c).
Proof. exact C30_l. Qed.
Print Assumptions C30_counter_round_trips.

Example C30_case : counter_of_code_count (s! "-0V") 1073741823 = Ok (Ct (s! "-0V") 1073741823) /\
  cinfil (Ct (s! "-0V") 1073741823) = Ok (s! "-0V_____").
Proof. split; (vm_compute; reflexivity). Qed.

(** Whatever parses as a counter can be printed, and prints to exactly the beginning of the input. *)
Theorem C30_counter_not_malleable :
  forall (s : bytes) (c : counter),
  (cexfil s = Ok c -> exists t, cinfil c = Ok t /\ prefix t s) /\
  (cbexfil s = Ok c -> exists b, cbinfil c = Ok b /\ prefix b s).
Proof. exact C30_mall_l. Qed.
Print Assumptions C30_counter_not_malleable.

Example C30_mall_case : cexfil (s! "-AADxyz") = Ok (Ct (s! "-A") 3) /\ cbexfil [xf8; x00; x03; xff] = Ok (Ct (s! "-A") 3).
Proof. split; (vm_compute; reflexivity). Qed.

(** A counter is built exactly for the codes of the table and counts below 64 to the number of count characters; it holds that code and
   count. Anything else is an error. *)
Theorem C31_count_bounds :
  forall (code : bytes) (n : N) (c : counter),
  (counter_of_code_count code n = Ok c <-> c = Ct code n /\ exists k, In (code, k) counter_codes /\ n < 64 ^ k) /\
  counter_of_code_count code n <> Panic.
Proof. exact C31_l. Qed.
Print Assumptions C31_count_bounds.

Example C31_case : is_ok (counter_of_code_count (s! "-A") 4095) = true /\ is_err (counter_of_code_count (s! "-A") 4096) = true.
Proof. split; (vm_compute; reflexivity). Qed.

(** Counts given in base64 are not checked: six characters overflow silently, so a count above 2^32 is accepted as another one. *)
Theorem C31_count_b64_refuted :
  base64_number 0 (s! "EAAAAB") = Some 4294967297 /\
  counter_new None (Some (s! "EAAAAB")) (Some (s! "-A")) None None None = Ok (Ct (s! "-A") 1).
Proof. exact C31_refuted_l. Qed.
Print Assumptions C31_count_b64_refuted.

(** Counts of at most five base64 characters are taken at their value. *)
Theorem C31_count_b64_partial :
  forall (code s : bytes) (v : N) (qb64b qb64 qb2 : option bytes),
  len s <= 5 -> base64_number 0 s = Some v ->
  counter_new None (Some s) (Some code) qb64b qb64 qb2 = counter_of_code_count code v.
Proof. exact C31_b64_l. Qed.
Print Assumptions C31_count_b64_partial.

Example C31_b64_case : counter_new None (Some (s! "AAD")) (Some (s! "-A")) None None None = Ok (Ct (s! "-A") 3).
Proof. vm_compute. reflexivity. Qed.

(** A count given in base64, of any length, is taken modulo 2^32; anything but base64url characters is an error. *)
Theorem C31_count_b64_exactly :
  forall (code s : bytes) (qb64b qb64 qb2 : option bytes),
  (forall v, base64_number 0 s = Some v -> counter_new None (Some s) (Some code) qb64b qb64 qb2 = counter_of_code_count code (v mod 2 ^ 32)) /\
  (base64_number 0 s = None -> exists e, counter_new None (Some s) (Some code) qb64b qb64 qb2 = Err e).
Proof. exact C31_b64_exact_l. Qed.
Print Assumptions C31_count_b64_exactly.

Example C31_b64_exact_case : base64_number 0 (s! "-AEAAAAB") = Some (62 * 64 ^ 7 + 4 * 64 ^ 5 + 1) /\ (62 * 64 ^ 7 + 4 * 64 ^ 5 + 1) mod 2 ^ 32 = 1 /\
  counter_new None (Some (s! "-AEAAAAB")) (Some (s! "-A")) None None None = Ok (Ct (s! "-A") 1).
Proof. repeat split; vm_compute; reflexivity. Qed.

(** False: one-character text, and text whose second byte is inside a character, panic. *)
Theorem C32_counter_parse_refuted :
  cexfil (s! "-") = Panic /\ cexfil (s! "A") = Panic /\ (utf8 [xc3; xa9; x41] = true /\ cexfil (x2d :: [xc3; xa9; x41]) = Panic).
Proof. exact C32_refuted_l. Qed.
Print Assumptions C32_counter_parse_refuted.

(** Parsing never panics on ASCII text of length other than one, nor on any bytes as binary. Missing: see the refutation. *)
Theorem C32_counter_parse_partial :
  forall (s : bytes),
  (Forall (fun c => b2n c < 128) s -> len s <> 1 -> cexfil s <> Panic) /\ cbexfil s <> Panic.
Proof. exact C32_l. Qed.
Print Assumptions C32_counter_parse_partial.

Example C32_case : cexfil (s! "-0") <> Panic /\ cexfil (s! "--AAA") <> Panic /\ cbexfil [xf8] <> Panic.
Proof. repeat split; vm_compute; discriminate. Qed.

(** No proper prefix of a printed counter parses, in either domain. *)
Theorem C32_counter_truncation :
  forall (c : counter) (t b : bytes) (n : N),
  cinfil c = Ok t -> cbinfil c = Ok b ->
  (n < len t -> forall c', cexfil (take n t) <> Ok c') /\ (n < len b -> forall c', cbexfil (take n b) <> Ok c').
Proof. exact C32_trunc_l. Qed.
Print Assumptions C32_counter_truncation.

Example C32_trunc_case : cexfil (s! "-AA") = Err EShortage /\ cbexfil [xf8; x00] = Err EShortage.
Proof. split; (vm_compute; reflexivity). Qed.

(** Three decimal parts pack to the three base64 characters of their values exactly when all are below 64; otherwise it is an error. *)
Theorem C33_semantic_version_packing :
  forall (x y z : bytes) (a b c : N),
  decimal x a -> decimal y b -> decimal z c ->
  (a < 64 /\ b < 64 /\ c < 64 ->
    exists t1 t2 t3, sem_ver_str_to_b64 (x ++ s! "." ++ y ++ s! "." ++ z) = Ok [t1; t2; t3] /\
      b64_index t1 = Some a /\ b64_index t2 = Some b /\ b64_index t3 = Some c) /\
  (~ (a < 64 /\ b < 64 /\ c < 64) -> exists e, sem_ver_str_to_b64 (x ++ s! "." ++ y ++ s! "." ++ z) = Err e).
Proof. exact C33_l. Qed.
Print Assumptions C33_semantic_version_packing.

Example C33_case : sem_ver_str_to_b64 (s! "1.2.63") = Ok (s! "BC_") /\ decimal (s! "63") 63 /\ decimal (s! "1") 1 /\ decimal (s! "2") 2.
Proof. repeat split; try discriminate; try (vm_compute; reflexivity); repeat constructor; vm_compute; discriminate. Qed.

(** One or two decimal parts, or empty parts, stand for zero in the missing places. *)
Theorem C33_missing_parts_are_zero :
  forall (x y : bytes) (a b : N),
  decimal x a -> decimal y b ->
  sem_ver_str_to_b64 x = sem_ver_str_to_b64 (x ++ s! ".0.0") /\
  sem_ver_str_to_b64 (x ++ s! "." ++ y) = sem_ver_str_to_b64 (x ++ s! "." ++ y ++ s! ".0") /\
  sem_ver_str_to_b64 (s! "." ++ x ++ s! "." ++ y) = sem_ver_str_to_b64 (s! "0." ++ x ++ s! "." ++ y) /\
  sem_ver_str_to_b64 [] = Ok (s! "AAA").
Proof. exact C33_missing_l. Qed.
Print Assumptions C33_missing_parts_are_zero.

Example C33_missing_case : sem_ver_str_to_b64 (s! "1.2") = Ok (s! "BCA") /\ sem_ver_str_to_b64 (s! "..5") = Ok (s! "AAF").
Proof. split; (vm_compute; reflexivity). Qed.

(** Any accepted string has at most two dots and yields exactly three base64 characters; no string makes the packing panic. *)
Theorem C33_accepted_versions :
  forall (s : bytes),
  sem_ver_str_to_b64 s <> Panic /\
  (forall t, sem_ver_str_to_b64 s = Ok t -> dots s <= 2 /\ len t = 3 /\ exists v, base64_number 0 t = Some v).
Proof. exact C33_acc_l. Qed.
Print Assumptions C33_accepted_versions.

Example C33_acc_case : is_err (sem_ver_str_to_b64 (s! "1.2.3.4")) = true /\ is_ok (sem_ver_str_to_b64 (s! "+1.-0.3")) = true.
Proof. split; (vm_compute; reflexivity). Qed.
