(** Property C98. Theorem statements only; the proofs are in [StateThms]. *)
From Coq Require Import String.
From Coq Require Import NArith ZArith QArith Bool List.
From Verif Require Import Base B64 Util Tables Matter Indexer Prims State Spec SpecIndexer SpecState StateThms BaseFacts.
Import ListNotations.
Open Scope N_scope.

(** Take any primitive in any state (code, size and raw set to anything) whose text prints, and let n be the number of raw bytes its code
   (and size field) announce. If the raw has at least n bytes, the printed text reads back as the code, the size and the first n bytes of
   the raw: further bytes are silently lost. If it has fewer, reading the printed text is an error. *)
Theorem C98_text_read_back :
  forall (code : bytes) (size n : N) (raw t : bytes),
  announces code size n ->
  infil (Mt code size raw) = Ok t ->
  (n <= len raw -> exfil t = Ok (Mt code (seen_size code size) (take n raw))) /\
  (len raw < n -> exists e, exfil t = Err e).
Proof. exact C98_text_l. Qed.
Print Assumptions C98_text_read_back.

Example C98_text_case : exists t, infil (set_raw (zeros 35) verfer_default) = Ok t /\ announces (s! "D") 0 32 /\
  exfil t = Ok (Mt (s! "D") 0 (zeros 32)).
Proof. eexists. split; [vm_compute; reflexivity|]. split; [left; vm_compute; tauto|]. vm_compute. reflexivity. Qed.
Example C98_text_short_case : exists t, infil (Mt (s! "4B") 2 (s! "abc")) = Ok t /\ announces (s! "4B") 2 6 /\ exfil t = Err EShortage.
Proof. eexists. split; [vm_compute; reflexivity|]. split; [right; split; [left; vm_compute; tauto|reflexivity]|]. vm_compute. reflexivity. Qed.

(** False as stated (that the printed text represents the value): a key given 35 bytes of raw prints a text which reads back as another key,
   and a text of size 1 given six bytes reads back as its first three. *)
Theorem C98_text_faithful_refuted :
  exists m t m', infil m = Ok t /\ exfil t = Ok m' /\ m_code m' = m_code m /\ m_raw m' <> m_raw m.
Proof. exact C98_text_refuted_l. Qed.
Print Assumptions C98_text_faithful_refuted.

(** What holds: a state which prints a text of exactly its full size reads back as itself. Missing: states whose text has another length,
   see the refutation and C98_text_read_back. *)
Theorem C98_text_faithful_partial :
  forall (m : matter) (t : bytes),
  infil m = Ok t -> full_size m = Ok (len t) ->
  exfil t = Ok (Mt (m_code m) (seen_size (m_code m) (m_size m)) (m_raw m)).
Proof. exact C98_faithful_l. Qed.
Print Assumptions C98_text_faithful_partial.

Example C98_faithful_case : infil (set_raw (zeros 16) salt_default) = Ok (s! "0AAAAAAAAAAAAAAAAAAAAAAA") /\
  full_size (set_raw (zeros 16) salt_default) = Ok 24.
Proof. split; vm_compute; reflexivity. Qed.

(** Take any primitive in any state whose binary form prints. Then the binary reads back as the code, the size and the whole raw, it has
   three quarters of the full size, and the text form prints too and is its base64. Printing the binary form never panics. *)
Theorem C98_binary_faithful :
  forall (m : matter),
  binfil m <> Panic /\ forall b, binfil m = Ok b ->
  bexfil b = Ok (Mt (m_code m) (seen_size (m_code m) (m_size m)) (m_raw m)) /\
  (exists n, full_size m = Ok n /\ 4 * len b = 3 * n) /\ infil m = Ok (encode b).
Proof. exact C98_binary_l. Qed.
Print Assumptions C98_binary_faithful.

Example C98_binary_case : binfil (Mt (s! "5B") 1 (s! "hi")) = Ok [xe4; x10; x01; x00; x68; x69] /\ binfil (Mt (s! "4B") 1 (s! "abcdef")) = Err EInvalidCodeSize.
Proof. split; vm_compute; reflexivity. Qed.

(** Printing the text form of a primitive in an arbitrary state panics exactly for the two lead-byte fixed codes with a raw length that does
   not fit them: "2AAA" with a multiple of three bytes, "3AAA" with anything but one more than a multiple of three. *)
Theorem C98_text_panics :
  forall (m : matter),
  infil m = Panic <->
  (m_code m = s! "2AAA" /\ len (m_raw m) mod 3 = 0) \/ (m_code m = s! "3AAA" /\ len (m_raw m) mod 3 <> 1).
Proof. exact C98_panic_l. Qed.
Print Assumptions C98_text_panics.

Example C98_panic_case : infil (set_code (s! "2AAA") salt_default) = Panic /\ infil verfer_default = Err EInvalidCodeSize.
Proof. split; vm_compute; reflexivity. Qed.

(** Asking a primitive in an arbitrary state for its full size panics exactly for a variable-size code whose size was set so large that
   header plus four times the size exceeds 32 bits. *)
Theorem C98_size_panics :
  forall (m : matter),
  full_size m = Panic <-> variable (m_code m) /\ 2 ^ 32 <= header (m_code m) + 4 * m_size m.
Proof. exact C98_size_l. Qed.
Print Assumptions C98_size_panics.

Example C98_size_case : full_size (set_size 4294967295 bexter_default) = Panic /\ full_size (set_size 4294967295 verfer_default) = Ok 44.
Proof. split; vm_compute; reflexivity. Qed.

(** Reading the number of a Number in an arbitrary state panics exactly when its code is a number code and the raw is not exactly that
   code's length; reading the sequence number of a Seqner panics exactly when the raw has fewer than 16 bytes, and otherwise only the
   first 16 bytes count, whatever the code. Both panic on the default value. *)
Theorem C98_numbers :
  forall (m : matter),
  (number_num m = Panic <-> exists n, In (m_code m, n) [(s! "M", 2); (s! "0H", 4); (s! "N", 8); (s! "0A", 16)] /\ len (m_raw m) <> n) /\
  (seqner_sn m = Panic <-> len (m_raw m) < 16) /\
  (16 <= len (m_raw m) -> seqner_sn m = Ok (be_val (take 16 (m_raw m)))).
Proof. exact C98_numbers_l. Qed.
Print Assumptions C98_numbers.

Example C98_number_case : number_num number_default = Panic /\ seqner_sn salt_default = Panic /\
  seqner_sn (set_raw (zeros 15 ++ [x07; xff]) salt_default) = Ok 7.
Proof. repeat split; vm_compute; reflexivity. Qed.

(** For an indexed signature in an arbitrary state with one of the signature codes (code, raw, index and other index set to anything): the
   text never panics; it prints exactly when the raw has the code's length and both indices fit their fields; and then it reads back as
   the code, the raw, the index and the other index, except that a code without a field for the other index reads back with the index
   (or 0 for the current-only codes), and that a current-only code with a field for it and an other index different from 0 prints a text
   that is refused. *)
Theorem C98_indexed_text :
  forall (code : bytes) (n d e : N) (raw : bytes) (index ondex : N),
  In (code, (n, d, e)) sig_codes ->
  let x := Ix code raw index ondex in
  iinfil x <> Panic /\
  ((exists t, iinfil x = Ok t) <-> len raw = n /\ index < 64 ^ d /\ (0 < e -> ondex < 64 ^ e)) /\
  forall t, iinfil x = Ok t ->
    (e = 0 -> In code current_codes -> iexfil t = Ok (Ix code raw index 0)) /\
    (e = 0 -> ~ In code current_codes -> iexfil t = Ok (Ix code raw index index)) /\
    (0 < e -> ~ In code current_codes \/ ondex = 0 -> iexfil t = Ok x) /\
    (0 < e -> In code current_codes -> ondex <> 0 -> exists r, iexfil t = Err r).
Proof. exact C98_indexed_l. Qed.
Print Assumptions C98_indexed_text.

Example C98_indexed_case : exists t, iinfil (iset_index 5 (iset_raw (zeros 64) siger_default)) = Ok t /\
  iexfil t = Ok (Ix (s! "A") (zeros 64) 5 5) /\ iinfil siger_default = Err EInvalidCodeSize.
Proof. eexists. split; [vm_compute; reflexivity|]. split; vm_compute; reflexivity. Qed.
Example C98_indexed_refused_case : exists t, iinfil (Ix (s! "2B") (zeros 64) 5 7) = Ok t /\ is_err (iexfil t) = true.
Proof. eexists. split; [vm_compute; reflexivity|]. vm_compute; reflexivity. Qed.

(** Asking an indexed signature in an arbitrary state for its full size never panics for the signature codes, and is the length of its text
   whenever that prints; printing the binary form panics exactly for the big Ed448 codes, whatever the state. *)
Theorem C98_indexed_sizes :
  forall (x : indexer) (n d e : N),
  In (i_code x, (n, d, e)) sig_codes ->
  (exists k, ifull_size x = Ok k /\ forall t, iinfil x = Ok t -> len t = k) /\
  (ibinfil x = Panic <-> In (i_code x) big448_codes).
Proof. exact C98_indexed_sizes_l. Qed.
Print Assumptions C98_indexed_sizes.

Example C98_indexed_binary_case : ibinfil (iset_code (s! "3A") siger_default) = Panic /\ ibinfil siger_default = Err EInvalidCodeSize /\
  ifull_size siger_default = Ok 88.
Proof. repeat split; vm_compute; reflexivity. Qed.

(** Reading the date-time of a Dater in an arbitrary state panics exactly when printing its text does, so never for the date-time code;
   reading the text of a Bexter in an arbitrary state never panics. *)
Theorem C98_readers :
  forall (m : matter),
  (dater_dts m = Panic <-> infil m = Panic) /\ (m_code m = s! "1AAG" -> dater_dts m <> Panic) /\ bext_of m <> Panic.
Proof. exact C98_readers_l. Qed.
Print Assumptions C98_readers.

Example C98_readers_case : dater_dts dater_default = Ok [] /\ bext_of (set_code (s! "6A") bexter_default) = Ok (s! "=") /\
  dater_dts (set_code (s! "3AAA") dater_default) = Panic.
Proof. repeat split; vm_compute; reflexivity. Qed.
