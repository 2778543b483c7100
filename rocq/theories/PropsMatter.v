(** Properties C01-C18. Theorem statements only; the proofs are in [MatterThms]. *)
From Coq Require Import String.
From Coq Require Import NArith ZArith QArith Bool List.
From Verif Require Import Base B64 Util Tables Matter Spec MatterThms BaseFacts.
Import ListNotations.
Open Scope N_scope.

(** Every primitive built from a code of the table prints, and its text (as a string or as bytes) parses back to it. *)
Theorem C01_matter_text_round_trip :
  forall (code raw : bytes) (m : matter),
  In code matter_codes -> matter_of_code_raw code raw = Ok m ->
  exists t, infil m = Ok t /\ exfil t = Ok m /\ exfil_b t = Ok m.
Proof. exact C01_l. Qed.
Print Assumptions C01_matter_text_round_trip.

Example C01_case : In (s! "6B") matter_codes /\
  matter_of_code_raw (s! "6B") [x61; x62; x63; x64] = Ok (Mt (s! "6B") 2 [x61; x62; x63; x64]) /\
  infil (Mt (s! "6B") 2 [x61; x62; x63; x64]) = Ok (s! "6BACAABhYmNk").
Proof. repeat split; try (vm_compute; reflexivity). vm_compute. tauto. Qed.

(** Every primitive built from a code of the table has a binary form that parses back to it. *)
Theorem C02_matter_binary_round_trip :
  forall (code raw : bytes) (m : matter),
  In code matter_codes -> matter_of_code_raw code raw = Ok m ->
  exists b, binfil m = Ok b /\ bexfil b = Ok m.
Proof. exact C02_l. Qed.
Print Assumptions C02_matter_binary_round_trip.

Example C02_case :
  matter_of_code_raw (s! "0H") [x01; x02; x03; x04] = Ok (Mt (s! "0H") 0 [x01; x02; x03; x04]) /\
  binfil (Mt (s! "0H") 0 [x01; x02; x03; x04]) = Ok [xd0; x70; x01; x02; x03; x04].
Proof. split; (vm_compute; reflexivity). Qed.

(** The two forms of a built primitive are each other's base64url encoding. *)
Theorem C03_text_and_binary_agree :
  forall (m : matter),
  built m ->
  exists t b, infil m = Ok t /\ binfil m = Ok b /\ decode t = Ok b /\ encode b = t.
Proof. exact C03_l. Qed.
Print Assumptions C03_text_and_binary_agree.

Example C03_case : decode (s! "0HABAgME") = Ok [xd0; x70; x01; x02; x03; x04] /\
  encode [xd0; x70; x01; x02; x03; x04] = s! "0HABAgME".
Proof. split; (vm_compute; reflexivity). Qed.

(** Concatenations of primitives convert between the domains as a whole, without parsing. *)
Theorem C03_concatenations_agree :
  forall (ms : list matter) (ts bs : list bytes),
  Forall built ms -> Forall2 (fun m t => infil m = Ok t) ms ts -> Forall2 (fun m b => binfil m = Ok b) ms bs ->
  encode (concat bs) = concat ts /\ decode (concat ts) = Ok (concat bs).
Proof. exact C03_concat_l. Qed.
Print Assumptions C03_concatenations_agree.

(** The text has full_size characters, a whole number of quadlets; the binary form has three quarters as many bytes. *)
Theorem C04_length_is_full_size :
  forall (m : matter),
  built m ->
  exists t b, infil m = Ok t /\ binfil m = Ok b /\ full_size m = Ok (len t) /\ len t mod 4 = 0 /\ 4 * len b = 3 * len t.
Proof. exact C04_l. Qed.
Print Assumptions C04_length_is_full_size.

Example C04_case : matter_of_code_raw (s! "4A") (repeat x41 300) = Ok (Mt (s! "4A") 100 (repeat x41 300)) /\
  full_size (Mt (s! "4A") 100 (repeat x41 300)) = Ok 404.
Proof. split; (vm_compute; reflexivity). Qed.

(** Whatever text follows, the parser returns exactly the primitive whose text comes first. *)
Theorem C05_self_framing_text :
  forall (m : matter) (t rest : bytes),
  built m -> infil m = Ok t -> utf8 rest = true ->
  exfil (t ++ rest) = Ok m /\ exfil t = Ok m.
Proof. exact C05_l. Qed.
Print Assumptions C05_self_framing_text.

Example C05_case : exfil (s! "MAAB-and more") = Ok (Mt (s! "M") 0 [x00; x01]).
Proof. vm_compute. reflexivity. Qed.

(** The same for any accepted text, printed by the library or not: what follows never changes the parse. *)
Theorem C05_trailing_text_ignored :
  forall (s rest : bytes) (m : matter),
  exfil s = Ok m -> utf8 rest = true -> exfil (s ++ rest) = Ok m.
Proof. exact C05_trailing_l. Qed.
Print Assumptions C05_trailing_text_ignored.

Example C05_trailing_case : exfil (s! "5BABAA==") = exfil (s! "5BABAA==MAAB") /\ is_ok (exfil (s! "5BABAA==")) = true.
Proof. split; (vm_compute; reflexivity). Qed.

(** Whatever bytes follow, the parser returns exactly the primitive whose binary form comes first. *)
Theorem C06_self_framing_binary :
  forall (m : matter) (b rest : bytes),
  built m -> binfil m = Ok b ->
  bexfil (b ++ rest) = Ok m /\ bexfil b = Ok m.
Proof. exact C06_l. Qed.
Print Assumptions C06_self_framing_binary.

Example C06_case : bexfil [xd0; x70; x01; x02; x03; x04; xff; x00; x17] = Ok (Mt (s! "0H") 0 [x01; x02; x03; x04]).
Proof. vm_compute. reflexivity. Qed.

(** Reading a concatenation of printed primitives recovers exactly the list, in text and in binary, and no other list can be read. *)
Theorem C07_stream_of_primitives :
  forall (ms : list matter) (ts bs : list bytes),
  Forall built ms -> Forall2 (fun m t => infil m = Ok t) ms ts -> Forall2 (fun m b => binfil m = Ok b) ms bs ->
  (forall ms', reads exfil full_size (concat ts) ms' <-> ms' = ms) /\
  (forall ms', reads bexfil (fun m => let* n := full_size m in Ok (n * 3 / 4)) (concat bs) ms' <-> ms' = ms).
Proof. exact C07_l. Qed.
Print Assumptions C07_stream_of_primitives.

Example C07_case : reads exfil full_size (s! "MAAB0HABAgME") [Mt (s! "M") 0 [x00; x01]; Mt (s! "0H") 0 [x01; x02; x03; x04]].
Proof.
  apply reads_cons with (n := 4); [discriminate|vm_compute; reflexivity|vm_compute; reflexivity|vm_compute; discriminate|].
  apply reads_cons with (n := 8); [discriminate|vm_compute; reflexivity|vm_compute; reflexivity|vm_compute; discriminate|].
  apply reads_nil.
Qed.

(** If the text (or binary form) of one built primitive starts with that of another, they are the same primitive. *)
Theorem C08_prefix_free :
  forall (a b : matter) (s t : bytes),
  built a -> built b ->
  (infil a = Ok s -> infil b = Ok t -> prefix s t -> a = b) /\
  (binfil a = Ok s -> binfil b = Ok t -> prefix s t -> a = b).
Proof. exact C08_l. Qed.
Print Assumptions C08_prefix_free.

Example C08_case : exists a b s t, built a /\ built b /\ infil a = Ok s /\ infil b = Ok t /\ a <> b.
Proof.
  exists (Mt (s! "M") 0 [x00; x01]), (Mt (s! "M") 0 [x00; x02]), (s! "MAAB"), (s! "MAAC"). split; [|split; [|split; [|split]]].
  - exists (s! "M"), [x00; x01]. split; [vm_compute; tauto|vm_compute; reflexivity].
  - exists (s! "M"), [x00; x02]. split; [vm_compute; tauto|vm_compute; reflexivity].
  - vm_compute. reflexivity.
  - vm_compute. reflexivity.
  - discriminate.
Qed.

(** The print of a parsed primitive is exactly the beginning of the text it was parsed from. *)
Theorem C09_text_not_malleable :
  forall (s t : bytes) (m : matter),
  exfil s = Ok m -> infil m = Ok t -> prefix t s.
Proof. exact C09_l. Qed.
Print Assumptions C09_text_not_malleable.

Example C09_case : exists m, exfil (s! "0HABAgMErest") = Ok m /\ infil m = Ok (s! "0HABAgME").
Proof. eexists. split. { vm_compute. reflexivity. } vm_compute. reflexivity. Qed.

(** Whatever binary parses prints again, and prints as exactly the beginning of the input. *)
Theorem C10_binary_not_malleable :
  forall (b : bytes) (m : matter),
  bexfil b = Ok m -> exists p, binfil m = Ok p /\ prefix p b.
Proof. exact C10_l. Qed.
Print Assumptions C10_binary_not_malleable.

Example C10_case : exists m, bexfil [xd0; x70; x01; x02; x03; x04; x99] = Ok m /\ binfil m = Ok [xd0; x70; x01; x02; x03; x04].
Proof. eexists. split. { vm_compute. reflexivity. } vm_compute. reflexivity. Qed.

(** False as stated: a text using the base64 padding sign parses to a primitive whose raw bytes are too short, and printing it
   returns an error or even panics. *)
Theorem C11_parsed_can_be_printed_refuted :
  (exists s m e, exfil s = Ok m /\ len (m_raw m) = 31 /\ raw_size (m_code m) = Ok 32 /\ infil m = Err e) /\
  (exists s m, exfil s = Ok m /\ infil m = Panic).
Proof. exact C11_refuted_l. Qed.
Print Assumptions C11_parsed_can_be_printed_refuted.

(** What holds: text without the base64 padding sign parses only to primitives which print in both domains and have exactly the raw
   size their code (or, for variable codes, their size field) prescribes. Missing: texts containing '=', see the refutation. *)
Theorem C11_parsed_can_be_printed_partial :
  forall (s : bytes) (m : matter),
  no_padding_sign s -> exfil s = Ok m ->
  (exists t b, infil m = Ok t /\ binfil m = Ok b) /\
  (forall n, raw_size (m_code m) = Ok n -> len (m_raw m) = n) /\
  (~ In (m_code m) (map fst fixed_codes) -> zero_bits (m_code m) + 8 * len (m_raw m) = 24 * m_size m).
Proof. exact C11_partial_l. Qed.
Print Assumptions C11_parsed_can_be_printed_partial.

Example C11_case : exists m, no_padding_sign (s! "5BABAGhp") /\ exfil (s! "5BABAGhp") = Ok m /\ m_raw m = [x68; x69].
Proof. eexists. split; [intros H; vm_compute in H; intuition discriminate|]. split. { vm_compute. reflexivity. } vm_compute. reflexivity. Qed.

(** Every proper prefix of a printed primitive is refused with an error value in both domains. *)
Theorem C12_truncation_rejected :
  forall (m : matter) (t b : bytes) (k : N),
  built m -> infil m = Ok t -> binfil m = Ok b ->
  (k < len t -> exists e, exfil (take k t) = Err e) /\ (k < len b -> exists e, bexfil (take k b) = Err e).
Proof. exact C12_l. Qed.
Print Assumptions C12_truncation_rejected.

Example C12_case : exfil (s! "0HABAgM") = Err EShortage /\ bexfil [xd0; x70; x01; x02] = Err EShortage.
Proof. split; (vm_compute; reflexivity). Qed.

(** In every text that parses, the bits between code and material (pad bits or lead bytes) are all zero: the characters that hold them
   form a number below 2^(6n - zero_bits). *)
Theorem C13_zero_bits_text :
  forall (s : bytes) (m : matter),
  exfil s = Ok m ->
  let k := zero_bits (m_code m) in
  let n := (k + 5) / 6 in
  exists v, base64_number 0 (take n (drop (code_chars (m_code m)) s)) = Some v /\ v < 2 ^ (6 * n - k).
Proof. exact C13_text_l. Qed.
Print Assumptions C13_zero_bits_text.

Example C13_case : is_err (exfil (s! "MgAA")) = true /\ is_err (exfil (s! "2AAAAPAA")) = false /\ is_err (exfil (s! "2AAAEAAA")) = true.
Proof. repeat split; (vm_compute; reflexivity). Qed.

(** In all binary input that parses, the zero_bits bits after the code bits are zero. *)
Theorem C13_zero_bits_binary :
  forall (b : bytes) (m : matter),
  bexfil b = Ok m ->
  let k := zero_bits (m_code m) in
  be_val (take ((6 * code_chars (m_code m) + k) / 8) b) mod 2 ^ k = 0.
Proof. exact C13_binary_l. Qed.
Print Assumptions C13_zero_bits_binary.

Example C13_binary_case : is_err (bexfil [x31; x00; x01]) = true /\ is_ok (bexfil [x30; x00; x01]) = true.
Proof. split; (vm_compute; reflexivity). Qed.

(** False as stated: these well-formed UTF-8 texts make the text parser panic (slice out of range, slice inside a character). *)
Theorem C14_text_never_panics_refuted :
  forall s, In s [s! "5AAA"; s! "3AAAAA=="; s! "6AABAA=="; x30 :: xc3 :: [xa9]] ->
  utf8 s = true /\ exfil s = Panic.
Proof. exact C14_refuted_l. Qed.
Print Assumptions C14_text_never_panics_refuted.

(** Building from the bytes of a text gives what building from the text gives; bytes that are not UTF-8 are an error. *)
Theorem C14_byte_strings :
  forall (b : bytes),
  (utf8 b = true -> matter_new None None (Some b) None None = matter_new None None None (Some b) None) /\
  (utf8 b = false -> exists e, matter_new None None (Some b) None None = Err e).
Proof. exact C14_bytes_l. Qed.
Print Assumptions C14_byte_strings.

Example C14_bytes_case : matter_new None None (Some (s! "MAAA")) None None = Ok (Mt (s! "M") 0 [x00; x00]) /\ matter_new None None (Some (s! "MAA" ++ [xff])) None None = Err EForeign.
Proof. split; vm_compute; reflexivity. Qed.

(** What holds: on ASCII text without the padding sign the only panics are the eight heads announcing an empty variable-size primitive that
   needs lead bytes. Missing: non-ASCII text and texts with '=', see the refutation. *)
Theorem C14_text_never_panics_partial :
  forall (s : bytes),
  ascii s = true -> no_padding_sign s ->
  (exfil s = Panic <-> exists w, In w empty_lead_heads /\ prefix w s).
Proof. exact C14_partial_l. Qed.
Print Assumptions C14_text_never_panics_partial.

Example C14_case : ascii (s! "-garbage+/!") = true /\ no_padding_sign (s! "-garbage+/!") /\ exfil (s! "-garbage+/!") = Err EUnexpectedCode.
Proof. repeat split; try (vm_compute; reflexivity). intros H. vm_compute in H. intuition discriminate. Qed.

(** False as stated: the binary form of an empty variable-size head with lead bytes makes the parser panic. *)
Theorem C15_binary_never_panics_refuted :
  bexfil [xe4; x00; x00] = Panic /\ bexfil [xe8; x00; x00; x41] = Panic.
Proof. exact C15_refuted_l. Qed.
Print Assumptions C15_binary_never_panics_refuted.

(** What holds: the binary parser panics exactly on input starting with one of those eight heads. Missing: those inputs. *)
Theorem C15_binary_never_panics_partial :
  forall (b : bytes),
  bexfil b = Panic <-> exists w p, In w empty_lead_heads /\ decode w = Ok p /\ prefix p b.
Proof. exact C15_partial_l. Qed.
Print Assumptions C15_binary_never_panics_partial.

Example C15_case : bexfil [xff; xff; xff] = Err EUnexpectedCode /\ bexfil [] = Err EEmptyMaterial.
Proof. split; (vm_compute; reflexivity). Qed.

(** Fixed-size codes: too little raw material is refused, otherwise exactly the leading prescribed bytes are kept. *)
Theorem C16_raw_size_enforced :
  forall (code raw : bytes) (n : N),
  In (code, n) fixed_codes ->
  matter_of_code_raw code raw = if len raw <? n then Err EShortage else Ok (Mt code 0 (take n raw)).
Proof. exact C16_l. Qed.
Print Assumptions C16_raw_size_enforced.

Example C16_case : In (s! "1AAF", 3) fixed_codes /\ matter_of_code_raw (s! "1AAF") [x01; x02; x03; x04] = Ok (Mt (s! "1AAF") 0 [x01; x02; x03]) /\
  matter_of_code_raw (s! "1AAF") [x01; x02] = Err EShortage.
Proof. repeat split; try (vm_compute; reflexivity). vm_compute. tauto. Qed.

(** A code that is neither in the table nor starts with a variable-size digit is refused with an error. *)
Theorem C16_unknown_code_refused :
  forall (code raw : bytes),
  ~ In code matter_codes ->
  (forall d, In d (s! "456789") -> ~ prefix [d] code) -> exists e, matter_of_code_raw code raw = Err e.
Proof. exact C16_unknown_l. Qed.
Print Assumptions C16_unknown_code_refused.

Example C16_unknown_case : matter_of_code_raw (s! "Z") [x01] = Err EUnknownSizage /\ matter_of_code_raw (s! "0é") [] = Err EUnknownSizage.
Proof. split; (vm_compute; reflexivity). Qed.

(** False as stated for raw material of 4 GiB and more: the length is cut to 32 bits, so 2^32 bytes are silently turned into an empty
   primitive. *)
Theorem C17_variable_code_selection_refuted :
  forall raw, len raw = 4294967296 -> matter_of_code_raw (s! "4B") raw = Ok (Mt (s! "4B") 0 []).
Proof. exact C17_refuted_l. Qed.
Print Assumptions C17_variable_code_selection_refuted.

(** What holds: below 4 GiB all raw bytes are kept, the lead size follows from the length modulo three, small codes are used below 64^2
   quadlets, large ones below 64^4, and more is refused. Missing: 4 GiB and more. *)
Theorem C17_variable_code_selection_partial :
  forall (raw : bytes),
  len raw < 2 ^ 32 ->
  let lead := (3 - len raw mod 3) mod 3 in
  let quads := (len raw + lead) / 3 in
  (forall d t, In [d; t] small_codes ->
     matter_of_code_raw [d; t] raw =
       if quads <? 64 ^ 2 then Ok (Mt [digit_char (4 + lead); t] quads raw)
       else if quads <? 64 ^ 4 then Ok (Mt [digit_char (7 + lead); x41; x41; t] quads raw)
       else Err EInvalidVarRawSize) /\
  (forall d u v t, In [d; u; v; t] large_codes ->
     matter_of_code_raw [d; u; v; t] raw =
       if quads <? 64 ^ 4 then Ok (Mt [digit_char (7 + lead); u; v; t] quads raw)
       else Err EInvalidVarRawSize).
Proof. exact C17_partial_l. Qed.
Print Assumptions C17_variable_code_selection_partial.

Example C17_case : In [x36; x42] small_codes /\ matter_of_code_raw [x36; x42] [x61; x62] = Ok (Mt [x35; x42] 1 [x61; x62]).
Proof. split; [vm_compute; tauto|vm_compute; reflexivity]. Qed.

(** And from 4 GiB on: the material is cut to its length modulo 2^32, silently, before anything else. *)
Theorem C17_variable_code_truncates :
  forall (code raw : bytes),
  In code (small_codes ++ large_codes) ->
  matter_of_code_raw code raw = matter_of_code_raw code (take (len raw mod 2 ^ 32) raw).
Proof. exact C17_truncates_l. Qed.
Print Assumptions C17_variable_code_truncates.

Example C17_truncates_case : forall raw, len raw = 2 ^ 32 + 3 -> matter_of_code_raw (s! "4B") raw = Ok (Mt (s! "4B") 1 (take 3 raw)).
Proof. intros raw L. rewrite (C17_truncates_l _ raw) by (vm_compute; tauto). rewrite L. change ((2 ^ 32 + 3) mod 2 ^ 32) with 3.
  assert (len (take 3 raw) = 3) as L3 by (rewrite len_take, L; reflexivity). pose proof (proj1 (C17_partial_l (take 3 raw) ltac:(rewrite L3; reflexivity)) x34 x42) as H. change (s! "4B") with [x34; x42] in *.
  rewrite H by (vm_compute; tauto). rewrite L3. reflexivity. Qed.

(** False as stated: 1AAI, the non-transferable secp256r1 key code, is reported transferable. *)
Theorem C18_transferability_refuted :
  forall size raw, transferable (Mt (s! "1AAI") size raw) = true.
Proof. exact C18_refuted_l. Qed.
Print Assumptions C18_transferability_refuted.

(** What holds: for every other code the answer is right. Missing: 1AAI. *)
Theorem C18_transferability_partial :
  forall (m : matter),
  m_code m <> s! "1AAI" ->
  (transferable m = false <-> In (m_code m) [s! "B"; s! "1AAA"; s! "1AAC"; s! "1AAI"]).
Proof. exact C18_partial_l. Qed.
Print Assumptions C18_transferability_partial.

Example C18_case : transferable (Mt (s! "B") 0 []) = false /\ transferable (Mt (s! "D") 0 []) = true.
Proof. split; reflexivity. Qed.
