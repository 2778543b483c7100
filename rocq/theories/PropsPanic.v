(** Properties C11, C14, C32, C79: exactly which texts make the parsers panic. Theorem statements only; the proofs are in [PanicThms]. *)
From Coq Require Import String.
From Coq Require Import NArith ZArith QArith Bool List.
From Verif Require Import Base B64 Util Tables Matter Indexer Counter Spec SpecIndexer SpecCounter SpecPanic PanicThms BaseFacts.
Import ListNotations.
Open Scope N_scope.

(** Exactly which texts make the text parser panic: those where the end of the code, of the size field or of the announced material lies inside a
   character, those announcing an empty variable-size primitive that needs lead bytes, and those whose only quadlet stands for a single byte although two
   lead bytes are needed. *)
Theorem C14_text_panics_exactly :
  forall (s : bytes),
  utf8 s = true ->
  (exfil s = Panic <->
    (exists d, In d (s! "0456") /\ prefix [d] s /\ inside s 2) \/
    (exists d, In d (s! "123789") /\ prefix [d] s /\ inside s 4) \/
    (exists code, In code (small_codes ++ large_codes) /\ prefix code s /\ inside s (code_chars code)) \/
    (exists n, announced s n /\ inside s n) \/
    (exists w, In w empty_lead_heads /\ prefix w s) \/
    (exists w a b, In w short_lead_heads /\ is_b64 a = true /\ In b (s! "AQgw") /\ prefix (w ++ [a; b; x3d; x3d]) s)).
Proof. exact C14_exact_l. Qed.
Print Assumptions C14_text_panics_exactly.

Example C14_exact_case : utf8 (s! "MAA" ++ [xc3; xa9]) = true /\ announced (s! "MAA" ++ [xc3; xa9]) 4 /\ inside (s! "MAA" ++ [xc3; xa9]) 4 /\
  exfil (s! "MAA" ++ [xc3; xa9]) = Panic /\ exfil (s! "MA" ++ [xc3; xa9]) = Err EForeign.
Proof.
  split; [reflexivity|]. split; [apply (announced_fixed _ (s! "M") 2); [vm_compute; tauto|exists (s! "AA" ++ [xc3; xa9]); reflexivity]|].
  split; [exists xa9; split; [reflexivity|vm_compute; split; discriminate]|]. split; vm_compute; reflexivity.
Qed.

(** Exactly which texts make the counter parser panic: those of one byte, and those where the second byte, the end of the code or the end of the count lies inside a
   character. *)
Theorem C32_counter_text_panics_exactly :
  forall (s : bytes),
  utf8 s = true ->
  (cexfil s = Panic <->
    len s = 1 \/ inside s 2 \/ (prefix (s! "-0") s /\ inside s 3) \/ (prefix (s! "--") s /\ inside s 5) \/
    (exists code k, In (code, k) counter_codes /\ prefix code s /\ inside s (len code + k))).
Proof. exact C32_exact_l. Qed.
Print Assumptions C32_counter_text_panics_exactly.

Example C32_exact_case : cexfil (s! "-AA" ++ [xc3; xa9]) = Panic /\ inside (s! "-AA" ++ [xc3; xa9]) 4 /\ In (s! "-A", 2) counter_codes.
Proof. split; [vm_compute; reflexivity|]. split; [exists xa9; split; [reflexivity|vm_compute; split; discriminate]|vm_compute; tauto]. Qed.

(** Exactly which texts make the parser of indexed primitives panic: those where the end of a two-character code, of the index, of the other index (the index being well
   formed) or of the announced text (both indices being well formed) lies inside a character. *)
Theorem C79_indexed_text_panics_exactly :
  forall (s : bytes),
  utf8 s = true ->
  (iexfil s = Panic <->
    (exists d, In d (s! "01234") /\ prefix [d] s /\ inside s 2) \/
    (exists code i o, In (code, (i, o)) index_chars /\ prefix code s /\ len code + i + o <= len s /\ inside s (len code + i)) \/
    (exists code i o, In (code, (i, o)) index_chars /\ prefix code s /\ is_b64s (take i (drop (len code) s)) = true /\ inside s (len code + i + o)) \/
    (exists n, indexed_announced s n /\ inside s n)).
Proof. exact C79_exact_l. Qed.
Print Assumptions C79_indexed_text_panics_exactly.

Example C79_exact_case : iexfil (s! "2AA" ++ [xc3; xa9] ++ s! "A") = Panic /\ inside (s! "2AA" ++ [xc3; xa9] ++ s! "A") 4 /\ In (s! "2A", (2, 2)) index_chars /\
  In (s! "2A", (2, 2, 92)) indexed_texts.
Proof. split; [vm_compute; reflexivity|]. split; [exists xa9; split; [reflexivity|vm_compute; split; discriminate]|]. split; vm_compute; tauto. Qed.

(** Exactly which parsed texts give a primitive that prints: those whose announced part holds no padding sign. It prints in both forms or in neither. *)
Theorem C11_parsed_and_printable :
  forall (s : bytes) (m : matter),
  exfil s = Ok m ->
  exists t rest, s = t ++ rest /\ announced s (len t) /\
    ((exists p, infil m = Ok p) <-> no_padding_sign t) /\ ((exists b, binfil m = Ok b) <-> no_padding_sign t).
Proof. exact C11_exact_l. Qed.
Print Assumptions C11_parsed_and_printable.

Example C11_exact_case : exists m m', exfil (s! "5BABAGg=") = Ok m /\ infil m = Err EInvalidCodeSize /\ exfil (s! "5BABAGhp=") = Ok m' /\ infil m' = Ok (s! "5BABAGhp").
Proof. eexists _, _. split; [vm_compute; reflexivity|]. split; [vm_compute; reflexivity|]. split; [vm_compute; reflexivity|]. vm_compute. reflexivity. Qed.
