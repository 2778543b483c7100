(** Properties C156 to C160: the JavaScript bindings. Theorem statements only; the proofs are in [WasmThms]. *)
From Coq Require Import String.
From Coq Require Import NArith ZArith QArith Bool List.
From Verif Require Import Base Tables Matter Indexer Prims Json Tholder Common Saider Sadder Prefixer Short SpecJson SpecTholder SpecSaider SpecSadder SpecShort SaiderThms Wasm SpecWasm WasmThms.
Import ListNotations.
Open Scope N_scope.

(** The number a script is given is the number: the two words that Number.num, Seqner.sn, Serder.sn and Serder._fn answer with are the high and the low half of what the function of the
   crate answers, and there is an answer exactly when there is one there. *)
Theorem C156_numbers_go_out :
  forall (m : matter) (e : sadder),
  (forall n, number_num m = Ok n <-> exists p, js_num m = Ok p /\ denotes p n) /\
  (forall n, seqner_sn m = Ok n <-> exists p, js_sn m = Ok p /\ denotes p n) /\
  (forall n, serder_sn e = Ok n <-> exists p, js_serder_sn e = Ok p /\ denotes p n) /\
  (forall n, serder_fn e = Ok n <-> exists p, js_serder_fn e = Ok p /\ denotes p n).
Proof. exact C156_out_l. Qed.
Print Assumptions C156_numbers_go_out.

Example C156_out_case : exists m p, number_with_numh (s! "10000000000000005") = Ok m /\ number_num m = Ok (2 ^ 64 + 5) /\ js_num m = Ok p /\ p = U128 5 1.
Proof. eexists. eexists. split; [vm_compute; reflexivity|]. split; [vm_compute; reflexivity|]. split; [vm_compute; reflexivity|]. reflexivity. Qed.

(** A number that a script hands back is not always the number it was given: the conversion joins the two words without shifting the high one. The sequence number of an event, read by
   Serder.sn and handed to Seqner.new_with_sn, becomes another one, and so does the number of Number.num handed to Number.new_with_num: 2^64 becomes 1. *)
Theorem C156_numbers_come_back_refuted :
  exists m p m' s',
  number_with_numh (s! "10000000000000000") = Ok m /\ number_num m = Ok (2 ^ 64) /\ js_num m = Ok p /\
  js_number_with_num p = Ok m' /\ number_num m' = Ok 1 /\ js_seqner_with_sn p = Ok s' /\ seqner_sn s' = Ok 1.
Proof. exact C156_refuted_l. Qed.
Print Assumptions C156_numbers_come_back_refuted.

Example C156_back_case : u128_of_js (js_of_u128 (2 ^ 64 + 2)) = 3 /\ u128_of_js (js_of_u128 77) = 77.
Proof. split; vm_compute; reflexivity. Qed.

(** A number handed back always makes a number, and the same one exactly when it is below 2^64, whichever way it is handed in: to Number.new_with_num, Seqner.new_with_sn, or the constructors
   Number and Seqner. *)
Theorem C156_numbers_come_back_exactly :
  forall (p : u128_js) (n : N),
  denotes p n ->
  (exists m k, js_number_with_num p = Ok m /\ number_num m = Ok k /\ (k = n <-> n < 2 ^ 64)) /\
  (exists m k, js_seqner_with_sn p = Ok m /\ seqner_sn m = Ok k /\ (k = n <-> n < 2 ^ 64)) /\
  (exists m k, js_number_new (Some p) None None None None None None = Ok m /\ number_num m = Ok k /\ (k = n <-> n < 2 ^ 64)) /\
  (exists m k, js_seqner_new (Some p) None None None None None None = Ok m /\ seqner_sn m = Ok k /\ (k = n <-> n < 2 ^ 64)).
Proof. exact C156_exactly_l. Qed.
Print Assumptions C156_numbers_come_back_exactly.

Example C156_exactly_case : exists p m, js_num (Mt (s! "N") 0 [x00; x00; x00; x00; x00; x00; x01; x02]) = Ok p /\ denotes p 258 /\ js_number_with_num p = Ok m /\ number_num m = Ok 258.
Proof.
  eexists. eexists. split; [vm_compute; reflexivity|]. split; [vm_compute; auto|]. split; vm_compute; reflexivity.
Qed.

(** Serder.ked never answers: whatever event a script has built, asking for its body traps. The body is an object, and the bindings turn it into text with a function that is for strings and
   unwrap its error. *)
Theorem C157_body_given_refuted :
  forall (canon : bytes -> option bytes) (s : sadder),
  scripted canon s -> js_ked s = Panic.
Proof. exact C157_body_l. Qed.
Print Assumptions C157_body_given_refuted.

Definition js_event : bytes := s! "{""v"":""KERI10JSON000065_"",""t"":""rct"",""d"":""EAAAAAAAAAAAAAAAAAAAAAAAAAAAAAAAAAAAAAAAAAAA"",""i"":"""",""s"":""0""}".
Example C157_body_case : exists s, js_serder_with_ked (fun _ => None) js_event None None = Ok s /\ scripted (fun _ => None) s /\ js_ked s = Panic.
Proof. eexists. split; [vm_compute; reflexivity|]. split; [|vm_compute; reflexivity]. apply (scripted_with_ked _ js_event None None). vm_compute. reflexivity. Qed.

(** Saider.saidify never answers: on a text whose value has a SAID computed, the bindings trap when they turn the completed value into text; where the function of the crate is an error or
   panics, so does it. *)
Theorem C157_saidify_refuted :
  forall (canon : bytes -> option bytes) (hash : bytes -> bytes -> bytes) (text : bytes) (code kind label : option bytes) (ignore : option (list (option bytes))),
  (forall r, js_saidify canon hash text code kind label ignore <> Ok r) /\
  (forall v names, value_of_text canon text = Ok v -> ignore = option_map strings names ->
     (js_saidify canon hash text code kind label ignore = Panic <->
      saidify hash v code kind label (match names with Some l => l | None => [] end) = Panic \/ exists r, saidify hash v code kind label (match names with Some l => l | None => [] end) = Ok r)).
Proof. exact C157_saidify_l. Qed.
Print Assumptions C157_saidify_refuted.

Example C157_saidify_case : value_of_text (fun _ => None) (s! "{""d"":"""",""a"":1}") = Ok (VObj [(s! "d", VStr []); (s! "a", VInt 1)]) /\
  is_ok (saidify pretend (VObj [(s! "d", VStr []); (s! "a", VInt 1)]) None None None []) = true /\
  js_saidify (fun _ => None) pretend (s! "{""d"":"""",""a"":1}") None None None None = Panic.
Proof. split; [vm_compute; reflexivity|]. split; vm_compute; reflexivity. Qed.

(** What a script can do instead: the bytes of an event read from bytes are the text of its body, and Saider.new_with_sad gives the identifier that saidify would have given. Full statement: Serder.ked
   and Saider.saidify give the body and the completed data. *)
Theorem C157_handed_out_partial :
  forall (canon : bytes -> option bytes) (hash : bytes -> bytes -> bytes),
  (forall code raw kind ked sad s, js_serder_new canon code (Some raw) kind ked sad = Ok s -> js_value canon (d_raw s) = Ok (d_ked s)) /\
  (forall text m code kind label names x out, sized_hash hash -> value_of_text canon text = Ok (VObj m) ->
     saidify hash (VObj m) (Some code) kind label (match names with Some l => l | None => [] end) = Ok (x, out) ->
     js_said_with_sad canon hash text label kind (option_map strings names) (Some code) = Ok x).
Proof. exact C157_partial_l. Qed.
Print Assumptions C157_handed_out_partial.

Example C157_instead_case : exists s, js_serder_new (fun _ => None) None (Some js_event) None None None = Ok s /\ js_value (fun _ => None) (d_raw s) = Ok (d_ked s).
Proof. eexists. split; [vm_compute; reflexivity|]. vm_compute. reflexivity. Qed.

(** A text that is not JSON traps at every binding that takes a value, where a Rust caller would be handed an error: the reader's error is unwrapped. *)
Theorem C158_bad_text_is_error_refuted :
  forall (canon : bytes -> option bytes) (hash : bytes -> bytes -> bytes) (text : bytes) (e : err),
  value_of_text canon text = Err e ->
  (forall limen sith, js_tholder_new canon (Some text) limen sith = Panic) /\ js_tholder_with_thold canon text = Panic /\ js_tholder_with_sith canon text = Panic /\
  (forall label kind ignore code raw qb64b qb64 qb2, js_said_new canon hash (Some text) label kind ignore code raw qb64b qb64 qb2 = Panic) /\
  (forall label kind ignore code, js_said_with_sad canon hash text label kind ignore code = Panic) /\
  (forall code kind label ignore, js_saidify canon hash text code kind label ignore = Panic) /\
  (forall self prefixed versioned kind label ignore, js_said_verify canon hash self text prefixed versioned kind label ignore = Panic) /\
  (forall allows code raw qb64b qb64 qb2, js_prefixer_new canon hash (Some text) allows code raw qb64b qb64 qb2 = Panic) /\
  (forall allows code, js_prefixer_with_ked canon hash text allows code = Panic) /\
  (forall self prefixed, js_prefixer_verify canon hash self text prefixed = Panic) /\
  (forall code raw kind sad, js_serder_new canon code raw kind (Some text) sad = Panic) /\
  (forall code kind, js_serder_with_ked canon text code kind = Panic).
Proof. exact C158_refuted_l. Qed.
Print Assumptions C158_bad_text_is_error_refuted.

Example C158_bad_case : exists e, pjson (fun _ => None) (s! "{'a':1}") = Err e /\ value_of_text (fun _ => None) (s! "{'a':1}") = Err e.
Proof. eexists. split; vm_compute; reflexivity. Qed.

(** Everything else is as for a Rust caller: a text that reads as a value makes each binding do what the function of the crate does with that value, errors included; and the bindings' own reading traps
   on exactly the texts that are not JSON or that the loader of the crate panics on. Full statement: a text that is not JSON is an error. *)
Theorem C158_good_text_partial :
  forall (canon : bytes -> option bytes) (hash : bytes -> bytes -> bytes) (text : bytes),
  (js_value canon text = Panic <-> (exists e, pjson canon text = Err e) \/ exists j, pjson canon text = Ok j /\ unloadable j) /\
  (forall v names, value_of_text canon text = Ok v ->
    js_tholder_with_thold canon text = tholder_with_thold canon v /\ js_tholder_with_sith canon text = tholder_with_sith canon v /\
    (forall limen, js_tholder_new canon (Some text) limen None = tholder_new canon (Some v) limen None /\ js_tholder_new canon None limen (Some text) = tholder_new canon None limen (Some v)) /\
    (forall label kind code raw qb64b qb64 qb2, js_said_new canon hash (Some text) label kind (option_map strings names) code raw qb64b qb64 qb2 =
       said_new hash (Some v) label kind (match names with Some l => l | None => [] end) code raw qb64b qb64 qb2) /\
    (forall label kind code, js_said_with_sad canon hash text label kind (option_map strings names) code = said_with_sad hash v label kind names code) /\
    (forall self prefixed versioned kind label, js_said_verify canon hash self text prefixed versioned kind label (option_map strings names) =
       said_verify hash self v prefixed versioned kind label (match names with Some l => l | None => [] end)) /\
    (forall code raw qb64b qb64 qb2, js_prefixer_new canon hash (Some text) (option_map strings names) code raw qb64b qb64 qb2 = prefixer_new hash (Some v) names code raw qb64b qb64 qb2) /\
    (forall code, js_prefixer_with_ked canon hash text (option_map strings names) code = prefixer_with_ked hash v names code) /\
    (forall self prefixed, js_prefixer_verify canon hash self text prefixed = prefixer_verify hash self v prefixed) /\
    (forall code raw kind sad, js_serder_new canon code raw kind (Some text) sad = serder_new canon code raw kind (Some v) sad) /\
    (forall code kind, js_serder_with_ked canon text code kind = serder_with_ked canon v code kind)).
Proof. exact C158_partial_l. Qed.
Print Assumptions C158_good_text_partial.

Example C158_good_case : value_of_text (fun _ => None) (s! "[""1/2"", ""1/2""]") = Ok (VArr [VStr (s! "1/2"); VStr (s! "1/2")]) /\
  js_tholder_with_sith (fun _ => None) (s! "[""1/2"", ""1/2""]") = tholder_with_sith (fun _ => None) (VArr [VStr (s! "1/2"); VStr (s! "1/2")]) /\
  is_ok (js_tholder_with_sith (fun _ => None) (s! "[""1/2"", ""1/2""]")) = true.
Proof. split; [vm_compute; reflexivity|]. split; vm_compute; reflexivity. Qed.

(** The texts a script handles mean what the values of the crate mean. For data without floats nested no deeper than 127, verifying an identifier or a prefix against its JSON text gives the verdict of the
   crate on the data; completed data verify against the identifier that completed them; and the texts that Tholder.thold and Tholder.sith give make the same threshold again. *)
Theorem C159_texts_read_back :
  forall (canon : bytes -> option bytes) (hash : bytes -> bytes -> bytes),
  (forall v self prefixed versioned kind label names, data v -> nests 127 v ->
     js_said_verify canon hash self (to_json v) prefixed versioned kind label (option_map strings names) =
     said_verify hash self v prefixed versioned kind label (match names with Some l => l | None => [] end)) /\
  (forall v self prefixed, data v -> nests 127 v -> js_prefixer_verify canon hash self (to_json v) prefixed = prefixer_verify hash self v prefixed) /\
  (forall m code kind label names x out prefixed versioned, sized_hash hash -> data (VObj m) -> nests 127 (VObj m) ->
     saidify hash (VObj m) (Some code) kind label (match names with Some l => l | None => [] end) = Ok (x, out) ->
     js_said_verify canon hash x (to_json out) prefixed versioned kind label (option_map strings names) = Ok true) /\
  (forall thold limen sith t, js_tholder_new canon thold limen sith = Ok t -> t_thold t <> VArr [] -> SpecTholder.keys (t_thold t) < 2 ^ 27 ->
     exists a b, js_thold t = Ok a /\ js_sith t = Ok b /\ js_tholder_with_thold canon a = Ok t /\ js_tholder_with_sith canon b = Ok t).
Proof. exact C159_l. Qed.
Print Assumptions C159_texts_read_back.

Example C159_case : exists t a b, js_tholder_new (fun _ => None) None None (Some (s! "[[""1/2"",""1/2""],[""1""]]")) = Ok t /\ js_thold t = Ok a /\ js_sith t = Ok b /\
  a = s! "[[""1/2"",""1/2""],[""1""]]" /\ SpecTholder.keys (t_thold t) = 3.
Proof. eexists. eexists. eexists. split; [vm_compute; reflexivity|]. split; [vm_compute; reflexivity|]. split; [vm_compute; reflexivity|]. split; vm_compute; reflexivity. Qed.

(** Each name that the codexes offer to a script stands for the code that the codex of the crate gives to the name, underscores apart; different names stand for different codes; and each code is in the size table
   of the crate. *)
Theorem C160_codex :
  (forall name code, js_matter_code name = Some code -> exists name', same_name name name' /\ In (name', code) matter_codex) /\
  (forall name code, js_indexer_code name = Some code -> exists name', same_name name name' /\ In (name', code) indexer_codex) /\
  (forall a b code, js_matter_code a = Some code -> js_matter_code b = Some code -> a = b) /\
  (forall a b code, js_indexer_code a = Some code -> js_indexer_code b = Some code -> a = b) /\
  (forall name code, js_matter_code name = Some code -> exists z, In (code, z) matter_table) /\
  (forall name code, js_indexer_code name = Some code -> exists z, In (code, z) indexer_table).
Proof. exact C160_l. Qed.
Print Assumptions C160_codex.

Example C160_case : js_matter_code (s! "Ed25519Seed") = Some (s! "A") /\ js_matter_code (s! "Blake3_256") = Some (s! "E") /\ js_indexer_code (s! "Ed448_Big_Crt") = Some (s! "3B") /\
  js_matter_code (s! "Ed25519Sed") = None.
Proof. repeat split; vm_compute; reflexivity. Qed.

(** The codexes do not offer every code of the crate. The codes of ECDSA over secp256r1, and no others, have no name: seed, signature and the two keys in the codex of primitives, and the four indexed signatures. *)
Theorem C160_codex_complete_refuted :
  (forall name code, In (name, code) matter_codex -> ((forall js, js_matter_code js <> Some code) <-> In code [s! "Q"; s! "0I"; s! "1AAI"; s! "1AAJ"])) /\
  (forall name code, In (name, code) indexer_codex -> ((forall js, js_indexer_code js <> Some code) <-> In code [s! "E"; s! "F"; s! "2E"; s! "2F"])).
Proof. exact C160_refuted_l. Qed.
Print Assumptions C160_codex_complete_refuted.

Example C160_missing_case : In (s! "ECDSA_256r1_Seed", s! "Q") matter_codex /\ js_matter_code (s! "ECDSA_256r1_Seed") = None /\ exists m, matter_of_code_raw (s! "Q") (repeat x00 32) = Ok m.
Proof. split; [vm_compute; tauto|]. split; [vm_compute; reflexivity|]. eexists. vm_compute. reflexivity. Qed.
