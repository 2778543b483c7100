(** Properties C48-C50, C81. Theorem statements only; the proofs are in [JsonThms]. *)
From Coq Require Import String.
From Coq Require Import NArith ZArith QArith Bool List.
From Verif Require Import Base Json SpecJson JsonThms BaseFacts.
Import ListNotations.
Open Scope N_scope.

(** Two data values without floats that print to the same JSON text are equal, in the order of keys too. More: the text of one is never a proper
   prefix of the text of another followed by a character that ends a value. *)
Theorem C48_json_output_injective :
  forall (v w : value) (r : bytes),
  data v -> data w ->
  (to_json v = to_json w -> v = w) /\
  (forall c r', r = c :: r' -> In c (s! ",]} ") -> to_json w <> to_json v ++ r).
Proof. exact C48_l. Qed.
Print Assumptions C48_json_output_injective.

Definition doc1 : value := VObj [(s! "v", VStr (s! "KERI10JSON000000_")); (s! "a", VArr [VInt (-5); VBool true; VNull; VObj []; VStr [x22; x5c; x0a; xc3; xa9]])].
Example C48_case : data doc1 /\ to_json doc1 = s! "{""v"":""KERI10JSON000000_"",""a"":[-5,true,null,{},""" ++ [x5c; x22; x5c; x5c; x5c; x6e; xc3; xa9] ++ s! """]}".
Proof.
  split; [|vm_compute; reflexivity]. apply data_obj.
  - repeat constructor; cbn; intuition discriminate.
  - repeat constructor.
  - repeat (constructor; try (vm_compute; intuition discriminate)).
Qed.

(** Reading back the JSON text of a data value without floats nested at most 127 deep gives exactly that value, key order included, whatever the
   treatment of floats. *)
Theorem C49_json_round_trip :
  forall (canon : bytes -> option bytes) (v : value),
  data v -> nests 127 v -> value_of_text canon (to_json v) = Ok v.
Proof. exact C49_l. Qed.
Print Assumptions C49_json_round_trip.

Example C49_case : data doc1 /\ nests 127 doc1 /\ value_of_text (fun _ => None) (to_json doc1) = Ok doc1.
Proof.
  split; [apply C48_case|]. split; [|vm_compute; reflexivity].
  repeat (constructor; cbn [map snd]).
Qed.

(** Loading JSON can panic: the integer 9223372036854775808 (2^63) does, however floats are treated. *)
Theorem C50_loading_json_never_panics_refuted :
  exists s, forall canon, value_of_text canon s = Panic.
Proof. exact C50_refuted_l. Qed.
Print Assumptions C50_loading_json_never_panics_refuted.

Example C50_refuted_case : value_of_text (fun _ => None) (s! "{""a"":9223372036854775807}") = Ok (VObj [(s! "a", VInt 9223372036854775807)]).
Proof. vm_compute. reflexivity. Qed.

(** Loading panics on no other account: a text makes the loader panic exactly when it is a JSON document holding an integer of 2^63 or more or a
   float whose shortest text has no decimal point. Every other text loads or is an error. *)
Theorem C50_loading_json_partial :
  forall (canon : bytes -> option bytes) (s : bytes),
  value_of_text canon s = Panic <-> exists j, pjson canon s = Ok j /\ unloadable j.
Proof. exact C50_partial_l. Qed.
Print Assumptions C50_loading_json_partial.

Example C50_case : value_of_text Some (s! "[1e300]") = Panic /\ pjson Some (s! "[1e300]") = Ok (JArr [JFloat (s! "1e300")]) /\ unloadable (JArr [JFloat (s! "1e300")])
  /\ value_of_text Some (s! "[1.5e3]") = Ok (VArr [VFloat (s! "1.5e3")]) /\ value_of_text Some (s! "[1,]") = Err EForeign.
Proof.
  split; [vm_compute; reflexivity|]. split; [vm_compute; reflexivity|]. split; [|split; vm_compute; reflexivity].
  apply (un_arr _ (JFloat (s! "1e300"))); [now left|]. constructor. vm_compute. intuition discriminate.
Qed.

(** Whatever float-free value the loader returns is a data value nested at most 127 deep (64-bit integers, UTF-8 strings, distinct labels), and
   reading its own JSON text returns it unchanged. *)
Theorem C81_read_values_can_be_written :
  forall (canon : bytes -> option bytes) (s : bytes) (v : value),
  value_of_text canon s = Ok v -> float_free v ->
  data v /\ nests 127 v /\ value_of_text canon (to_json v) = Ok v.
Proof. exact C81_l. Qed.
Print Assumptions C81_read_values_can_be_written.

Example C81_case : value_of_text (fun _ => None) (s! " { ""b"" : [ -0012 ] }") = Err EForeign /\
  value_of_text (fun _ => None) (s! " { ""b"" : [ -12 ] , ""a"" : ""é"", ""b"": null}") = Ok (VObj [(s! "b", VNull); (s! "a", VStr [xc3; xa9])]) /\
  float_free (VObj [(s! "b", VNull); (s! "a", VStr [xc3; xa9])]).
Proof. split; [vm_compute; reflexivity|]. split; [vm_compute; reflexivity|]. repeat constructor. Qed.
