(** Properties C101, C102. Theorem statements only; the proofs are in [FieldThms]. *)
From Coq Require Import String.
From Coq Require Import NArith ZArith QArith Bool List.
From Verif Require Import Base Tables Matter Prims Json Tholder Common Saider Sadder Spec SpecPrims SpecJson SpecCommon SpecTholder SpecSaider SpecSadder SaiderThms FieldThms BaseFacts.
Import ListNotations.
Open Scope N_scope.

(** The data saidify returns have the labels of the data given, in the same order. The label field holds the SAID's text and the SAID has
   the code asked for (E if none is). If there is a version string, it becomes one of the same protocol announcing the size of the
   returned data's JSON (modulo 2^32). Every other field is as it was. *)
Theorem C101_saidify_output :
  forall (hash : bytes -> bytes -> bytes) (m : list (bytes * value)) (code kind label : option bytes) (ignore : list bytes) (s : matter) (out : value),
  sized_hash hash -> saidify hash (VObj m) code kind label ignore = Ok (s, out) ->
  let l := match label with Some l => l | None => s! "d" end in
  exists o t, out = VObj o /\ map fst o = map fst m /\ m_code s = (match code with Some c => c | None => s! "E" end) /\
  infil s = Ok t /\ get l o = Some (VStr t) /\ l <> s! "v" /\
  (forall k, k <> l -> k <> s! "v" -> get k o = get k m) /\
  (forall x, get (s! "v") m = Some x -> exists vs proto n vs', x = VStr vs /\ version_string vs proto 1 0 n /\
     get (s! "v") o = Some (VStr vs') /\ version_string vs' proto 1 0 (len (to_json out) mod 2 ^ 32)).
Proof. exact C101_output_l. Qed.
Print Assumptions C101_saidify_output.

Example C101_case : exists s o, saidify pretend (VObj [(s! "v", VStr (s! "KERI10JSON000000_")); (s! "d", VStr []); (s! "a", VInt 3)]) None None None [] = Ok (s, o) /\
  get (s! "v") [(s! "v", VStr (s! "KERI10JSON000000_")); (s! "d", VStr []); (s! "a", VInt 3)] = Some (VStr (s! "KERI10JSON000000_")).
Proof. eexists. eexists. split; [vm_compute; reflexivity|]. reflexivity. Qed.

(** Saider::new given data recomputes the SAID that saidify would give. Given the returned data alone it finds the digest algorithm from the
   SAID in them and yields the same SAID. Given the original data without a code, it takes the algorithm of the text in the label field,
   or E if that text is empty. *)
Theorem C101_new_from_data :
  forall (hash : bytes -> bytes -> bytes) (m : list (bytes * value)) (code x : bytes) (kind label : option bytes) (ignore : list bytes) (s : matter) (out : value),
  sized_hash hash -> saidify hash (VObj m) (Some code) kind label ignore = Ok (s, out) ->
  let l := match label with Some l => l | None => s! "d" end in
  said_new hash (Some (VObj m)) label kind ignore (Some code) None None None None = Ok s /\
  said_new hash (Some out) label kind ignore None None None None None = Ok s /\
  (get l m = Some (VStr x) -> (x = [] /\ code = s! "E" \/ exists y, exfil x = Ok y /\ m_code y = code) ->
   said_new hash (Some (VObj m)) label kind ignore None None None None None = Ok s).
Proof. exact C101_new_l. Qed.
Print Assumptions C101_new_from_data.

Example C101_new_case : exists s o, saidify pretend (VObj [(s! "d", VStr []); (s! "a", VInt 3)]) (Some (s! "F")) None None [] = Ok (s, o) /\
  said_new pretend (Some o) None None [] None None None None None = Ok s /\
  is_ok (said_new pretend (Some (VObj [(s! "d", VStr []); (s! "a", VInt 3)])) None None [] None None None None None) = true.
Proof. eexists. eexists. split; [vm_compute; reflexivity|]. split; vm_compute; reflexivity. Qed.

(** A threshold given as a text that is a hexadecimal numeral, or as an integer, is the numeric threshold of that number, up to 32 bits. A
   text that does not open a bracket gives no other threshold, except that minus zero in hexadecimal counts as zero. *)
Theorem C102_threshold_texts :
  forall (canon : bytes -> option bytes) (h : bytes) (n : N) (t : tholder),
  (hex_reading h n -> n < 2 ^ 32 -> exists t, tholder_new canon None None (Some (VStr h)) = Ok t /\ tholder_num t = Ok (Some n)) /\
  (n < 2 ^ 32 -> exists t, tholder_new canon None None (Some (VInt (Z.of_N n))) = Ok t /\ tholder_num t = Ok (Some n)) /\
  (tholder_new canon None None (Some (VStr h)) = Ok t -> ~ prefix (s! "[") h ->
   exists k, tholder_num t = Ok (Some k) /\ k < 2 ^ 32 /\
     (hex_reading h k \/ k = 0 /\ exists d, h = s! "-" ++ d /\ ~ prefix (s! "+") d /\ hex_reading d 0)).
Proof. exact C102_texts_l. Qed.
Print Assumptions C102_threshold_texts.

Example C102_texts_case : hex_reading (s! "1F") 31 /\ exists t, tholder_new (fun _ => None) None None (Some (VStr (s! "1F"))) = Ok t.
Proof.
  split; [|eexists; vm_compute; reflexivity]. exists [], (s! "1F"). split; [reflexivity|]. split; [now left|]. split; [discriminate|]. split; [|reflexivity].
  intros c H. cbn in H. cbn. intuition.
Qed.

(** The current and the next threshold of an event are the thresholds given by its fields kt and nt, read as Tholder reads them; an event
   without the field has none. *)
Theorem C102_event_thresholds :
  forall (canon : bytes -> option bytes) (s : sadder) (o : option tholder),
  (exists m, d_ked s = VObj m) ->
  (serder_tholder canon s = Ok o <->
     (exists v t, field_of (d_ked s) (s! "kt") v /\ tholder_new canon None None (Some v) = Ok t /\ o = Some t) \/ lacks (d_ked s) (s! "kt") /\ o = None) /\
  (serder_ntholder canon s = Ok o <->
     (exists v t, field_of (d_ked s) (s! "nt") v /\ tholder_new canon None None (Some v) = Ok t /\ o = Some t) \/ lacks (d_ked s) (s! "nt") /\ o = None).
Proof. exact C102_thresholds_l. Qed.
Print Assumptions C102_event_thresholds.

Example C102_thresholds_case : exists s t, serder_new (fun _ => None) None None None
    (Some (VObj [(s! "v", VStr (s! "KERI10JSON000000_")); (s! "d", VStr (s! "EAAAAAAAAAAAAAAAAAAAAAAAAAAAAAAAAAAAAAAAAAAA"));
                 (s! "kt", VStr (s! "2")); (s! "nt", VArr [VStr (s! "1/2"); VStr (s! "1/2")])])) None = Ok s /\
  serder_tholder (fun _ => None) s = Ok (Some t) /\ tholder_num t = Ok (Some 2) /\ is_ok (serder_ntholder (fun _ => None) s) = true.
Proof. eexists. eexists. split; [vm_compute; reflexivity|]. split; [vm_compute; reflexivity|]. split; vm_compute; reflexivity. Qed.

(** The first-seen number of an event is the number whose primitive text (not hexadecimal digits) the field f holds; without the field it is a
   validation error, so that an event recording it in hexadecimal, as sequence numbers are, is not read. *)
Theorem C102_first_seen :
  forall (s : sadder) (n : N),
  (exists m, d_ked s = VObj m) ->
  (serder_fn s = Ok n <-> exists t m w, field_of (d_ked s) (s! "f") (VStr t) /\ exfil t = Ok m /\ In (m_code m, w) number_sizes /\ len (m_raw m) = w /\ be_val (m_raw m) = n) /\
  (lacks (d_ked s) (s! "f") -> serder_fner s = Ok None /\ serder_fn s = Err EValidation).
Proof. exact C102_first_seen_l. Qed.
Print Assumptions C102_first_seen.

Example C102_first_seen_case : exists s, serder_new (fun _ => None) None None None
    (Some (VObj [(s! "v", VStr (s! "KERI10JSON000000_")); (s! "d", VStr (s! "EAAAAAAAAAAAAAAAAAAAAAAAAAAAAAAAAAAAAAAAAAAA")); (s! "f", VStr (s! "MAAF"))])) None = Ok s /\
  serder_fn s = Ok 5 /\ is_err (serder_fn (Sd (s! "E") [] (VObj [(s! "f", VStr (s! "5"))]) [] [] 0 (Ver 1 0) (Mt [] 0 []))) = true.
Proof. eexists. split; [vm_compute; reflexivity|]. split; vm_compute; reflexivity. Qed.

(** The issuer and the schema of a credential are the texts of its fields i and s, the subject is its field a, the status registry is the text of
   ri if present, and the chained credentials are the field e, or an empty map. A missing i, s or a panics; a field that should be text and
   is not is an error. *)
Theorem C102_credential_fields :
  forall (c : sadder) (t : bytes) (v : value),
  (exists m, d_ked c = VObj m) ->
  (creder_issuer c = Ok t <-> field_of (d_ked c) (s! "i") (VStr t)) /\ (creder_issuer c = Panic <-> lacks (d_ked c) (s! "i")) /\
  (creder_schema c = Ok t <-> field_of (d_ked c) (s! "s") (VStr t)) /\ (creder_schema c = Panic <-> lacks (d_ked c) (s! "s")) /\
  (creder_subject c = Ok v <-> field_of (d_ked c) (s! "a") v) /\ (creder_subject c = Panic <-> lacks (d_ked c) (s! "a")) /\
  (creder_status c = Ok (Some t) <-> field_of (d_ked c) (s! "ri") (VStr t)) /\ (creder_status c = Ok None <-> lacks (d_ked c) (s! "ri")) /\
  (creder_chains c = Ok v <-> field_of (d_ked c) (s! "e") v \/ lacks (d_ked c) (s! "e") /\ v = VObj []).
Proof. exact C102_credential_l. Qed.
Print Assumptions C102_credential_fields.

Example C102_credential_case : exists s, creder_new (fun _ => None) None None None
    (Some (VObj [(s! "v", VStr (s! "ACDC10JSON000000_")); (s! "d", VStr (s! "EAAAAAAAAAAAAAAAAAAAAAAAAAAAAAAAAAAAAAAAAAAA")); (s! "i", VStr (s! "me")); (s! "a", VInt 3)])) None = Ok s /\
  creder_issuer s = Ok (s! "me") /\ creder_schema s = Panic /\ creder_subject s = Ok (VInt 3) /\ creder_status s = Ok None /\ creder_chains s = Ok (VObj []).
Proof. eexists. split; [vm_compute; reflexivity|]. repeat split; vm_compute; reflexivity. Qed.

(** The SAID an event reports, if it can be printed, is a prefix of the text in its field d, and is that text whenever that text is as long as a
   SAID; the digest algorithm of the event is the SAID's. This holds for events built from data or read from a stream. *)
Theorem C102_said :
  forall (new : constructor) (canon : bytes -> option bytes) (code raw kind : option bytes) (ked : option value) (s : sadder),
  In new constructors -> new canon code raw kind ked None = Ok s ->
  d_code s = m_code (d_saider s) /\
  exists q, field_of (d_ked s) (s! "d") (VStr q) /\ exfil q = Ok (d_saider s) /\ forall t, sad_said s = Ok t -> prefix t q /\ (len q = len t -> q = t).
Proof. exact C102_said_l. Qed.
Print Assumptions C102_said.

Example C102_said_case : exists s, serder_new (fun _ => None) None None None
    (Some (VObj [(s! "v", VStr (s! "KERI10JSON000000_")); (s! "d", VStr (s! "EAAAAAAAAAAAAAAAAAAAAAAAAAAAAAAAAAAAAAAAAAAA and more"))])) None = Ok s /\
  sad_said s = Ok (s! "EAAAAAAAAAAAAAAAAAAAAAAAAAAAAAAAAAAAAAAAAAAA").
Proof. eexists. split; [vm_compute; reflexivity|]. vm_compute; reflexivity. Qed.
