(** Properties C149 to C153: schemas. Theorem statements only; the proofs are in [SchemerThms]. *)
From Coq Require Import String.
From Coq Require Import NArith ZArith QArith Bool List Lia.
From Verif Require Import Base Util Tables Matter Indexer Prims Json Common Saider Sadder Signer Verify Ingest Schemer Spec SpecPrims SpecJson SpecCommon SpecSaider SpecSadder SpecSigner SpecLog SpecCred SpecSchemer World SchemerCases VerifyThms FieldThms LifeThms SchemerThms.
Import ListNotations.
Open Scope N_scope.

(** Whatever schemas are made and put into the caches: each compiled schema that stands under an identifier has this identifier, which is the digest of its JSON with hash signs in the place of the identifier. *)
Theorem C149_compiled_schemas_identified :
  forall (canon : bytes -> option bytes) (hash : bytes -> bytes -> bytes) (compiles : bytes -> jval -> bool) (c : compiled) (k : known) (l : list schemer) (key : bytes) (j : jval),
  sized_hash hash -> stocked canon hash compiles c k l -> In (key, j) c -> exists v, of_json j = Ok v /\ identified hash key v.
Proof. exact C149_l. Qed.
Print Assumptions C149_compiled_schemas_identified.

Example C149_compiled_case : stocked no_floats mix any_schema (snd made_0) primed_0 [fst made_0] /\ map fst (snd made_0) = [sid0] /\ data schema0.
Proof. split; [exact stock_0|]. split; [reflexivity|exact schema0_data]. Qed.

(** A schema that is made, from a text or from a value, has the identifier it answers with, and is compiled under it. What was compiled before stays. *)
Theorem C149_made_schema_identified :
  forall (canon : bytes -> option bytes) (hash : bytes -> bytes -> bytes) (compiles : bytes -> jval -> bool) (c c' : compiled) (raw : option bytes) (sed : option value) (kind code : option bytes) (x : schemer),
  sized_hash hash -> (forall v, raw = None -> sed = Some v -> data v) -> schemer_new canon hash compiles c raw sed kind code = Ok (x, c') ->
  exists key, infil (sm_saider x) = Ok key /\ identified hash key (sm_sed x) /\ In key (map fst c') /\ incl c c'.
Proof. exact C149_made_l. Qed.
Print Assumptions C149_made_schema_identified.

Example C149_made_case : schemer_new no_floats mix any_schema [] None (Some schema0) None None = Ok made_0 /\ infil (sm_saider (fst made_0)) = Ok sid0.
Proof. split; [exact made_0_ok|vm_compute; reflexivity]. Qed.

(** Two schemas without floats that have the same identifier have the same fields in the same order, with the same values, the field v aside; or the digest function has a collision. *)
Theorem C149_one_schema_per_identifier :
  forall (hash : bytes -> bytes -> bytes) (key : bytes) (m1 m2 : list (bytes * value)),
  sized_hash hash -> data (VObj m1) -> data (VObj m2) ->
  identified hash key (VObj m1) -> identified hash key (VObj m2) -> without [s! "v"] m1 = without [s! "v"] m2 \/ exists code, In code (map fst digest_sizes) /\ collision hash code.
Proof. exact C149_one_l. Qed.
Print Assumptions C149_one_schema_per_identifier.

Example C149_one_case : exists v, sm_sed (fst made_0) = v /\ data v /\ identified mix sid0 v.
Proof.
  eexists. split; [reflexivity|]. split; [apply data_checked; vm_compute; reflexivity|]. destruct (C149_made_l no_floats mix any_schema [] (snd made_0) None (Some schema0) None None (fst made_0)) as (key & K & ID & _).
  - exact mix_sized.
  - exact schema0_new.
  - rewrite made_0_ok. now destruct made_0.
  - assert (infil (sm_saider (fst made_0)) = Ok sid0) as E by (vm_compute; reflexivity). rewrite E in K. injection K as <-. exact ID.
Qed.

(** False that the text of a schema made from a value reads back: the identifier is over the schema with its version string brought up to date, but the version string kept is the one given. Here a schema with
   a version string of size zero is made; making it again from its own text is an error, with the caches it left. *)
Theorem C150_own_schema_reads_back_refuted :
  sized_hash mix /\ exists v x c', data v /\ schemer_new no_floats mix any_schema [] None (Some v) None None = Ok (x, c') /\ sm_raw x = to_json (sm_sed x) /\
  schemer_new no_floats mix any_schema c' (Some (sm_raw x)) None None None = Err EValidation.
Proof. exact C150_no_l. Qed.
Print Assumptions C150_own_schema_reads_back_refuted.

(** A schema made from a value without a field v, which nests at most 127 deep, gives the same schema and leaves the caches as they are when made again from its own text.
   Missing: schemas with a field v. *)
Theorem C150_own_schema_reads_back_partial :
  forall (canon : bytes -> option bytes) (hash : bytes -> bytes -> bytes) (compiles : bytes -> jval -> bool) (c c' : compiled) (m : list (bytes * value)) (kind code kind2 code2 : option bytes) (x : schemer),
  sized_hash hash -> data (VObj m) -> ~ In (s! "v") (map fst m) -> nests 127 (sm_sed x) -> schemer_new canon hash compiles c None (Some (VObj m)) kind code = Ok (x, c') ->
  schemer_new canon hash compiles c' (Some (sm_raw x)) None kind2 code2 = Ok (x, c').
Proof. exact C150_l. Qed.
Print Assumptions C150_own_schema_reads_back_partial.

Example C150_case : data schema0 /\ ~ In (s! "v") (map fst (match schema0 with VObj m => m | _ => [] end)) /\ nests 127 (sm_sed (fst made_0)) /\ schemer_new no_floats mix any_schema [] None (Some schema0) None None = Ok made_0.
Proof.
  split; [apply data_checked; vm_compute; reflexivity|]. split; [vm_compute; intros [H|[H|[H|H]]]; try discriminate; exact H|]. split; [apply nests_checked; vm_compute; reflexivity|exact made_0_ok].
Qed.

(** Once a schema is in the cache for credentials, the answer for its identifier and a text never changes, whatever schemas are made and put into the caches later. *)
Theorem C151_answers_never_change :
  forall (canon : bytes -> option bytes) (hash : bytes -> bytes -> bytes) (compiles : bytes -> jval -> bool) (conforms : bytes -> jval -> jval -> bool) (c c2 : compiled) (k k2 : known) (l l2 : list schemer) (said json : bytes),
  sized_hash hash -> stocked canon hash compiles c k l -> restocked canon hash compiles c k l c2 k2 l2 -> In said (map fst k) ->
  cache_verify canon conforms c2 k2 said json = cache_verify canon conforms c k said json.
Proof. exact C151_l. Qed.
Print Assumptions C151_answers_never_change.

Example C151_case : stocked no_floats mix any_schema (snd made_0) primed_0 [fst made_0] /\ In sid0 (map fst primed_0) /\ cache_verify no_floats needs (snd made_0) primed_0 sid0 (d_raw cred_s) = Ok true.
Proof. split; [exact stock_0|]. split; [now left|vm_compute; reflexivity]. Qed.

(** For an identifier in the cache for credentials there is one compiled schema, which has this identifier; the answer for a JSON text is whether it conforms to this schema. *)
Theorem C151_answer_is_conformance :
  forall (canon : bytes -> option bytes) (hash : bytes -> bytes -> bytes) (compiles : bytes -> jval -> bool) (conforms : bytes -> jval -> jval -> bool) (c : compiled) (k : known) (l : list schemer) (said : bytes),
  sized_hash hash -> stocked canon hash compiles c k l -> In said (map fst k) -> exists j v, of_json j = Ok v /\ identified hash said v /\
    forall json i, utf8 json = true -> pjson canon json = Ok i -> cache_verify canon conforms c k said json = Ok (conforms said j i).
Proof. exact C151_conf_l. Qed.
Print Assumptions C151_answer_is_conformance.

Example C151_conformance_case : stocked no_floats mix any_schema (snd made_0) primed_0 [fst made_0] /\ In sid0 (map fst primed_0) /\ cache_verify no_floats needs (snd made_0) primed_0 sid0 (s! "{}") = Ok false.
Proof. split; [exact stock_0|]. split; [now left|vm_compute; reflexivity]. Qed.

(** A credential accepted with these caches names a schema in them, this schema has the identifier the credential names, and the credential's JSON conforms to it. *)
Theorem C152_credential_conforms_to_schema :
  forall (canon : bytes -> option bytes) (hash : bytes -> bytes -> bytes) (cr : crypto) (messages_of : bytes -> R (list message)) (compiles : bytes -> jval -> bool) (conforms : bytes -> jval -> jval -> bool) (age : bytes -> R Z)
    (c : compiled) (k : known) (l : list schemer) (fuel : nat) (st : store) (e : sadder) (g : list group) (deep : option bool) (seen : list bytes) (r : bool * list bytes),
  sized_hash hash -> stocked canon hash compiles c k l -> verify_acdc canon hash cr messages_of (cache_verify canon conforms c k) age fuel st e g deep seen = Ok r ->
  exists schema j v i, field_of (d_ked e) (s! "s") (VStr schema) /\ In schema (map fst k) /\ In (schema, j) c /\ of_json j = Ok v /\ identified hash schema v /\
    pjson canon (d_raw e) = Ok i /\ conforms schema j i = true.
Proof. exact C152_l. Qed.
Print Assumptions C152_credential_conforms_to_schema.

Example C152_case : stocked no_floats mix any_schema (snd made_0) primed_0 [fst made_0] /\ 
  verify_acdc no_floats mix toy lettered (cache_verify no_floats needs (snd made_0) primed_0) (fun _ => Ok 0%Z) 9 (view no_floats ledger_s) cred_s [GPaths [csigs_s]] (Some false) [] = Ok (false, []).
Proof. split; [exact stock_0|exact try_known]. Qed.

(** False that a credential with an unknown schema is answered with an error: the look-up panics. Here is one that passes when its schema is in the cache, and panics with an empty cache. *)
Theorem C153_unknown_schema_error_refuted :
  correct toy /\ sized_hash mix /\ exists e l g c k said, stocked no_floats mix any_schema c k l /\ field_of (d_ked e) (s! "s") (VStr said) /\ In said (map fst k) /\
  verify_acdc no_floats mix toy lettered (cache_verify no_floats needs c k) (fun _ => Ok 0%Z) 9 (view no_floats ledger_s) e g (Some false) [] = Ok (false, []) /\
  verify_acdc no_floats mix toy lettered (cache_verify no_floats needs c []) (fun _ => Ok 0%Z) 9 (view no_floats ledger_s) e g (Some false) [] = Panic.
Proof. exact C153_no_l. Qed.
Print Assumptions C153_unknown_schema_error_refuted.

(** A credential that would be accepted if every schema accepted everything, and that names a schema not in the cache, makes verification panic. *)
Theorem C153_unknown_schema_panics :
  forall (canon : bytes -> option bytes) (hash : bytes -> bytes -> bytes) (cr : crypto) (messages_of : bytes -> R (list message)) (conforms : bytes -> jval -> jval -> bool) (age : bytes -> R Z)
    (c : compiled) (k : known) (fuel : nat) (st : store) (e : sadder) (g : list group) (deep : option bool) (seen : list bytes) (r : bool * list bytes) (said : bytes),
  verify_acdc canon hash cr messages_of (fun _ _ => Ok true) age fuel st e g deep seen = Ok r -> field_of (d_ked e) (s! "s") (VStr said) -> ~ In said (map fst k) ->
  verify_acdc canon hash cr messages_of (cache_verify canon conforms c k) age fuel st e g deep seen = Panic.
Proof. exact C153_l. Qed.
Print Assumptions C153_unknown_schema_panics.

Example C153_case : field_of (d_ked cred_s) (s! "s") (VStr sid0) /\ ~ In sid0 (map fst (@nil (bytes * schemer))) /\
  verify_acdc no_floats mix toy lettered (fun _ _ => Ok true) (fun _ => Ok 0%Z) 9 (view no_floats ledger_s) cred_s [GPaths [csigs_s]] (Some false) [] = Ok (false, []).
Proof. split; [apply text_field; vm_compute; reflexivity|]. split; [exact (fun H => H)|vm_compute; reflexivity]. Qed.
