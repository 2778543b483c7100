(** Property C150, exactly: which schemas read back from their own text. Theorem statements only; the proofs are in [OwnSchemaThms]. *)
From Coq Require Import String.
From Coq Require Import NArith ZArith QArith Bool List Lia.
From Verif Require Import Base Util Tables Matter Indexer Prims Json Common Saider Sadder Signer Verify Ingest Schemer Spec SpecPrims SpecJson SpecCommon SpecSaider SpecSadder SpecSigner SpecLog SpecCred SpecSchemer World SchemerCases VerifyThms FieldThms LifeThms SchemerThms OwnSchemaThms.
Import ListNotations.
Open Scope N_scope.

(** A schema made from a value, which nests at most 127 deep and has a text shorter than 2^32 bytes, reads back from its own text exactly if its field v, where it has one, is the version string that the library makes for
   the size of this text. It then gives the same schema and leaves the caches as they are; otherwise it is refused. *)
Theorem C150_own_schema_reads_back_exactly :
  forall (canon : bytes -> option bytes) (hash : bytes -> bytes -> bytes) (compiles : bytes -> jval -> bool) (c c' : compiled) (m : list (bytes * value)) (kind code kind2 code2 : option bytes) (x : schemer),
  sized_hash hash -> data (VObj m) -> nests 127 (sm_sed x) -> schemer_new canon hash compiles c None (Some (VObj m)) kind code = Ok (x, c') -> len (sm_raw x) < 2 ^ 32 ->
  (schemer_new canon hash compiles c' (Some (sm_raw x)) None kind2 code2 = Ok (x, c') <->
   forall v, get (s! "v") m = Some v -> exists proto vs, v = VStr vs /\ versify (Some proto) None None (Some (len (sm_raw x))) = Ok vs) /\
  (schemer_new canon hash compiles c' (Some (sm_raw x)) None kind2 code2 = Ok (x, c') \/ schemer_new canon hash compiles c' (Some (sm_raw x)) None kind2 code2 = Err EValidation).
Proof. exact C150_exactly_l. Qed.
Print Assumptions C150_own_schema_reads_back_exactly.

Example C150_exactly_case : data schema_v /\ nests 127 (sm_sed (fst made_v)) /\ schemer_new no_floats mix any_schema [] None (Some schema_v) None None = Ok made_v /\ len (sm_raw (fst made_v)) < 2 ^ 32.
Proof.
  split; [apply data_checked; vm_compute; reflexivity|]. split; [apply nests_checked; vm_compute; reflexivity|]. split; [exact made_v_ok|vm_compute; reflexivity].
Qed.
Definition sized_schema : value := VObj [(s! "v", VStr (s! "ACDC10JSON00005e_")); (s! "$id", VStr []); (s! "type", VStr (s! "object"))].
Example C150_sized_case : data sized_schema /\ exists x c vs, schemer_new no_floats mix any_schema [] None (Some sized_schema) None None = Ok (x, c) /\
  get (s! "v") (match sized_schema with VObj m => m | _ => [] end) = Some (VStr vs) /\ versify (Some (s! "ACDC")) None None (Some (len (sm_raw x))) = Ok vs /\
  schemer_new no_floats mix any_schema c (Some (sm_raw x)) None None None = Ok (x, c).
Proof.
  split; [apply data_checked; vm_compute; reflexivity|]. eexists. eexists. eexists. split; [vm_compute; reflexivity|]. split; [vm_compute; reflexivity|]. split; vm_compute; reflexivity.
Qed.
