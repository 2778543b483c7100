(** Properties C68, C69. Theorem statements only; the proofs are in [DigerThms]. *)
From Coq Require Import String.
From Coq Require Import NArith ZArith QArith Bool List.
From Verif Require Import Base Tables Matter Prims Diger Spec SpecPrims SpecSaider DigerThms BaseFacts.
Import ListNotations.
Open Scope N_scope.

(** Comparing a digest with a text answers yes exactly when the text is the digest's own, or parses to a digest of another code and both are digests of the given data. *)
Theorem C68_compare_text :
  forall (hash : bytes -> bytes -> bytes) (d : matter) (ser text : bytes) (other : option matter),
  built d ->
  (diger_compare hash d ser (Some text) other = Ok true <->
   infil d = Ok text \/
   exists e, exfil_b text = Ok e /\ m_code e <> m_code d /\ In (m_code e) (map fst digest_sizes) /\ In (m_code d) (map fst digest_sizes) /\
     m_raw e = hash (m_code e) ser /\ m_raw d = hash (m_code d) ser).
Proof. exact C68a_l. Qed.
Print Assumptions C68_compare_text.

Example C68_text_case : diger_compare (fun c _ => zeros 32) (Mt (s! "E") 0 (zeros 32)) [x61] (Some (s! "FAAAAAAAAAAAAAAAAAAAAAAAAAAAAAAAAAAAAAAAAAAA")) None = Ok true /\
  diger_compare (fun c _ => zeros 32) (Mt (s! "E") 0 (zeros 32)) [x61] (Some (s! "FAAAAAAAAAAAAAAAAAAAAAAAAAAAAAAAAAAAAAAAAAAB")) None = Ok false.
Proof. split; vm_compute; reflexivity. Qed.

(** Comparing two digests answers yes exactly when they are the same digest, or have different codes and both are digests of the given data. *)
Theorem C68_compare_digests :
  forall (hash : bytes -> bytes -> bytes) (d e : matter) (ser : bytes),
  built d -> built e ->
  (diger_compare hash d ser None (Some e) = Ok true <->
   d = e \/ m_code e <> m_code d /\ In (m_code e) (map fst digest_sizes) /\ In (m_code d) (map fst digest_sizes) /\ m_raw e = hash (m_code e) ser /\ m_raw d = hash (m_code d) ser).
Proof. exact C68b_l. Qed.
Print Assumptions C68_compare_digests.

(** A digest is built from data for every digest code (Blake3-256 if none is given) and no other; it is the digest of these data, verifies them, and verifies other data
   only if the digest function has a collision; no verification fails. *)
Theorem C69_digest_of_data :
  forall (hash : bytes -> bytes -> bytes) (ser : bytes) (code : option bytes),
  sized_hash hash ->
  let c := match code with Some c => c | None => s! "E" end in
  (In c (map fst digest_sizes) -> exists d, diger_new hash (Some ser) code None None None None = Ok d /\ m_code d = c /\ m_raw d = hash c ser /\ built d /\
     diger_verify hash d ser = Ok true /\
     forall ser', (diger_verify hash d ser' = Ok true /\ (ser' = ser \/ collision hash c)) \/ (diger_verify hash d ser' = Ok false /\ hash c ser' <> hash c ser)) /\
  (~ In c (map fst digest_sizes) -> is_err (diger_new hash (Some ser) code None None None None) = true).
Proof. exact C69a_l. Qed.
Print Assumptions C69_digest_of_data.

Example C69_case : exists d, diger_new (fun c _ => zeros 32) (Some [x61]) None None None None None = Ok d /\ m_code d = s! "E".
Proof. eexists. split; [vm_compute; reflexivity|reflexivity]. Qed.

(** Any digest verifies data exactly when its raw bytes are their digest. *)
Theorem C69_verifies_exactly :
  forall (hash : bytes -> bytes -> bytes) (d : matter) (ser : bytes),
  diger_verify hash d ser = Ok true <-> In (m_code d) (map fst digest_sizes) /\ m_raw d = hash (m_code d) ser.
Proof. exact C69b_l. Qed.
Print Assumptions C69_verifies_exactly.
