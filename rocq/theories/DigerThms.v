(** Proofs of the properties of digests. *)
From Coq Require Import String.
From Coq Require Import NArith ZArith Lia Bool List.
From Verif Require Import Base BaseFacts Tables Matter MatterFacts MatterText MatterMore MatterThms Prims PrimsFacts PrimsThms Json Common CommonFacts Saider SaiderFacts SaiderThms Diger
  Spec SpecPrims SpecSaider.
Import ListNotations.
Open Scope N_scope.

Lemma diger_hash c : In c (map fst digest_sizes) <-> has_code hash_codes c = true.
Proof. rewrite has_code_in. cbn. tauto. Qed.
Lemma diger_verify_ok hash d ser : diger_verify hash d ser = Ok true <-> In (m_code d) (map fst digest_sizes) /\ m_raw d = hash (m_code d) ser.
Proof.
  unfold diger_verify, digest. rewrite diger_hash. destruct (has_code hash_codes (m_code d)); [|split; [discriminate|intros ([=] & _)]]. rewrite bind_Ok. split.
  - intros [= H]. apply beq_eq in H. auto.
  - intros (_ & <-). now rewrite beq_refl.
Qed.
Lemma both_verify hash a b ser : (let* x := diger_verify hash a ser in if x then diger_verify hash b ser else Ok false) = Ok true <-> diger_verify hash a ser = Ok true /\ diger_verify hash b ser = Ok true.
Proof. destruct (diger_verify hash a ser) as [[|]| |]; cbn [bind]; intuition discriminate. Qed.
Lemma beq_false a b : a <> b -> beq a b = false.
Proof. intros N. destruct (beq a b) eqn:E; auto. apply beq_eq in E. contradiction. Qed.

(*# C68_compare_text
   Comparing a digest with a text answers yes exactly when the text is the digest's own, or parses to a digest of another code and both are digests of the given data.
##
Example C68_text_case : diger_compare (fun c _ => zeros 32) (Mt (s! "E") 0 (zeros 32)) [x61] (Some (s! "FAAAAAAAAAAAAAAAAAAAAAAAAAAAAAAAAAAAAAAAAAAA")) None = Ok true /\
  diger_compare (fun c _ => zeros 32) (Mt (s! "E") 0 (zeros 32)) [x61] (Some (s! "FAAAAAAAAAAAAAAAAAAAAAAAAAAAAAAAAAAAAAAAAAAB")) None = Ok false.
Proof. split; vm_compute; reflexivity. Qed.
#*)
Lemma C68a_l (hash : bytes -> bytes -> bytes) (d : matter) (ser text : bytes) (other : option matter) :
  built d ->
  (diger_compare hash d ser (Some text) other = Ok true <->
   infil d = Ok text \/
   exists e, exfil_b text = Ok e /\ m_code e <> m_code d /\ In (m_code e) (map fst digest_sizes) /\ In (m_code d) (map fst digest_sizes) /\
     m_raw e = hash (m_code e) ser /\ m_raw d = hash (m_code d) ser).
Proof.
  intros B. apply built_wf in B. destruct (wf_round _ B) as (q & _ & Q & _). unfold diger_compare, compare_dig. rewrite Q, bind_Ok. destruct (beq text q) eqn:E.
  - apply beq_eq in E. subst q. split; auto.
  - assert (text <> q) as NT by (intros ->; now rewrite beq_refl in E). cbn [matter_new]. destruct (exfil_b text) as [e| |].
    + rewrite bind_Ok. destruct (beq (m_code e) (m_code d)) eqn:C.
      * apply beq_eq in C. split; [discriminate|]. intros [H|(e' & [= <-] & N & _)]; [injection H as <-; contradiction|contradiction].
      * assert (m_code e <> m_code d) as NC by (intros X; rewrite X, beq_refl in C; discriminate). rewrite both_verify, !diger_verify_ok. split.
        -- intros ((I1 & R1) & (I2 & R2)). right. exists e. auto 8.
        -- intros [H|(e' & [= <-] & _ & I1 & I2 & R1 & R2)]; [injection H as <-; contradiction|auto].
    + cbn [bind]. split; [discriminate|]. intros [H|(e' & [=] & _)]. injection H as <-; contradiction.
    + cbn [bind]. split; [discriminate|]. intros [H|(e' & [=] & _)]. injection H as <-; contradiction.
Qed.
(*# C68_compare_digests
   Comparing two digests answers yes exactly when they are the same digest, or have different codes and both are digests of the given data.
#*)
Lemma C68b_l (hash : bytes -> bytes -> bytes) (d e : matter) (ser : bytes) :
  built d -> built e ->
  (diger_compare hash d ser None (Some e) = Ok true <->
   d = e \/ m_code e <> m_code d /\ In (m_code e) (map fst digest_sizes) /\ In (m_code d) (map fst digest_sizes) /\ m_raw e = hash (m_code e) ser /\ m_raw d = hash (m_code d) ser).
Proof.
  intros B B'. apply built_wf in B, B'. destruct (wf_round _ B) as (q & _ & Q & _ & X & _). destruct (wf_round _ B') as (q' & _ & Q' & _ & X' & _).
  unfold diger_compare, compare_diger. rewrite Q, Q', !bind_Ok. destruct (beq q' q) eqn:E.
  - apply beq_eq in E. subst q'. assert (d = e) by congruence. split; auto.
  - assert (d <> e) as N by (intros ->; assert (q = q') by congruence; subst q'; now rewrite beq_refl in E). destruct (beq (m_code e) (m_code d)) eqn:C.
    + apply beq_eq in C. split; [discriminate|]. intros [H|(H & _)]; contradiction.
    + assert (m_code e <> m_code d) as NC by (intros Y; rewrite Y, beq_refl in C; discriminate). rewrite both_verify, !diger_verify_ok. intuition.
Qed.

(*# C69_digest_of_data
   A digest is built from data for every digest code (Blake3-256 if none is given) and no other; it is the digest of these data, verifies them, and verifies other data
   only if the digest function has a collision; no verification fails.
##
Example C69_case : exists d, diger_new (fun c _ => zeros 32) (Some [x61]) None None None None None = Ok d /\ m_code d = s! "E".
Proof. eexists. split; [vm_compute; reflexivity|reflexivity]. Qed.
#*)
Lemma C69a_l (hash : bytes -> bytes -> bytes) (ser : bytes) (code : option bytes) :
  sized_hash hash ->
  let c := match code with Some c => c | None => s! "E" end in
  (In c (map fst digest_sizes) -> exists d, diger_new hash (Some ser) code None None None None = Ok d /\ m_code d = c /\ m_raw d = hash c ser /\ built d /\
     diger_verify hash d ser = Ok true /\
     forall ser', (diger_verify hash d ser' = Ok true /\ (ser' = ser \/ collision hash c)) \/ (diger_verify hash d ser' = Ok false /\ hash c ser' <> hash c ser)) /\
  (~ In c (map fst digest_sizes) -> is_err (diger_new hash (Some ser) code None None None None) = true).
Proof.
  intros SH c. assert (diger_new hash (Some ser) code None None None None = let* _u := validate diger_codes c in let* dig := digest hash c ser in matter_of_code_raw c dig) as E.
  { unfold diger_new, c. destruct code; reflexivity. }
  rewrite E. clear E. unfold validate, digest. change diger_codes with hash_codes. rewrite !diger_hash. split.
  - intros HC. rewrite HC, !bind_Ok. assert (has_code said_codes c = true) as HS by (apply said_code_size; apply diger_hash, in_map_iff in HC as ((c' & n) & <- & I); eauto).
    destruct (said_built hash c ser SH HS) as (B & _). exists (Mt c 0 (hash c ser)). rewrite B. split; auto. split; auto. split; auto. split; [|split].
    + exists c, (hash c ser). split; [|exact B]. apply said_code_size in HS as (n & HS). apply said_code_fixed in HS. apply in_or_app. left. apply in_map_iff. eexists. split; [|exact HS]. reflexivity.
    + apply diger_verify_ok. cbn [m_code m_raw]. split; auto. now apply diger_hash.
    + intros ser'. unfold diger_verify, digest. cbn [m_code m_raw]. rewrite HC, bind_Ok. destruct (beq (hash c ser') (hash c ser)) eqn:E.
      * left. split; auto. apply beq_eq in E. destruct (beq ser' ser) eqn:D; [left; now apply beq_eq|right]. exists ser', ser. split; auto. intros ->. now rewrite beq_refl in D.
      * right. split; auto. intros X. rewrite X, beq_refl in E. discriminate.
  - intros HC. destruct (has_code hash_codes c); [destruct HC; reflexivity|]. reflexivity.
Qed.
(*# C69_verifies_exactly
   Any digest verifies data exactly when its raw bytes are their digest.
#*)
Lemma C69b_l (hash : bytes -> bytes -> bytes) (d : matter) (ser : bytes) :
  diger_verify hash d ser = Ok true <-> In (m_code d) (map fst digest_sizes) /\ m_raw d = hash (m_code d) ser.
Proof. apply diger_verify_ok. Qed.
