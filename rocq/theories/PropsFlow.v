(** Properties C105, C106. Theorem statements only; the proofs are in [FlowThms]. *)
From Coq Require Import String.
From Coq Require Import NArith ZArith QArith Bool List.
From Verif Require Import Base Tables Matter Indexer Prims Json Tholder Common Saider Sadder Signer Messaging Spec SpecPrims SpecJson SpecCommon SpecTholder SpecSaider SpecSadder SpecSigner SpecMessaging SpecFlow SaiderThms SignerThms FlowThms BaseFacts.
Import ListNotations.
Open Scope N_scope.

(** Data that begin with a version string and hold the texts of the signers' keys in the field k are given a SAID and become an event whose
   data are the ones returned. Whatever signers are asked to sign it, in whatever order and possibly several times (at most 4095 signatures, positions below 4096), the
   message can be made. Whoever reads it gets that very event, whose SAID verifies with all checks on; its keys are the signers' keys; what follows the event is
   one group of exactly the signatures made, and each verifies under the key at its index, which is the position it was asked for.
   The threshold the reader finds is the one written in the field kt; it is satisfied if it is a number not above the number of signatures, or if exactly all of its keys have signed. *)
Theorem C105_exchange :
  forall (cr : crypto) (hash : bytes -> bytes -> bytes) (canon : bytes -> option bytes) (gs : list signer) (kts : list bytes) (vs : bytes) (size : N) (m : list (bytes * value)),
  correct cr -> sized_hash hash -> Forall (a_signer cr) gs -> Forall2 (fun g kt => infil (g_verfer g) = Ok kt) gs kts ->
  data (VObj ((s! "v", VStr vs) :: m)) -> nests 127 (VObj ((s! "v", VStr vs) :: m)) -> version_string vs (s! "KERI") 1 0 size ->
  In (s! "d") (map fst m) -> get (s! "k") m = Some (VArr (map VStr kts)) ->
  len (to_json (VObj (replaced (s! "d") (dummies 44) ((s! "v", VStr vs) :: m)))) < 2 ^ 24 ->
  exists said out s, saidify hash (VObj ((s! "v", VStr vs) :: m)) None None None [] = Ok (said, out) /\
    serder_new canon None None None (Some out) None = Ok s /\ d_ked s = out /\ d_saider s = said /\
    forall picks, len picks <= 4095 -> Forall (fair (len gs)) picks ->
    exists sigs t, Forall2 (answers cr gs (d_raw s)) picks sigs /\ messagize s (Some sigs) None None None = Ok t /\
      serder_new canon None (Some t) None None None = Ok s /\
      said_verify hash (d_saider s) (d_ked s) (Some true) (Some true) None None [] = Ok true /\
      serder_verfers s = Ok (map g_verfer gs) /\
      read_group (drop (len (d_raw s)) t) = Some (s! "-A", map fst sigs, []) /\
      map i_index (map fst sigs) = map p_index picks /\
      Forall (checks cr (map g_verfer gs) (d_raw s)) (map fst sigs) /\
      forall v th, get (s! "kt") m = Some v -> tholder_new canon None None (Some v) = Ok th -> serder_tholder canon s = Ok (Some th) /\
        (forall n, tholder_num th = Ok (Some n) -> 1 <= n -> n <= len picks -> satisfy th (map i_index (map fst sigs)) = Ok true) /\
        (t_thold th <> VInt 0 -> keys (t_thold th) < 2 ^ 32 -> (forall i, In i (map p_index picks) <-> i < t_size th) -> satisfy th (map i_index (map fst sigs)) = Ok true).
Proof. exact C105_l. Qed.
Print Assumptions C105_exchange.

Definition exchange_data (kts : list bytes) : list (bytes * value) := [(s! "t", VStr (s! "icp")); (s! "d", VStr []); (s! "kt", VStr (s! "2")); (s! "k", VArr (map VStr kts))].
Example C105_case : exists g1 g2 k1 k2, signer_new toy None None (Some (repeat x07 32)) None None None = Ok g1 /\ signer_new toy None (Some (s! "J")) (Some (repeat x08 32)) None None None = Ok g2 /\
  infil (g_verfer g1) = Ok k1 /\ infil (g_verfer g2) = Ok k2 /\ correct toy /\ sized_hash pretend /\
  data (VObj ((s! "v", VStr (s! "KERI10JSON000000_")) :: exchange_data [k1; k2])) /\
  fair 2 (Pick 1 false (Some 70) []) /\ fair 2 (Pick 0 true None []) /\
  len (to_json (VObj (replaced (s! "d") (dummies 44) ((s! "v", VStr (s! "KERI10JSON000000_")) :: exchange_data [k1; k2])))) = 199.
Proof.
  eexists. eexists. eexists. eexists. split; [vm_compute; reflexivity|]. split; [vm_compute; reflexivity|]. split; [vm_compute; reflexivity|]. split; [vm_compute; reflexivity|].
  split; [exact toy_correct|]. split; [exact pretend_sized|]. split.
  { apply data_obj.
    - repeat constructor; cbn; intuition discriminate.
    - repeat constructor.
    - repeat (constructor; try reflexivity). }
  split; [split; [reflexivity|split; [reflexivity|]]; intros _ o X; injection X as <-; reflexivity|]. split; [split; [reflexivity|split; [reflexivity|discriminate]]|]. vm_compute. reflexivity.
Qed.

(** An event read from any stream, in any layout, that carries the SAID of a given event and verifies with all checks on has exactly the data of that
   event, every field in its place, unless the digest function has a collision. *)
Theorem C106_no_substitution :
  forall (hash : bytes -> bytes -> bytes) (new : constructor) (canon : bytes -> option bytes) (code kind : option bytes) (raw : bytes) (ked : option value) (sad : option sadder) (s s' : sadder),
  sized_hash hash -> data (d_ked s) -> said_verify hash (d_saider s) (d_ked s) (Some true) (Some true) None None [] = Ok true ->
  In new constructors -> new canon code (Some raw) kind ked sad = Ok s' -> float_free (d_ked s') -> d_saider s' = d_saider s ->
  said_verify hash (d_saider s') (d_ked s') (Some true) (Some true) None None [] = Ok true ->
  d_ked s' = d_ked s \/ collision hash (m_code (d_saider s)).
Proof. exact C106_l. Qed.
Print Assumptions C106_no_substitution.

Example C106_case : exists d o s, saidify pretend (VObj [(s! "v", VStr (s! "KERI10JSON000000_")); (s! "d", VStr []); (s! "a", VInt 3)]) None None None [] = Ok (d, o) /\
  serder_new (fun _ => None) None (Some (to_json o ++ s! "-AAB")) None None None = Ok s /\ d_saider s = d /\
  said_verify pretend (d_saider s) (d_ked s) (Some true) (Some true) None None [] = Ok true.
Proof. eexists. eexists. eexists. split; [vm_compute; reflexivity|]. split; [vm_compute; reflexivity|]. split; vm_compute; reflexivity. Qed.
