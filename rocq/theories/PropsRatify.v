(** Property C176: endorsements of credentials and what can be read back from them. Theorem statements only; the proofs are in [RatifyThms]. *)
From Coq Require Import String.
From Coq Require Import NArith ZArith QArith Bool List.
From Verif Require Import Base BaseFacts Tables Matter Indexer Counter Prims Json Common Saider Sadder Pather Messaging Events SpecPrims SpecJson SpecSaider SpecSadder Spec SpecMessaging SadderFacts SadderThms Short RatifyThms.
Import ListNotations.
Open Scope N_scope.

(** The endorsement of a credential with number [n] of the key event in force: reading it gives, one after the other, a counter for one group of signatures on a path, the path to the whole credential, a counter for one
   group, the identifier, the number, the identifier of the event, and then the signatures, as many as given and in order. Each identifier begins with a primitive (a reader goes on to the next if it is no more than that), and the signatures are fewer than 2^32. *)
Theorem C176_credential_endorsement_reads_back :
  forall (prefix said proof : bytes) (n : N) (sq pi pd : matter) (sigers : list (indexer * matter)),
  Forall made sigers -> len sigers < 2 ^ 32 -> n < 2 ^ 128 -> seqner_with_sn n = Ok sq ->
  utf8 prefix = true -> exfil prefix = Ok pi -> utf8 said = true -> exfil said = Ok pd -> ratify_creder prefix sq said sigers = Ok proof ->
  exists j pt f q b xs path, proof = j ++ pt ++ f ++ prefix ++ q ++ said ++ b /\ len j = 4 /\ len f = 4 /\
    cexfil proof = Ok (Ct (s! "-J") 1) /\ exfil (pt ++ f ++ prefix ++ q ++ said ++ b) = Ok path /\ infil path = Ok pt /\ bext_of path = Ok (s! "-") /\
    cexfil (f ++ prefix ++ q ++ said ++ b) = Ok (Ct (s! "-F") 1) /\ exfil (prefix ++ q ++ said ++ b) = Ok pi /\
    exfil (q ++ said ++ b) = Ok sq /\ infil sq = Ok q /\ seqner_sn sq = Ok n /\ exfil (said ++ b) = Ok pd /\
    read_group b = Some (s! "-A", xs, []) /\ Forall2 same_signature sigers xs.
Proof. exact C176_proof_l. Qed.
Print Assumptions C176_credential_endorsement_reads_back.

Example C176_proof_case : exists p sq proof, siger_new None (Some 1) None (Some (s! "B")) (Some (repeat x09 64)) None None None = Ok p /\ seqner_with_sn 31 = Ok sq /\
  ratify_creder (s! "MAAB") sq (s! "MAAC") [p] = Ok proof /\ take 48 proof = s! "-JAB6AABAAA--FABMAAB0AAAAAAAAAAAAAAAAAAAAAAfMAAC" /\ len proof = 48 + 4 + 88.
Proof.
  eexists. eexists. eexists. split; [vm_compute; reflexivity|]. split; [vm_compute; reflexivity|]. split; [vm_compute; reflexivity|]. split; vm_compute; reflexivity.
Qed.

(** The message with a credential is made exactly if the credential is text and the endorsement has a whole number of groups of four characters, at most 4095; it is then the credential, a counter that says how many
   groups of four characters follow, and the endorsement. The endorsement is shorter than 2^32. *)
Theorem C176_credential_message_exactly :
  forall (c : sadder) (proof t : bytes),
  len proof < 2 ^ 32 ->
  (messagize_creder c proof = Ok t <->
   utf8 (d_raw c) = true /\ exists h, len proof = 4 * (len proof / 4) /\ len proof / 4 <= 4095 /\ len h = 4 /\ cinfil (Ct (s! "-V") (len proof / 4)) = Ok h /\ t = d_raw c ++ h ++ proof) /\
  messagize_creder c proof <> Panic.
Proof. exact C176_message_l. Qed.
Print Assumptions C176_credential_message_exactly.

Example C176_message_case : exists c t, creder_new (fun _ => None) None (Some (s! "{""v"":""ACDC10JSON00004c_"",""d"":""EAAAAAAAAAAAAAAAAAAAAAAAAAAAAAAAAAAAAAAAAAAA""}")) None None None = Ok c /\
  messagize_creder c (s! "MAAB") = Ok t /\ t = d_raw c ++ s! "-VABMAAB".
Proof. eexists. eexists. split; [vm_compute; reflexivity|]. split; vm_compute; reflexivity. Qed.

(** The endorsement of a credential is made exactly if there are at most 4095 signatures and every one can be printed, whatever the identifiers. So it is made for no signature at all. *)
Theorem C176_ratified_exactly :
  forall (prefix said : bytes) (n : N) (sq : matter) (sigers : list (indexer * matter)),
  Forall made sigers -> len sigers < 2 ^ 32 -> n < 2 ^ 128 -> seqner_with_sn n = Ok sq ->
  (exists proof, ratify_creder prefix sq said sigers = Ok proof) <-> len sigers <= 4095 /\ Forall printable sigers.
Proof. exact C176_ratified_l. Qed.
Print Assumptions C176_ratified_exactly.

Example C176_none_case : exists sq proof, seqner_with_sn 0 = Ok sq /\ ratify_creder (s! "MAAB") sq (s! "MAAC") [] = Ok proof /\ drop 48 proof = s! "-AAA".
Proof. eexists. eexists. split; [vm_compute; reflexivity|]. split; vm_compute; reflexivity. Qed.
