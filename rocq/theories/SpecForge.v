(** Vocabulary of the statement about forged credentials: what a forger does, with the functions that issue_acdc uses. *)
From Coq Require Import String.
From Coq Require Import NArith ZArith List Bool.
From Verif Require Import Base Matter Indexer Prims Json Tholder Common Signer Sadder Prefixer Messaging Short Verify Ingest Events Issue.
Import ListNotations.
Open Scope N_scope.

(** The forger makes a credential that names somebody else as its issuer, and a registry that is not theirs; anchors its issuance in their own registry [mine] by an event of their own; and signs it with their own keys. *)
Definition forge (canon : bytes -> option bytes) (hash : bytes -> bytes -> bytes) (cr : crypto) (now : bytes * bytes) (salts : bytes * bytes) (nonce : bytes) (rng1 rng2 : N -> bytes) (w : wallet)
    (mine forger named registry schema : bytes) (data : value) (recipient : option bytes) (private : option bool) (source rules : option value) : R (bytes * bytes * bytes * bytes) :=
  let* acdc := create canon hash (fst now) salts schema named data recipient private None (Some registry) source rules None None in
  let* said := sad_said acdc in
  let* iss := credential_issue canon hash (snd now) nonce said mine in
  let* sn := w_count w forger in
  let* dig := w_said w forger in
  let* key_set := w_keys w forger in
  let* sigers := ks_sign hash cr rng1 key_set (d_raw acdc) None in
  let* ixn := do_interact hash cr canon rng2 key_set forger dig sn (one_seal said (s! "0") (fst iss)) in
  let* iss_text := anchored_text (snd iss) sn (fst ixn) in
  let* est := w_established w forger in
  let* seqner := seqner_with_sn (snd est) in
  let* proof := ratify_creder forger seqner (fst est) sigers in
  let* signed := messagize_creder acdc proof in
  Ok (said, snd ixn, iss_text, signed).
