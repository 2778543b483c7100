(** Properties C65-C67, C90. Theorem statements only; the proofs are in [SignerThms]. *)
From Coq Require Import String.
From Coq Require Import NArith ZArith QArith Bool List.
From Verif Require Import Base Tables Matter Indexer Prims Signer Spec SpecIndexer SpecPrims SpecSigner SignerThms BaseFacts.
Import ListNotations.
Open Scope N_scope.

(** Whatever a signer signs verifies under its own key, which comes attached to the signature; also when the key and the signature are printed and parsed back. *)
Theorem C65_unindexed :
  forall (cr : crypto) (transferable : option bool) (code raw qb64b qb64 qb2 : option bytes) (g : signer) (rng ser : bytes),
  correct cr -> signer_new cr transferable code raw qb64b qb64 qb2 = Ok g ->
  exists sig, sign_unindexed cr rng g ser = Ok (sig, g_verfer g) /\ verfer_verify cr (g_verfer g) (m_raw sig) ser = Ok true /\
    (exists s d b, In (m_code (g_seed g), (s, d, b, m_code sig)) seed_table) /\
    exists st kt, infil sig = Ok st /\ infil (g_verfer g) = Ok kt /\
      exists sig' key v, cigar_new None None None None (Some st) None = Ok (sig', v) /\ verfer_new None None None (Some kt) None = Ok key /\
        verfer_verify cr key (m_raw sig') ser = Ok true.
Proof. exact C65a_l. Qed.
Print Assumptions C65_unindexed.

Example C65_premise : correct toy.
Proof. exact toy_correct. Qed.
Example C65_case : exists g sig, signer_new toy None None (Some (repeat x07 32)) None None None = Ok g /\ sign_unindexed toy [] g (s! "abc") = Ok (sig, g_verfer g) /\
  verfer_verify toy (g_verfer g) (m_raw sig) (s! "abc") = Ok true /\ verfer_verify toy (Mt (s! "D") 0 (repeat x08 32)) (m_raw sig) (s! "abc") = Ok false.
Proof. eexists. eexists. split; [vm_compute; reflexivity|]. split; [vm_compute; reflexivity|]. split; vm_compute; reflexivity. Qed.

(** Signing with an index succeeds exactly when index and other index (unless the signature is for the current keys only, which ignores it) are below 4096; it
   never panics. The signature holds the index, and the other index, which is the index if none was given; for current keys only the code says so and the other
   index is zero. Everything is recovered by parsing the printed signature. Small indices are printed in 88 characters, others in 92. *)
Theorem C66_indices_kept :
  forall (cr : crypto) (transferable : option bool) (code raw qb64b qb64 qb2 : option bytes) (g : signer) (rng ser : bytes) (only : bool) (index : N) (ondex : option N),
  correct cr -> signer_new cr transferable code raw qb64b qb64 qb2 = Ok g ->
  sign_indexed cr rng g ser only index ondex <> Panic /\
  ((exists r, sign_indexed cr rng g ser only index ondex = Ok r) <-> index < 4096 /\ (only = false -> forall o, ondex = Some o -> o < 4096)) /\
  forall x v, sign_indexed cr rng g ser only index ondex = Ok (x, v) ->
    exists both big current bigcurrent t, In (m_code (g_seed g), (both, big, current, bigcurrent)) index_table /\
      i_index x = index /\ i_ondex x = (if only then 0 else match ondex with Some o => o | None => index end) /\
      (only = true -> i_code x = current \/ i_code x = bigcurrent) /\ (only = false -> i_code x = both \/ i_code x = big) /\
      iinfil x = Ok t /\ iexfil t = Ok x /\ len t = if (index <? 64) && (only || (i_ondex x =? index)) then 88 else 92.
Proof. exact C66_l. Qed.
Print Assumptions C66_indices_kept.

Example C66_case : exists g x, signer_new toy None None (Some (repeat x07 32)) None None None = Ok g /\ sign_indexed toy [] g (s! "abc") false 3 (Some 65) = Ok (x, g_verfer g) /\
  (i_code x, i_index x, i_ondex x) = (s! "2A", 3, 65) /\ is_err (sign_indexed toy [] g (s! "abc") false 3 (Some 4096)) = true.
Proof. eexists. eexists. split; [vm_compute; reflexivity|]. split; [vm_compute; reflexivity|]. split; vm_compute; reflexivity. Qed.

(** The same for indexed signatures, for all indices that fit: they verify under the signer's key, which comes attached, also after printing and parsing. *)
Theorem C65_indexed :
  forall (cr : crypto) (transferable : option bool) (code raw qb64b qb64 qb2 : option bytes) (g : signer) (rng ser : bytes) (only : bool) (index : N) (ondex : option N),
  correct cr -> signer_new cr transferable code raw qb64b qb64 qb2 = Ok g -> index < 4096 -> (only = false -> forall o, ondex = Some o -> o < 4096) ->
  exists x, sign_indexed cr rng g ser only index ondex = Ok (x, g_verfer g) /\ verfer_verify cr (g_verfer g) (i_raw x) ser = Ok true /\
    exists st kt, iinfil x = Ok st /\ infil (g_verfer g) = Ok kt /\
      exists x' key v, siger_new None None None None None None (Some st) None = Ok (x', v) /\ verfer_new None None None (Some kt) None = Ok key /\
        verfer_verify cr key (i_raw x') ser = Ok true.
Proof. exact C65b_l. Qed.
Print Assumptions C65_indexed.

Example C65_indexed_case : exists g x, signer_new toy (Some false) (Some (s! "Q")) (Some (repeat x07 32)) None None None = Ok g /\
  sign_indexed toy [] g (s! "abc") true 4095 (Some 9000) = Ok (x, g_verfer g) /\ verfer_verify toy (g_verfer g) (i_raw x) (s! "abc") = Ok true.
Proof. eexists. eexists. split; [vm_compute; reflexivity|]. split; vm_compute; reflexivity. Qed.

(** The key of a signer has the code of the scheme of its seed, transferable or not as asked (transferable if nothing was asked), and is the public key of the seed. *)
Theorem C67_key_matches_seed :
  forall (cr : crypto) (transferable : option bool) (code raw qb64b qb64 qb2 : option bytes) (g : signer),
  correct cr -> signer_new cr transferable code raw qb64b qb64 qb2 = Ok g ->
  key_code (m_code (g_seed g)) (match transferable with Some t => t | None => true end) (m_code (g_verfer g)) /\
  (exists s d b sg, In (m_code (g_seed g), (s, d, b, sg)) seed_table /\ cr_public cr s (m_raw (g_seed g)) = Some (m_raw (g_verfer g))) /\
  built (g_verfer g).
Proof. exact C67_l. Qed.
Print Assumptions C67_key_matches_seed.

Example C67_case : exists g, signer_new toy (Some false) (Some (s! "J")) (Some (repeat x07 32)) None None None = Ok g /\ m_code (g_verfer g) = s! "1AAA".
Proof. eexists. split; [vm_compute; reflexivity|reflexivity]. Qed.

(** As reported by the library, false: the key of a signer on secp256r1 built non-transferable says it is transferable. *)
Theorem C67_reported_refuted :
  exists g, signer_new toy (Some false) (Some (s! "Q")) (Some (repeat x07 32)) None None None = Ok g /\ Matter.transferable (g_verfer g) = true.
Proof. exact C67_no_l. Qed.
Print Assumptions C67_reported_refuted.

(** For seeds of the other schemes the key reports what was asked. Full statement: for all schemes; see C67_reported_refuted. *)
Theorem C67_reported_partial :
  forall (cr : crypto) (transferable : option bool) (code raw qb64b qb64 qb2 : option bytes) (g : signer),
  correct cr -> signer_new cr transferable code raw qb64b qb64 qb2 = Ok g -> m_code (g_seed g) <> s! "Q" ->
  Matter.transferable (g_verfer g) = match transferable with Some t => t | None => true end.
Proof. exact C67b_l. Qed.
Print Assumptions C67_reported_partial.

(** False as stated: parsing a seed text that ends in a base64 padding sign as an Ed25519 seed panics. *)
Theorem C90_short_seed_refuted :
  forall cr, signer_new cr None None None None (Some (s! "AAAAAAAAAAAAAAAAAAAAAAAAAAAAAAAAAAAAAAAAAAA=")) None = Panic.
Proof. exact C90_no_l. Qed.
Print Assumptions C90_short_seed_refuted.

(** Building a signer panics exactly when a text or binary seed was given and either parsing it panics or it is an Ed25519 seed of fewer than 32 bytes. Full
   statement: never; see C90_short_seed_refuted. *)
Theorem C90_signer_panics_partial :
  forall (cr : crypto) (transferable : option bool) (code raw qb64b qb64 qb2 : option bytes),
  correct cr ->
  (signer_new cr transferable code raw qb64b qb64 qb2 = Panic <->
   (qb64b <> None \/ qb64 <> None \/ qb2 <> None) /\
   (matter_new code raw qb64b qb64 qb2 = Panic \/ exists m, matter_new code raw qb64b qb64 qb2 = Ok m /\ m_code m = s! "A" /\ len (m_raw m) < 32)).
Proof. exact C90_l. Qed.
Print Assumptions C90_signer_panics_partial.

Example C90_case : is_err (signer_new toy None (Some (s! "B")) (Some (repeat x07 32)) None None None) = true /\ is_err (signer_new toy None None (Some (repeat x07 31)) None None None) = true.
Proof. split; vm_compute; reflexivity. Qed.

(** Every 32 bytes are accepted as an Ed25519 seed, and as a seed of another scheme if the scheme has a public key for them; longer byte strings are cut to 32.
   Without a seed a random one is drawn. The printed seed gives the same signer. *)
Theorem C90_seeds_accepted :
  forall (cr : crypto) (transferable : option bool) (code : option bytes) (raw : bytes) (s : scheme) (d b sg pk : bytes),
  correct cr -> In (match code with Some c => c | None => s! "A" end, (s, d, b, sg)) seed_table -> 32 <= len raw -> cr_public cr s (take 32 raw) = Some pk ->
  exists g, signer_new cr transferable code (Some raw) None None None = Ok g /\ m_raw (g_seed g) = take 32 raw /\ m_code (g_seed g) = match code with Some c => c | None => s! "A" end /\
    m_raw (g_verfer g) = pk /\ (exists t, infil (g_seed g) = Ok t /\ signer_new cr transferable None None None (Some t) None = Ok g) /\
  exists g', signer_new cr transferable code None None None None = Ok g' /\ m_raw (g_seed g') = cr_random cr s.
Proof. exact C90b_l. Qed.
Print Assumptions C90_seeds_accepted.

Example C90_accepted_case : exists g, signer_new toy None None None None None None = Ok g.
Proof. eexists. vm_compute. reflexivity. Qed.
