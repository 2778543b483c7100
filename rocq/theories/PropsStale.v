(** Properties C109, C110. Theorem statements only; the proofs are in [StaleThms]. *)
From Coq Require Import String.
From Coq Require Import NArith ZArith QArith Bool List.
From Verif Require Import Base Tables Matter Indexer Prims Json Common Saider Sadder Signer State Stale Spec SpecIndexer SpecPrims SpecSaider SpecSadder SpecSigner SpecKinds StaleThms BaseFacts.
Import ListNotations.
Open Scope N_scope.

(** Neither signing, plain or indexed, nor verifying panics: whatever state a signer or a key is in, whatever the crates answer, and for all indices. *)
Theorem C109_signing_never_panics :
  forall (cr : crypto) (g : signer) (rng ser : bytes) (only : bool) (index : N) (ondex : option N) (key : matter) (sig : bytes),
  sign_unindexed cr rng g ser <> Panic /\ sign_indexed cr rng g ser only index ondex <> Panic /\ verfer_verify cr key sig ser <> Panic.
Proof. exact C109_np_l. Qed.
Print Assumptions C109_signing_never_panics.

Example C109_panic_case : is_err (sign_unindexed toy [] (signer_set_raw (zeros 31) (Sgr (Mt (s! "A") 0 (zeros 32)) (Mt (s! "D") 0 (zeros 32)))) (s! "abc")) = true /\
  is_err (sign_indexed toy [] (signer_set_code (s! "4A") (Sgr (Mt (s! "A") 0 (zeros 32)) (Mt (s! "D") 0 (zeros 32)))) (s! "abc") false 4294967295 (Some 7)) = true.
Proof. split; vm_compute; reflexivity. Qed.

(** False in general that what a signer signs verifies under the key attached to the signature: after set_raw a signer keeps the key of its old seed. *)
Theorem C109_stale_key_refuted :
  exists g sig key,
  signer_new toy None None (Some (zeros 32)) None None None = Ok g /\
  sign_unindexed toy [] (signer_set_raw (repeat x01 32) g) (s! "abc") = Ok (sig, key) /\ key = g_verfer g /\ verfer_verify toy key (m_raw sig) (s! "abc") = Ok false.
Proof. exact C109_stale_l. Qed.
Print Assumptions C109_stale_key_refuted.

(** What holds: a signer in any state signs with its seed. The key attached is the one it carries, whatever that is; the signature, plain or indexed, verifies under both keys
   of the seed, transferable and not, so that it verifies under its own key if that is one of them. A seed of another code, or an Ed25519 seed of another length than 32
   bytes, is an error. Missing: see the refutation. *)
Theorem C109_any_state_partial :
  forall (cr : crypto) (g : signer) (rng ser : bytes) (only : bool) (index : N) (ondex : option N),
  correct cr ->
  (forall s d b sg pk, In (m_code (g_seed g), (s, d, b, sg)) seed_table -> cr_public cr s (m_raw (g_seed g)) = Some pk -> (s = Ed25519 -> len (m_raw (g_seed g)) = 32) ->
     (exists sig, sign_unindexed cr rng g ser = Ok (sig, g_verfer g) /\ m_code sig = sg /\
        verfer_verify cr (Mt d 0 pk) (m_raw sig) ser = Ok true /\ verfer_verify cr (Mt b 0 pk) (m_raw sig) ser = Ok true) /\
     (forall x v, sign_indexed cr rng g ser only index ondex = Ok (x, v) -> v = g_verfer g /\
        verfer_verify cr (Mt d 0 pk) (i_raw x) ser = Ok true /\ verfer_verify cr (Mt b 0 pk) (i_raw x) ser = Ok true)) /\
  (~ In (m_code (g_seed g)) seeds -> sign_unindexed cr rng g ser = Err EUnexpectedCode /\ sign_indexed cr rng g ser only index ondex = Err EUnexpectedCode) /\
  (m_code (g_seed g) = s! "A" -> len (m_raw (g_seed g)) <> 32 -> sign_unindexed cr rng g ser = Err EForeign /\ sign_indexed cr rng g ser only index ondex = Err EForeign) /\
  sign_unindexed cr rng signer_empty ser = Err EForeign.
Proof. exact C109_state_l. Qed.
Print Assumptions C109_any_state_partial.

Example C109_state_case : exists sig, sign_unindexed toy [] (signer_set_raw (repeat x01 32) (Sgr (Mt (s! "A") 0 (zeros 32)) (Mt (s! "D") 0 (zeros 32)))) (s! "abc") =
  Ok (sig, Mt (s! "D") 0 (zeros 32)) /\ verfer_verify toy (Mt (s! "D") 0 (repeat x01 32)) (m_raw sig) (s! "abc") = Ok true.
Proof. eexists. split; [vm_compute; reflexivity|]. vm_compute. reflexivity. Qed.

(** In any state of a key event, its accessors answer by its data alone: the identifier is the text of field i; whether it establishes keys depends on the text of field t; its
   number is the one the text of field s denotes. These panic exactly if the field is missing (any other value than a text is an error). *)
Theorem C110_events_any_state :
  forall (e : sadder) (t : bytes) (n : N) (b : bool),
  (serder_pre e = Ok t <-> field_of (d_ked e) (s! "i") (VStr t)) /\ (serder_pre e = Panic <-> lacks (d_ked e) (s! "i")) /\
  (serder_est e = Ok b <-> exists ilk, field_of (d_ked e) (s! "t") (VStr ilk) /\ (b = true <-> In ilk [s! "icp"; s! "rot"; s! "dip"; s! "drt"])) /\
  (serder_est e = Panic <-> lacks (d_ked e) (s! "t")) /\
  (serder_sn e = Ok n <-> exists h, field_of (d_ked e) (s! "s") (VStr h) /\ (h = [] /\ n = 0 \/ h <> [] /\ hex_reading h n /\ n < 2 ^ 128)) /\
  (serder_sn e = Panic <-> lacks (d_ked e) (s! "s")).
Proof. exact C110_l. Qed.
Print Assumptions C110_events_any_state.

Example C110_case : serder_pre serder_empty = Panic /\ is_err (serder_sn (Sd (s! "E") [] (VObj [(s! "s", VInt 3)]) (s! "KERI") (s! "JSON") 0 (Ver 1 0) (Mt (s! "E") 0 []))) = true.
Proof. split; vm_compute; reflexivity. Qed.

(** In any state, reading the keys, next-key digests or witnesses panics exactly if the list holds a text that makes parsing a primitive panic, after texts of the right kind
   only; and an event as made by default, or with data that are no object, has an error or no keys but never a panic here. *)
Theorem C110_lists_any_state :
  forall (e : sadder),
  (serder_verfers e = Panic <-> exists a t b ms, field_of (d_ked e) (s! "k") (VArr (a ++ VStr t :: b)) /\ texts_of keys a ms /\ exfil t = Panic) /\
  (serder_digers e = Panic <-> exists a t b ms, field_of (d_ked e) (s! "n") (VArr (a ++ VStr t :: b)) /\ texts_of digests a ms /\ exfil t = Panic) /\
  (serder_werfers e = Panic <-> exists a t b ms, field_of (d_ked e) (s! "b") (VArr (a ++ VStr t :: b)) /\ texts_of keys a ms /\ exfil t = Panic).
Proof. exact C110_list_l. Qed.
Print Assumptions C110_lists_any_state.

Example C110_list_case : serder_verfers (Sd (s! "E") [] (VObj [(s! "k", VArr [VStr (s! "DAAAAAAAAAAAAAAAAAAAAAAAAAAAAAAAAAAAAAAAAAAA"); VInt 3])]) (s! "KERI") (s! "JSON") 0 (Ver 1 0) (Mt (s! "E") 0 [])) = Err EConversion /\
  serder_verfers serder_empty = Ok [] /\ serder_digers serder_empty = Ok [] /\ serder_werfers serder_empty = Ok [].
Proof. repeat split; vm_compute; reflexivity. Qed.
