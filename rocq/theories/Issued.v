(** Registries and credentials made by the functions of sample/keri/acdc/mod.rs, for the examples. Definitions only. *)
From Coq Require Import String.
From Coq Require Import NArith ZArith Bool List.
From Verif Require Import Base Util Tables Matter Indexer Counter Prims Json Tholder Common Saider Diger Sadder Signer Prefixer Pather Messaging Short Verify Ingest Events Issue SpecSigner World.
Import ListNotations.
Open Scope N_scope.

Definition time0 := s! "2020-01-01T00:00:00.000000+00:00".
Definition owner_keys (_ : bytes) : R keyset := Ok keys0.
Definition no_rng (_ : N) : bytes := [].
(** The inception, then a registry. *)
Definition ledger0 := insert_key_event empty pre0 (d_raw event0 ++ s! "0").
Definition anchor_text1 := Eval vm_compute in got ([], []) (do_interact mix toy no_floats no_rng keys0 pre0 (got [] (sad_said event0)) 1 (one_seal rpre0 (s! "0") rpre0)).
Definition registry_text := Eval vm_compute in got [] (anchored_text (d_raw reg0) 1 (fst anchor_text1)).
Definition ledger1 := insert_transaction_event (insert_key_event ledger0 pre0 (snd anchor_text1)) rpre0 registry_text.
(** Then a credential, and its revocation. *)
Definition issued_texts := Eval vm_compute in got ([], [], [], []) (
  issue_acdc no_floats mix toy (time0, time0) ([], []) (s! "n") no_rng no_rng (purse no_floats owner_keys ledger1) rpre0 pre0 (s! "schema") (s! "{""name"":""x""}") None None None None).
Definition said_i := fst (fst (fst issued_texts)).
Definition ixn_i := snd (fst (fst issued_texts)).
Definition iss_i := snd (fst issued_texts).
Definition signed_i := snd issued_texts.
Definition ledger2 := insert_acdc (insert_transaction_event (insert_key_event ledger1 pre0 ixn_i) said_i iss_i) signed_i.
Definition revoked_texts := Eval vm_compute in got ([], []) (revoke_acdc no_floats mix toy time0 (s! "m") no_rng (purse no_floats owner_keys ledger2) rpre0 pre0 said_i).
(** The events and the credential in these texts, and the groups attached to them. *)
Definition e_r1 := Eval vm_compute in of_text (snd anchor_text1).
Definition e_r2 := Eval vm_compute in of_text registry_text.
Definition e_i1 := Eval vm_compute in of_text ixn_i.
Definition e_i2 := Eval vm_compute in of_text iss_i.
Definition c_i := Eval vm_compute in got no_event (creder_with_raw no_floats signed_i).
Definition e_v1 := Eval vm_compute in of_text (fst revoked_texts).
Definition e_v2 := Eval vm_compute in of_text (snd revoked_texts).
Definition attached (e : sadder) (text : bytes) : bytes := skipn (length (d_raw e)) text.
Definition g_r1 := Eval vm_compute in GQuadlets [GSigs (signed keys0 e_r1)].
Definition g_r2 := Eval vm_compute in GSources [couple 1 e_r1].
Definition g_i1 := Eval vm_compute in GQuadlets [GSigs (signed keys0 e_i1)].
Definition g_i2 := Eval vm_compute in GSources [couple 2 e_i1].
Definition g_i3 := Eval vm_compute in GQuadlets [GPaths [Sps (got nothing (pather_with_path (VArr []))) (got nothing (exfil pre0)) (got nothing (seqner_with_sn 0)) (d_saider event0) (signed keys0 c_i)]].
Definition g_v1 := Eval vm_compute in GQuadlets [GSigs (signed keys0 e_v1)].
Definition g_v2 := Eval vm_compute in GSources [couple 3 e_v1].
(** A parser for these texts. *)
Definition parcels : list (bytes * (sadder * group)) :=
  [(snd anchor_text1, (e_r1, g_r1)); (registry_text, (e_r2, g_r2)); (ixn_i, (e_i1, g_i1)); (iss_i, (e_i2, g_i2)); (signed_i, (c_i, g_i3)); (fst revoked_texts, (e_v1, g_v1)); (snd revoked_texts, (e_v2, g_v2))].
Definition parcel (t : bytes) : R (list message) := match find (fun p => beq (fst p) t) parcels with Some (_, (e, g)) => Ok [MPayload (d_raw e); MGroup g] | None => Ok [] end.
Definition tag (g : group) : bytes := match g with GSources ((_, sd) :: _) => m_raw sd | GQuadlets (GPaths _ :: _) => s! "!" | GQuadlets (GSigs (x :: _) :: _) => i_raw x | _ => [] end.
Definition parcel_text (g : group) : R bytes := match find (fun p => beq (tag (snd (snd p))) (tag g)) parcels with Some (t, (e, _)) => Ok (attached e t) | None => Ok [] end.
