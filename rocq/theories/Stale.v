(** Signers and events in states no constructor makes: their defaults and setters. Definitions only. *)
From Coq Require Import String.
From Coq Require Import NArith List Bool.
From Verif Require Import Base Tables Matter Prims Json Common State Sadder Signer.
Import ListNotations.
Open Scope N_scope.

(** signer.rs:48-57 default: an Ed25519 seed without bytes, with the default key. *)
Definition signer_empty : signer := Sgr signer_default verfer_default.
(** signer.rs:242-252 set_code, set_raw, set_size: the key stays as it is. *)
Definition signer_set_code (code : bytes) (g : signer) : signer := Sgr (set_code code (g_seed g)) (g_verfer g).
Definition signer_set_raw (raw : bytes) (g : signer) : signer := Sgr (set_raw raw (g_seed g)) (g_verfer g).
Definition signer_set_size (size : N) (g : signer) : signer := Sgr (set_size size (g_seed g)) (g_verfer g).

(** serder.rs:195-208 and creder.rs:92-105 default. *)
Definition serder_empty : sadder := Sd (s! "E") [] (VObj []) (s! "KERI") (s! "JSON") 0 current_version digest_default.
Definition creder_empty : sadder := Sd (s! "E") [] (VObj []) (s! "ACDC") (s! "JSON") 0 current_version digest_default.
(** creder.rs:55-57 crd. *)
Definition creder_crd (e : sadder) : value := d_ked e.
