(** Model of the states primitives can be in besides the constructed ones: the [Default] instances and the setters of the
    Matter and Indexer traits. Definitions only. *)
From Coq Require Import String.
From Coq Require Import NArith List Bool.
From Verif Require Import Base Tables Matter Indexer.
Import ListNotations.
Open Scope N_scope.

(** matter/mod.rs:13-15 set_code, set_size, set_raw, as implemented by every primitive (for instance bexter.rs:157-167). *)
Definition set_code (code : bytes) (m : matter) : matter := Mt code (m_size m) (m_raw m).
Definition set_size (size : N) (m : matter) : matter := Mt (m_code m) size (m_raw m).
Definition set_raw (raw : bytes) (m : matter) : matter := Mt (m_code m) (m_size m) raw.

(** indexer/mod.rs: set_code, set_raw, set_index, set_ondex, as implemented by Siger (siger.rs:121-135). *)
Definition iset_code (code : bytes) (x : indexer) : indexer := Ix code (i_raw x) (i_index x) (i_ondex x).
Definition iset_raw (raw : bytes) (x : indexer) : indexer := Ix (i_code x) raw (i_index x) (i_ondex x).
Definition iset_index (index : N) (x : indexer) : indexer := Ix (i_code x) (i_raw x) index (i_ondex x).
Definition iset_ondex (ondex : N) (x : indexer) : indexer := Ix (i_code x) (i_raw x) (i_index x) ondex.

(** bexter.rs:38-42 and pather.rs:24-28. *)
Definition bexter_default : matter := Mt (s! "4A") 0 [].
(** cigar.rs:13-22 (the signature; its key is [verfer_default]). *)
Definition cigar_default : matter := Mt (s! "0B") 0 [].
(** dater.rs:11-15. *)
Definition dater_default : matter := Mt (s! "1AAG") 0 [].
(** diger.rs:32-36, saider.rs:14-18 and prefixer.rs:22-26. *)
Definition digest_default : matter := Mt (s! "E") 0 [].
(** number.rs:29-33. *)
Definition number_default : matter := Mt (s! "M") 0 [].
(** seqner.rs:11-15 and salter.rs:151-160. *)
Definition salt_default : matter := Mt (s! "0A") 0 [].
(** verfer.rs:12-16. *)
Definition verfer_default : matter := Mt (s! "D") 0 [].
(** signer.rs:48-57 (the seed). *)
Definition signer_default : matter := Mt (s! "A") 0 [].
(** siger.rs:14-24 (the signature). *)
Definition siger_default : indexer := Ix (s! "A") [] 0 0.
