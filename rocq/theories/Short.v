(** The short constructors: each passes its arguments on to [new] of its type and leaves the others out. *)
From Coq Require Import String.
From Coq Require Import NArith List Bool.
From Verif Require Import Base Tables Matter Indexer Prims Json Tholder Saider Diger Sadder Prefixer Signer Pather.
Import ListNotations.
Open Scope N_scope.

(** verfer.rs:51-65 *)
Definition verfer_with_raw (raw : bytes) (code : option bytes) : R matter := verfer_new code (Some raw) None None None.
Definition verfer_with_qb64b (b : bytes) : R matter := verfer_new None None (Some b) None None.
Definition verfer_with_qb64 (t : bytes) : R matter := verfer_new None None None (Some t) None.
Definition verfer_with_qb2 (b : bytes) : R matter := verfer_new None None None None (Some b).

(** diger.rs:82-100 *)
Definition diger_with_ser (hash : bytes -> bytes -> bytes) (ser : bytes) (code : option bytes) : R matter := diger_new hash (Some ser) code None None None None.
Definition diger_with_raw (hash : bytes -> bytes -> bytes) (raw : bytes) (code : option bytes) : R matter := diger_new hash None code (Some raw) None None None.
Definition diger_with_qb64b (hash : bytes -> bytes -> bytes) (b : bytes) : R matter := diger_new hash None None None (Some b) None None.
Definition diger_with_qb64 (hash : bytes -> bytes -> bytes) (t : bytes) : R matter := diger_new hash None None None None (Some t) None.
Definition diger_with_qb2 (hash : bytes -> bytes -> bytes) (b : bytes) : R matter := diger_new hash None None None None None (Some b).

(** saider.rs:243-267 *)
Definition said_with_sad (hash : bytes -> bytes -> bytes) (sad : value) (label kind : option bytes) (ignore : option (list bytes)) (code : option bytes) : R matter :=
  said_new hash (Some sad) label kind (or_else ignore []) code None None None None.
Definition said_with_raw (hash : bytes -> bytes -> bytes) (raw : bytes) (code : option bytes) : R matter := said_new hash None None None [] code (Some raw) None None None.
Definition said_with_qb64b (hash : bytes -> bytes -> bytes) (b : bytes) : R matter := said_new hash None None None [] None None (Some b) None None.
Definition said_with_qb64 (hash : bytes -> bytes -> bytes) (t : bytes) : R matter := said_new hash None None None [] None None None (Some t) None.
Definition said_with_qb2 (hash : bytes -> bytes -> bytes) (b : bytes) : R matter := said_new hash None None None [] None None None None (Some b).

(** number.rs:96-118 *)
Definition number_with_num (n : N) : R matter := number_new (Some n) None None None None None None.
Definition number_with_numh (h : bytes) : R matter := number_new None (Some h) None None None None None.
Definition number_with_raw (raw : bytes) (code : option bytes) : R matter := number_new None None code (Some raw) None None None.
Definition number_with_qb64b (b : bytes) : R matter := number_new None None None None (Some b) None None.
Definition number_with_qb64 (t : bytes) : R matter := number_new None None None None None (Some t) None.
Definition number_with_qb2 (b : bytes) : R matter := number_new None None None None None None (Some b).

(** seqner.rs:57-79 *)
Definition seqner_with_sn (n : N) : R matter := seqner_new (Some n) None None None None None None.
Definition seqner_with_snh (h : bytes) : R matter := seqner_new None (Some h) None None None None None.
Definition seqner_with_raw (raw : bytes) (code : option bytes) : R matter := seqner_new None None code (Some raw) None None None.
Definition seqner_with_qb64b (b : bytes) : R matter := seqner_new None None None None (Some b) None None.
Definition seqner_with_qb64 (t : bytes) : R matter := seqner_new None None None None None (Some t) None.
Definition seqner_with_qb2 (b : bytes) : R matter := seqner_new None None None None None None (Some b).

(** dater.rs:66-84 *)
Definition dater_with_dts (now dts : bytes) (code : option bytes) : R matter := dater_new now (Some dts) code None None None None.
Definition dater_with_raw (now raw : bytes) (code : option bytes) : R matter := dater_new now None code (Some raw) None None None.
Definition dater_with_qb64b (now b : bytes) : R matter := dater_new now None None None (Some b) None None.
Definition dater_with_qb64 (now t : bytes) : R matter := dater_new now None None None None (Some t) None.
Definition dater_with_qb2 (now b : bytes) : R matter := dater_new now None None None None None (Some b).

(** bexter.rs:121-139 *)
Definition bexter_with_bext (t : bytes) : R matter := bexter_new (Some t) None None None None None.
Definition bexter_with_raw (raw : bytes) (code : option bytes) : R matter := bexter_new None code (Some raw) None None None.
Definition bexter_with_qb64b (b : bytes) : R matter := bexter_new None None None (Some b) None None.
Definition bexter_with_qb64 (t : bytes) : R matter := bexter_new None None None None (Some t) None.
Definition bexter_with_qb2 (b : bytes) : R matter := bexter_new None None None None None (Some b).

(** pather.rs:86-108 *)
Definition pather_with_path (p : value) : R matter := pather_new (Some p) None None None None None None.
Definition pather_with_bext (t : bytes) : R matter := pather_new None (Some t) None None None None None.
Definition pather_with_raw (raw : bytes) (code : option bytes) : R matter := pather_new None None code (Some raw) None None None.
Definition pather_with_qb64b (b : bytes) : R matter := pather_new None None None None (Some b) None None.
Definition pather_with_qb64 (t : bytes) : R matter := pather_new None None None None None (Some t) None.
Definition pather_with_qb2 (b : bytes) : R matter := pather_new None None None None None None (Some b).

(** prefixer.rs:310-328 *)
Definition prefixer_with_ked (hash : bytes -> bytes -> bytes) (ked : value) (allows : option (list bytes)) (code : option bytes) : R matter :=
  prefixer_new hash (Some ked) allows code None None None None.
Definition prefixer_with_raw (hash : bytes -> bytes -> bytes) (raw : bytes) (code : option bytes) : R matter := prefixer_new hash None None code (Some raw) None None None.
Definition prefixer_with_qb64b (hash : bytes -> bytes -> bytes) (b : bytes) : R matter := prefixer_new hash None None None None (Some b) None None.
Definition prefixer_with_qb64 (hash : bytes -> bytes -> bytes) (t : bytes) : R matter := prefixer_new hash None None None None None (Some t) None.
Definition prefixer_with_qb2 (hash : bytes -> bytes -> bytes) (b : bytes) : R matter := prefixer_new hash None None None None None None (Some b).

(** cigar.rs:56-70 *)
Definition cigar_with_raw (raw : bytes) (verfer : option matter) (code : option bytes) : R (matter * matter) := cigar_new verfer code (Some raw) None None None.
Definition cigar_with_qb64b (b : bytes) (verfer : option matter) : R (matter * matter) := cigar_new verfer None None (Some b) None None.
Definition cigar_with_qb64 (t : bytes) (verfer : option matter) : R (matter * matter) := cigar_new verfer None None None (Some t) None.
Definition cigar_with_qb2 (b : bytes) (verfer : option matter) : R (matter * matter) := cigar_new verfer None None None None (Some b).

(** salter.rs:62-80; [random] as in [salter_new]. *)
Definition salter_with_defaults (random : bytes) (tier : option bytes) : R (matter * bytes) := salter_new random tier None None None None None.
Definition salter_with_raw (random raw : bytes) (code tier : option bytes) : R (matter * bytes) := salter_new random tier code (Some raw) None None None.
Definition salter_with_qb64b (random b : bytes) (tier : option bytes) : R (matter * bytes) := salter_new random tier None None (Some b) None None.
Definition salter_with_qb64 (random t : bytes) (tier : option bytes) : R (matter * bytes) := salter_new random tier None None None (Some t) None.
Definition salter_with_qb2 (random b : bytes) (tier : option bytes) : R (matter * bytes) := salter_new random tier None None None None (Some b).

(** signer.rs:122-144 *)
Definition signer_with_defaults (cr : crypto) (transferable : option bool) (code : option bytes) : R signer := signer_new cr transferable code None None None None.
Definition signer_with_raw (cr : crypto) (raw : bytes) (transferable : option bool) (code : option bytes) : R signer := signer_new cr transferable code (Some raw) None None None.
Definition signer_with_qb64b (cr : crypto) (b : bytes) (transferable : option bool) : R signer := signer_new cr transferable None None (Some b) None None.
Definition signer_with_qb64 (cr : crypto) (t : bytes) (transferable : option bool) : R signer := signer_new cr transferable None None None (Some t) None.
Definition signer_with_qb2 (cr : crypto) (b : bytes) (transferable : option bool) : R signer := signer_new cr transferable None None None None (Some b).

(** siger.rs:73-93 *)
Definition siger_with_raw (raw : bytes) (verfer : option matter) (index ondex : option N) (code : option bytes) : R (indexer * matter) :=
  siger_new verfer index ondex code (Some raw) None None None.
Definition siger_with_qb64b (b : bytes) (verfer : option matter) : R (indexer * matter) := siger_new verfer None None None None (Some b) None None.
Definition siger_with_qb64 (t : bytes) (verfer : option matter) : R (indexer * matter) := siger_new verfer None None None None None (Some t) None.
Definition siger_with_qb2 (b : bytes) (verfer : option matter) : R (indexer * matter) := siger_new verfer None None None None None None (Some b).

(** tholder.rs:121-131 *)
Definition tholder_with_thold (canon : bytes -> option bytes) (v : value) : R tholder := tholder_new canon (Some v) None None.
Definition tholder_with_limen (canon : bytes -> option bytes) (b : bytes) : R tholder := tholder_new canon None (Some b) None.
Definition tholder_with_sith (canon : bytes -> option bytes) (v : value) : R tholder := tholder_new canon None None (Some v).

(** serder.rs:51-57, creder.rs:47-53 *)
Definition serder_with_ked (canon : bytes -> option bytes) (ked : value) (code kind : option bytes) : R sadder := serder_new canon code None kind (Some ked) None.
Definition serder_with_raw (canon : bytes -> option bytes) (raw : bytes) : R sadder := serder_new canon None (Some raw) None None None.
Definition creder_with_ked (canon : bytes -> option bytes) (ked : value) (code kind : option bytes) : R sadder := creder_new canon code None kind (Some ked) None.
Definition creder_with_raw (canon : bytes -> option bytes) (raw : bytes) : R sadder := creder_new canon None (Some raw) None None None.

(** ** Further accessors *)
(** serder.rs:179-181 preb, sadder.rs:194-196 saidb, dater.rs:92-94 dtsb: the bytes of the text. *)
Definition serder_preb (e : sadder) : R bytes := serder_pre e.
Definition sad_saidb (e : sadder) : R bytes := sad_said e.
Definition dater_dtsb (m : matter) : R bytes := dater_dts m.
