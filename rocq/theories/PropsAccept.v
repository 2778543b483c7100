(** Exact statements about sizing, reading and building events: C52, C57. Theorem statements only; the proofs are in [AcceptThms]. *)
From Coq Require Import String.
From Coq Require Import NArith ZArith QArith Bool List.
From Verif Require Import Base Tables Matter MatterMore Json Tholder Common Saider Diger Sadder Spec SpecPrims SpecJson SpecCommon SpecSaider SpecSadder SpecAccept AcceptThms BaseFacts.
Import ListNotations.
Open Scope N_scope.

(** The outcome of sizing any data: exactly when they are sized, and to what. The first text in their JSON that looks like a version string, wherever it is, is overwritten
   in the raw bytes, while in the data the field v is replaced; the size is that of the JSON modulo 2^32. In every other case sizing is an error; it never panics. *)
Theorem C52_sizing_exactly :
  forall (ked : value) (kind : option bytes),
  (forall z, sizeify ked kind = Ok z <-> sizes_to ked kind z) /\ sizeify ked kind <> Panic.
Proof. exact C52_exactly_l. Qed.
Print Assumptions C52_sizing_exactly.

Example C52_exactly_case : exists z, sizeify (VObj [(s! "d", VStr (s! "KERI10JSON000000_")); (s! "v", VStr (s! "KERI10JSON000000_"))]) None = Ok z /\
  first_version (to_json (VObj [(s! "d", VStr (s! "KERI10JSON000000_")); (s! "v", VStr (s! "KERI10JSON000000_"))])) (s! "{""d"":""") (s! "KERI10JSON000000_") (s! """,""v"":""KERI10JSON000000_""}").
Proof. eexists. split; [vm_compute; reflexivity|]. apply first_find. repeat split. Qed.

(** Exactly which bytes each constructor accepts, and the event made of them: the bytes announce the protocol and a number of bytes, those are there, are text and parse as
   JSON data that the loader can represent, and the field d of the data holds the text of a digest of the code asked for. Nothing else is checked. *)
Theorem C57_reading_exactly :
  forall (new : constructor) (only : option bytes) (canon : bytes -> option bytes) (code kind : option bytes) (raw : bytes) (ked : option value) (sad : option sadder) (s : sadder),
  In (new, only) protocols ->
  (new canon code (Some raw) kind ked sad = Ok s <->
   exists proto n v d, announces raw proto n /\ agrees only proto /\ n <= len raw /\ utf8 (take n raw) = true /\ value_of_text canon (take n raw) = Ok v /\ names_digest v code d /\
     s = Sd (m_code d) (take n raw) v proto (s! "JSON") n (Ver 1 0) d).
Proof. exact C57_reading_l. Qed.
Print Assumptions C57_reading_exactly.

Example C57_reading_case : exists s, serder_new (fun _ => None) None (Some (s! "{""v"":""KERI10JSON00004c_"",""d"":""EAAAAAAAAAAAAAAAAAAAAAAAAAAAAAAAAAAAAAAAAAAA""}-AAB")) None None None = Ok s /\
  names_digest (d_ked s) None (Mt (s! "E") 0 (zeros 32)) /\ creder_new (fun _ => None) None (Some (d_raw s)) None None None = Err EValue.
Proof.
  eexists. split; [vm_compute; reflexivity|]. split; [|vm_compute; reflexivity]. eexists. split; [eexists [_], []; split; [reflexivity|intros [X|[]]; discriminate]|].
  split; [vm_compute; reflexivity|]. split; [reflexivity|now left].
Qed.

(** Exactly which data each constructor accepts, and the event made of them: the data are sized (see C52_sizing_exactly), are of the right protocol, and the field d holds the
   text of a digest of the code asked for. It panics exactly if the data are sized but there is no field d, or its text makes parsing panic. Without bytes and data
   the given event is returned if it is of the right protocol. *)
Theorem C57_building_exactly :
  forall (new : constructor) (only : option bytes) (canon : bytes -> option bytes) (code kind : option bytes) (ked : value) (sad : option sadder),
  In (new, only) protocols ->
  (forall s, new canon code None kind (Some ked) sad = Ok s <->
     exists z d, sizeify ked kind = Ok z /\ agrees only (z_ident z) /\ names_digest ked code d /\ s = Sd (m_code d) (z_raw z) (z_ked z) (z_ident z) (s! "JSON") (len (z_raw z) mod 2 ^ 32) (Ver 1 0) d) /\
  (new canon code None kind (Some ked) sad = Panic <-> (exists z, sizeify ked kind = Ok z) /\ digest_breaks ked) /\
  (forall s, new canon code None kind None sad = Ok s <-> sad = Some s /\ agrees only (d_ident s)) /\ new canon code None kind None sad <> Panic.
Proof. exact C57_building_l. Qed.
Print Assumptions C57_building_exactly.

Example C57_building_case : exists s, creder_new (fun _ => None) None None None (Some (VObj [(s! "v", VStr (s! "ACDC10JSON000000_")); (s! "d", VStr (s! "EAAAAAAAAAAAAAAAAAAAAAAAAAAAAAAAAAAAAAAAAAAA"))])) None = Ok s /\
  creder_new (fun _ => None) None None None (Some (VObj [(s! "v", VStr (s! "ACDC10JSON000000_"))])) None = Panic /\ digest_breaks (VObj [(s! "v", VStr (s! "ACDC10JSON000000_"))]) /\
  sadder_new (fun _ => None) None None None None (Some s) = Ok s /\ serder_new (fun _ => None) None None None None (Some s) = Err EValidation.
Proof.
  eexists. split; [vm_compute; reflexivity|]. split; [vm_compute; reflexivity|]. split; [|split; vm_compute; reflexivity]. left. intros x (m1 & m2 & E & _).
  destruct m1 as [|p [|q m1]]; try discriminate E. 
Qed.
