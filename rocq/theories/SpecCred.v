(** Vocabulary of the statements about registries and credentials. *)
From Coq Require Import String.
From Coq Require Import NArith ZArith List Bool.
From Verif Require Import Base Matter Indexer Prims Json Tholder Signer Sadder Pather Short Verify SpecPrims SpecTholder SpecSadder SpecLog.
Import ListNotations.
Open Scope N_scope.

(** The store holds, in the registry log of [pre] under number [n], the event [e]; and its last event there. *)
Definition recorded (canon : bytes -> option bytes) (st : store) (pre : bytes) (n : N) (e : sadder) : Prop :=
  exists text, get_transaction_event st pre n = Ok text /\ serder_with_raw canon text = Ok e.
Definition current (canon : bytes -> option bytes) (st : store) (pre : bytes) (e : sadder) : Prop :=
  exists text, get_latest_transaction_event st pre = Ok text /\ serder_with_raw canon text = Ok e.
(** The store holds the credential [e] under an identifier. *)
Definition held (canon : bytes -> option bytes) (st : store) (said : bytes) (e : sadder) : Prop := exists text, get_acdc st said = Ok text /\ creder_with_raw canon text = Ok e.
(** The registry an event belongs to is owned by the identifier in field ii of its inception: the event itself, or the first one in the log of the registry it names. *)
Definition owned (canon : bytes -> option bytes) (st : store) (e : sadder) (owner : bytes) : Prop :=
  of_type (d_ked e) (s! "vcp") /\ field_of (d_ked e) (s! "ii") (VStr owner) \/
  (of_type (d_ked e) (s! "iss") \/ of_type (d_ked e) (s! "rev")) /\
  exists registry e0, field_of (d_ked e) (s! "ri") (VStr registry) /\ recorded canon st registry 0 e0 /\ field_of (d_ked e0) (s! "ii") (VStr owner).
(** A key event holds one seal and no more: for the event with this prefix, number and identifier. *)
Definition sealed (anchor : value) (pre number said : bytes) : Prop :=
  exists seal, field_of anchor (s! "a") (VArr [seal]) /\ field_of seal (s! "i") (VStr pre) /\ field_of seal (s! "s") (VStr number) /\ field_of seal (s! "d") (VStr said).
(** The fields a registry event of a type must have. *)
Definition registry_required : list (bytes * list bytes) :=
  [ (s! "vcp", [s! "v"; s! "d"; s! "i"; s! "s"; s! "t"; s! "bt"; s! "b"; s! "c"]);
    (s! "iss", [s! "v"; s! "i"; s! "s"; s! "t"; s! "ri"; s! "dt"]);
    (s! "rev", [s! "v"; s! "i"; s! "s"; s! "t"; s! "p"; s! "dt"]) ].

(** The signatures on the whole of a credential in one group: made with the keys of an event stored in the log of the group's identifier, enough for its threshold. Equal signatures count once. *)
Definition vouched (canon : bytes -> option bytes) (cr : crypto) (st : store) (raw : bytes) (g : sad_path_sig) (pre : bytes) : Prop :=
  exists n said e keys t sigs good, infil (sp_prefixer g) = Ok pre /\ seqner_sn (sp_seqner g) = Ok n /\ infil (sp_saider g) = Ok said /\ logged canon st pre (asked_for n) e said /\
    serder_verfers e = Ok keys /\ serder_tholder canon e = Ok (Some t) /\ NoDup sigs /\ (forall x, In x sigs <-> In x (sp_sigers g)) /\
    Forall (fun x => i_index x < len keys) sigs /\ those (verifies cr keys raw) sigs good /\ satisfy t (map i_index good) = Ok true.
(** The groups of a credential's attachments that are about the whole of it. *)
Definition about_all (groups : list group) (g : sad_path_sig) : Prop := exists l, In (GPaths l) groups /\ In g l /\ bext_of (sp_pather g) = Ok (s! "-").

(** The edges of a credential: the sections in field e, or in the maps in the array there. *)
Definition edge (v node : value) : Prop :=
  exists label es, In (label, node) es /\ label <> s! "d" /\ label <> s! "o" /\ (field_of v (s! "e") (VObj es) \/ exists l, field_of v (s! "e") (VArr l) /\ In (VObj es) l).
(** The credential an edge leads to. *)
Definition leads (node : value) (said : bytes) : Prop := field_of node (s! "n") (VStr said).
Definition linked (v : value) (said : bytes) : Prop := exists node, edge v node /\ leads node said.
(** The operators on an edge; those that say who has to be whom. *)
Definition operators (node : value) (ops : list bytes) : Prop :=
  lacks node (s! "o") /\ ops = [] \/ (exists t, field_of node (s! "o") (VStr t) /\ ops = [t]) \/ field_of node (s! "o") (VArr (map VStr ops)).
Definition unary (o : bytes) : Prop := In o [s! "I2I"; s! "NI2I"; s! "DI2I"].
(** The holder of the credential an edge leads to has to be the issuer of the one it starts from, or need not. *)
Definition issuer_to_issuer (ops : list bytes) (subject : value) : Prop := those unary ops [s! "I2I"] \/ those unary ops [] /\ exists x, field_of subject (s! "i") x.
Definition not_issuer_to_issuer (ops : list bytes) (subject : value) : Prop := those unary ops [s! "NI2I"] \/ those unary ops [] /\ lacks subject (s! "i").
(** The credentials in the chains that start from a credential. *)
Inductive descends (canon : bytes -> option bytes) (st : store) : value -> bytes -> Prop :=
| descends_edge v said : linked v said -> descends canon st v said
| descends_on v said e said' : linked v said -> held canon st said e -> descends canon st (d_ked e) said' -> descends canon st v said'.
(** The store holds an event with this identifier. *)
Definition an_event (canon : bytes -> option bytes) (st : store) (said : bytes) : Prop :=
  exists text e, ((exists pre n, get_key_event st pre n = Ok text) \/ (exists pre n, get_transaction_event st pre n = Ok text) \/ (exists pre, get_latest_transaction_event st pre = Ok text)) /\
    serder_with_raw canon text = Ok e /\ sad_said e = Ok said.
