(** Vocabulary of the statements about the attachments and edges of credentials. *)
From Coq Require Import String.
From Coq Require Import NArith ZArith List Bool.
From Verif Require Import Base Matter Indexer Prims Json Tholder Saider Signer Sadder Pather Short Verify SpecPrims SpecTholder SpecSadder SpecLog SpecCred.
Import ListNotations.
Open Scope N_scope.

(** A group of signatures names a key event in the store, by prefix, number and identifier, with these keys and this threshold. *)
Definition refers (canon : bytes -> option bytes) (st : store) (g : sad_path_sig) (e : sadder) (ks : list matter) (t : tholder) : Prop :=
  exists pre n said, infil (sp_prefixer g) = Ok pre /\ seqner_sn (sp_seqner g) = Ok n /\ infil (sp_saider g) = Ok said /\ logged canon st pre (asked_for n) e said /\
    serder_verfers e = Ok ks /\ serder_tholder canon e = Ok (Some t).
(** Two groups name the same event. *)
Definition alike (g g' : sad_path_sig) : Prop := sp_prefixer g = sp_prefixer g' /\ sp_seqner g = sp_seqner g' /\ sp_saider g = sp_saider g'.
(** The signature check gives an answer. *)
Definition answered (cr : crypto) (ks : list matter) (raw : bytes) (x : indexer) : Prop := exists v b, nth_error ks (N.to_nat (i_index x)) = Some v /\ verfer_verify cr v (i_raw x) raw = Ok b.
(** A group names a stored event, its signatures can be checked, and the good ones among them, equal ones counted once, are enough. *)
Definition endorsed (canon : bytes -> option bytes) (cr : crypto) (st : store) (raw : bytes) (g : sad_path_sig) : Prop :=
  exists e ks t sigs good, refers canon st g e ks t /\ NoDup sigs /\ (forall x, In x sigs <-> In x (sp_sigers g)) /\ Forall (answered cr ks raw) sigs /\
    those (verifies cr ks raw) sigs good /\ satisfy t (map i_index good) = Ok true.
(** Groups of signatures on parts of a credential, whose paths have texts. *)
Definition on_parts (x : group) : Prop := exists l, x = GPaths l /\ Forall (fun g => exists path, bext_of (sp_pather g) = Ok path) l.

(** What field e of a credential may be: nothing, a section or an array of sections. *)
Definition sectioned (v : value) : Prop := lacks v (s! "e") \/ (exists es, field_of v (s! "e") (VObj es)) \/ exists l, field_of v (s! "e") (VArr (map VObj l)).
(** An edge that is in order: it leads to a credential in the store, which the schema it names, if any, accepts, and its operators are met. *)
Definition in_order (canon : bytes -> option bytes) (schema_check : bytes -> bytes -> R bool) (st : store) (e : sadder) (node : value) : Prop :=
  exists said e' ops subject, leads node said /\ held canon st said e' /\
    (lacks node (s! "s") \/ exists schema, field_of node (s! "s") (VStr schema) /\ from_utf8 (d_raw e') = Ok (d_raw e') /\ schema_check schema (d_raw e') = Ok true) /\
    operators node ops /\ ~ In (s! "NOT") ops /\ field_of (d_ked e') (s! "a") (VObj subject) /\
    (issuer_to_issuer ops (VObj subject) /\ (exists issuer, field_of (d_ked e) (s! "i") (VStr issuer) /\ field_of (VObj subject) (s! "i") (VStr issuer)) \/ not_issuer_to_issuer ops (VObj subject)).
(** All that is asked of a credential and its attachments, but for its edges: it has a registry and a schema that accepts it, its identifier is right, the last event in the log of the identifier
    is no revocation and not too old, all groups attached are of signatures on parts of it, at least one is about the whole of it, and each of these endorses it. *)
Definition due (canon : bytes -> option bytes) (hash : bytes -> bytes -> bytes) (cr : crypto) (schema_check : bytes -> bytes -> R bool) (age : bytes -> R Z) (st : store) (e : sadder) (g : list group) (said : bytes) : Prop :=
  exists registry schema saider state ssaid ilk dt secs,
    field_of (d_ked e) (s! "ri") (VStr registry) /\ sad_said e = Ok said /\ field_of (d_ked e) (s! "s") (VStr schema) /\
    said_of_qb64 said = Ok saider /\ said_verify hash saider (d_ked e) (Some false) (Some true) (Some (s! "JSON")) None [] = Ok true /\
    current canon st said state /\ sad_said state = Ok ssaid /\ of_type (d_ked state) ilk /\ ilk <> s! "rev" /\ ilk <> s! "brv" /\
    field_of (d_ked state) (s! "dt") (VStr dt) /\ age dt = Ok secs /\ (secs <= 36000000000)%Z /\
    from_utf8 (d_raw e) = Ok (d_raw e) /\ schema_check schema (d_raw e) = Ok true /\
    Forall on_parts g /\ (exists p, about_all g p) /\ (forall p, about_all g p -> endorsed canon cr st (d_raw e) p).
(** An edge that leads to a credential in the store with these attributes. *)
Definition reaches (canon : bytes -> option bytes) (schema_check : bytes -> bytes -> R bool) (st : store) (node : value) (subject : list (bytes * value)) : Prop :=
  exists said e', leads node said /\ held canon st said e' /\ field_of (d_ked e') (s! "a") (VObj subject) /\
    (lacks node (s! "s") \/ exists schema, field_of node (s! "s") (VStr schema) /\ from_utf8 (d_raw e') = Ok (d_raw e') /\ schema_check schema (d_raw e') = Ok true).
(** An edge is hostile if it leads nowhere; or, to a credential in the store, has an array of operators with one that is no text, asks for delegation, or asks for a holder where there is none. *)
Definition hostile (canon : bytes -> option bytes) (schema_check : bytes -> bytes -> R bool) (st : store) (node : value) : Prop :=
  (exists m, node = VObj m /\ lacks node (s! "n")) \/
  exists subject, reaches canon schema_check st node subject /\
    ((exists l x, field_of node (s! "o") (VArr l) /\ In x l /\ forall t, x <> VStr t) \/
     exists ops, operators node ops /\ ~ In (s! "NOT") ops /\ (those unary ops [s! "DI2I"] \/ those unary ops [s! "I2I"] /\ lacks (VObj subject) (s! "i"))).
(** Every credential the store has is readable, under its own identifier, with attributes, and schemas answer about it. *)
Definition answering (canon : bytes -> option bytes) (schema_check : bytes -> bytes -> R bool) (st : store) : Prop :=
  forall said, get_acdc st said <> Panic /\
    forall text, get_acdc st said = Ok text -> exists e subject, creder_with_raw canon text = Ok e /\ sad_said e = Ok said /\ field_of (d_ked e) (s! "a") (VObj subject) /\
      from_utf8 (d_raw e) = Ok (d_raw e) /\ forall schema, schema_check schema (d_raw e) <> Panic.
