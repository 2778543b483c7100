(** Vocabulary of the statements about issuing and revoking credentials: how attachments are written, and who controls an identifier in a ledger. *)
From Coq Require Import String.
From Coq Require Import NArith ZArith List Bool.
From Verif Require Import Base Matter Indexer Prims Json Tholder Common Signer Sadder Prefixer Short Verify Ingest Events Spec SpecJson SpecTholder SpecSadder SpecLog SpecCred SpecBuild.
Import ListNotations.
Open Scope N_scope.

(** A counter: its code, then the number in two characters. *)
Definition counted (code : bytes) (n : N) (t : bytes) : Prop := exists cs, len cs = 2 /\ base64_number 0 cs = Some n /\ t = code ++ cs.
(** The text of a group of attachments: indexed signatures, the place of an anchoring event, signatures on the whole of a credential, any of these with its length in front. *)
Definition signatures (l : list indexer) (t : bytes) : Prop := exists c us, counted (s! "-A") (len l) c /\ Forall2 (fun x u => iinfil x = Ok u) l us /\ t = c ++ concat us.
Inductive written : group -> bytes -> Prop :=
| written_sigs l t : signatures l t -> written (GSigs l) t
| written_source sq sd c a b : counted (s! "-G") 1 c -> infil sq = Ok a -> infil sd = Ok b -> written (GSources [(sq, sd)]) (c ++ a ++ b)
| written_path g c f p i n d t : counted (s! "-J") 1 c -> counted (s! "-F") 1 f -> infil (sp_pather g) = Ok p -> infil (sp_prefixer g) = Ok i -> infil (sp_seqner g) = Ok n ->
    infil (sp_saider g) = Ok d -> signatures (sp_sigers g) t -> written (GPaths [g]) (c ++ p ++ f ++ i ++ n ++ d ++ t)
| written_long g t n c : written g t -> len t = 4 * n -> counted (s! "-V") n c -> written (GQuadlets [g]) (c ++ t).

(** Events and credentials that can be read back. *)
Definition readable (e : sadder) : Prop := data (d_ked e) /\ nests 127 (d_ked e) /\ len (d_raw e) < 2 ^ 32.

(** The key set [k] is that of the identifier [pre], by its events in the ledger. *)
Definition controls (canon : bytes -> option bytes) (hash : bytes -> bytes -> bytes) (cr : crypto) (l : ledger) (pre : bytes) (k : keyset) : Prop :=
  (exists p, prefixer_with_qb64 hash pre = Ok p /\ infil p = Ok pre) /\ k_offset k = 0 /\
  exists n pe dig ee keys, len (l_kel l pre) = n + 1 /\ logged canon (view canon l) pre n pe dig /\ established canon (view canon l) pre n ee /\
    ks_verfers_qb64 cr k = Ok keys /\ sets_keys canon ee keys.
(** [owner] owns a registry in the ledger. *)
Definition owns (canon : bytes -> option bytes) (l : ledger) (owner registry : bytes) : Prop :=
  exists text e r, l_tel l registry = text :: r /\ serder_with_raw canon text = Ok e /\ field_of (d_ked e) (s! "ii") (VStr owner).
(** The ledger has no credential with this identifier. *)
Definition unheld (canon : bytes -> option bytes) (l : ledger) (said : bytes) : Prop := forall text e, In text (l_acdc l) -> creder_with_raw canon text = Ok e -> sad_said e <> Ok said.
(** An edge of a credential by [issuer] that leads to a credential in the ledger: of the schema named, if one is, and held by the issuer, if that is asked for. *)
Definition edge_fits (canon : bytes -> option bytes) (schema_check : bytes -> bytes -> R bool) (l : ledger) (issuer : bytes) (node : value) : Prop :=
  exists said e ops subject, leads node said /\ held canon (view canon l) said e /\
    (lacks node (s! "s") \/ exists schema, field_of node (s! "s") (VStr schema) /\ schema_check schema (d_raw e) = Ok true) /\
    operators node ops /\ ~ In (s! "NOT") ops /\ field_of (d_ked e) (s! "a") (VObj subject) /\
    (issuer_to_issuer ops (VObj subject) /\ field_of (VObj subject) (s! "i") (VStr issuer) \/ not_issuer_to_issuer ops (VObj subject)).
(** The edges of a credential, if it has any, are in a map or in an array of maps. *)
Definition sectioned (v : value) : Prop :=
  lacks v (s! "e") \/ (exists m, field_of v (s! "e") (VObj m)) \/ exists l, field_of v (s! "e") (VArr l) /\ Forall (fun x => exists m, x = VObj m) l.
(** The parser reads an event, or a credential, followed by a group of attachments in the text [raw ++ t], and prints the group as it was. *)
Definition carried (messages_of : bytes -> R (list message)) (group_text : group -> R bytes) (raw : bytes) (g : group) (t : bytes) : Prop :=
  messages_of (raw ++ t) = Ok [MPayload raw; MGroup g] /\ group_text g = Ok t.
