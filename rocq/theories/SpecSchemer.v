(** Vocabulary of the statements about schemas. *)
From Coq Require Import String.
From Coq Require Import NArith ZArith List Bool.
From Verif Require Import Base Matter Prims Json Schemer SpecPrims SpecJson SpecCommon SpecSaider.
Import ListNotations.
Open Scope N_scope.

(** A schema has an identifier: its field $id holds it, and it reads as the digest of the schema's JSON with hash signs in this field. A schema with a
    field v is digested with some version string in it. *)
Definition identified (hash : bytes -> bytes -> bytes) (key : bytes) (v : value) : Prop :=
  exists m m' code, v = VObj m /\ get (s! "$id") m = Some (VStr key) /\ In code (map fst digest_sizes) /\ 
    (~ In (s! "v") (map fst m) /\ m' = m \/ In (s! "v") (map fst m) /\ exists vs proto n, version_string vs proto 1 0 n /\ m' = replaced (s! "v") (VStr vs) m) /\
    exfil key = Ok (Mt code 0 (hash code (to_json (VObj (replaced (s! "$id") (dummies (text_width code)) m'))))).

(** The caches and the schemas made, after any number of schemas have been made from texts or from values without floats, and any of these put into the cache for credentials. *)
Inductive stocked (canon : bytes -> option bytes) (hash : bytes -> bytes -> bytes) (compiles : bytes -> jval -> bool) : compiled -> known -> list schemer -> Prop :=
| stocked_none : stocked canon hash compiles [] [] []
| stocked_made c k l raw sed kind code x c' :
    stocked canon hash compiles c k l -> (forall v, raw = None -> sed = Some v -> data v) -> schemer_new canon hash compiles c raw sed kind code = Ok (x, c') ->
    stocked canon hash compiles c' k (x :: l)
| stocked_primed c k l xs k' : stocked canon hash compiles c k l -> incl xs l -> cache_prime k xs = Ok k' -> stocked canon hash compiles c k' l.

(** From one state of the caches to a later one. *)
Inductive restocked (canon : bytes -> option bytes) (hash : bytes -> bytes -> bytes) (compiles : bytes -> jval -> bool) (c0 : compiled) (k0 : known) (l0 : list schemer)
    : compiled -> known -> list schemer -> Prop :=
| restocked_not : restocked canon hash compiles c0 k0 l0 c0 k0 l0
| restocked_made c k l raw sed kind code x c' :
    restocked canon hash compiles c0 k0 l0 c k l -> (forall v, raw = None -> sed = Some v -> data v) -> schemer_new canon hash compiles c raw sed kind code = Ok (x, c') ->
    restocked canon hash compiles c0 k0 l0 c' k (x :: l)
| restocked_primed c k l xs k' : restocked canon hash compiles c0 k0 l0 c k l -> incl xs l -> cache_prime k xs = Ok k' -> restocked canon hash compiles c0 k0 l0 c k' l.
