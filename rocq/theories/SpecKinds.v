(** Vocabulary of the statements about the kinds of primitives and about constructors given several encodings at once. *)
From Coq Require Import String.
From Coq Require Import NArith List Bool.
From Verif Require Import Base Spec SpecPrims SpecSaider SpecPrefixer SpecSigner.
Import ListNotations.
Open Scope N_scope.

(** The codes of each kind of primitive. *)
Definition keys : list bytes := fixed_keys ++ rotatable_keys.
Definition seeds : list bytes := map fst seed_table.
Definition digests : list bytes := map fst digest_sizes.
Definition signatures : list bytes := [s! "0B"; s! "0C"; s! "0I"].
Definition indexed_signatures : list bytes :=
  [s! "A"; s! "B"; s! "C"; s! "D"; s! "E"; s! "F"; s! "2A"; s! "2B"; s! "2C"; s! "2D"; s! "2E"; s! "2F"].
Definition numbers : list bytes := map fst number_sizes.
Definition salts : list bytes := [s! "0A"].
Definition sequence_numbers : list bytes := [s! "0A"].
Definition date_times : list bytes := [s! "1AAG"].
Definition base64_texts : list bytes := [s! "4A"; s! "5A"; s! "6A"; s! "7AAA"; s! "8AAA"; s! "9AAA"].
Definition prefixes : list bytes := keys ++ digests.

(** One encoding of a primitive. *)
Inductive encoding := AsRaw (b : bytes) | AsTextBytes (b : bytes) | AsText (b : bytes) | AsBinary (b : bytes).
(** The first of those given. *)
Definition first (raw qb64b qb64 qb2 : option bytes) : option encoding :=
  match raw, qb64b, qb64, qb2 with
  | Some b, _, _, _ => Some (AsRaw b)
  | None, Some b, _, _ => Some (AsTextBytes b)
  | None, None, Some b, _ => Some (AsText b)
  | None, None, None, Some b => Some (AsBinary b)
  | None, None, None, None => None
  end.
(** A constructor called with only one encoding. *)
Definition with_only {A} (new : option bytes -> option bytes -> option bytes -> option bytes -> A) (e : encoding) : A :=
  match e with
  | AsRaw b => new (Some b) None None None
  | AsTextBytes b => new None (Some b) None None
  | AsText b => new None None (Some b) None
  | AsBinary b => new None None None (Some b)
  end.
(** What a constructor gives is what it gives for the first encoding alone. *)
Definition by_first {A} (new : option bytes -> option bytes -> option bytes -> option bytes -> A) : Prop :=
  forall raw qb64b qb64 qb2 e, first raw qb64b qb64 qb2 = Some e -> new raw qb64b qb64 qb2 = with_only new e.
