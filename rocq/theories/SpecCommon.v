(** Vocabulary of the statements about version strings, sizing and events. *)
From Coq Require Import String.
From Coq Require Import NArith ZArith List Bool.
From Verif Require Import Base Json SpecPrims.
Import ListNotations.
Open Scope N_scope.

Definition hex_digits (n : N) (h : bytes) : Prop := len h = n /\ forall c, In c h -> In c hex_alphabet.

(** [vs] is the version string of protocol [proto], version [major].[minor] and size [size]: protocol, one lower-case hexadecimal digit each for the
    version numbers, JSON, six digits of size, underscore. *)
Definition version_string (vs proto : bytes) (major minor size : N) : Prop :=
  (proto = s! "KERI" \/ proto = s! "ACDC") /\
  exists a b h, vs = proto ++ a ++ b ++ s! "JSON" ++ h ++ s! "_" /\ hex_digits 1 a /\ hex_digits 1 b /\ hex_digits 6 h /\
    hex_number a = major /\ hex_number b = minor /\ hex_number h = size.

(** Seventeen characters that look like some version string, of whatever protocol and kind. *)
Definition uppercase (n : N) (t : bytes) : Prop := len t = n /\ forall c, In c t -> In c (s! "ABCDEFGHIJKLMNOPQRSTUVWXYZ").
Definition version_like (t : bytes) : Prop :=
  exists p v k h, t = p ++ v ++ k ++ h ++ s! "_" /\ uppercase 4 p /\ hex_digits 2 v /\ uppercase 4 k /\ hex_digits 6 h.
(** Nothing in [t] looks like a version string. *)
Definition no_version_in (t : bytes) : Prop := forall p m s, t = p ++ m ++ s -> ~ version_like m.
