(** Vocabulary of the statements on which key and registry events are accepted. *)
From Coq Require Import String.
From Coq Require Import NArith ZArith List Bool.
From Verif Require Import Base Matter Indexer Prims Json Tholder Saider Signer Prefixer Sadder Pather Short Verify SpecPrims SpecTholder SpecSadder SpecLog SpecCred SpecExtra SpecEndorse.
Import ListNotations.
Open Scope N_scope.

(** The key a signature names and the digest at its other index, if there is one, have texts. *)
Definition comparable (ks ds : list matter) (x : indexer) : Prop :=
  i_ondex x < len ds -> exists v d tv td, nth_error ks (N.to_nat (i_index x)) = Some v /\ nth_error ds (N.to_nat (i_ondex x)) = Some d /\ infil v = Ok tv /\ infil d = Ok td.
(** The signatures reveal enough of the keys that the last establishment event announced. *)
Definition honoured (canon : bytes -> option bytes) (hash : bytes -> bytes -> bytes) (st : store) (pre : bytes) (n : N) (ks : list matter) (good : list indexer) : Prop :=
  exists e' ds nt shown, announcing canon st pre n e' /\ serder_digers e' = Ok ds /\ serder_ntholder canon e' = Ok (Some nt) /\ Forall (comparable ks ds) good /\
    those (reveals hash ks ds) good shown /\ satisfy nt (map i_ondex shown) = Ok true.
(** A key event of this prefix, number and identifier is in order: it has the fields of its type; only indexed signatures are attached, all can be checked, and the good ones are enough for the
    threshold in force; an inception has number 0 and its prefix, which is right, as identifier; any other event has a right identifier and names the event with the number before, and a rotation reveals the announced keys. *)
Definition proper (canon : bytes -> option bytes) (hash : bytes -> bytes -> bytes) (cr : crypto) (st : store) (e : sadder) (g : list group) (pre : bytes) (n : N) (said : bytes) : Prop :=
  exists ilk labels prefixer ks t sigs good, field_of (d_ked e) (s! "i") (VStr pre) /\ prefixer_with_qb64 hash pre = Ok prefixer /\ ordinal (d_ked e) n /\ sad_said e = Ok said /\
    of_type (d_ked e) ilk /\ In (ilk, labels) required /\ Forall (has_field (d_ked e)) labels /\
    governing canon st pre n e ks t /\ attached g sigs /\ Forall (answered cr ks (d_raw e)) sigs /\ those (verifies cr ks (d_raw e)) sigs good /\ satisfy t (map i_index good) = Ok true /\
    (ilk = s! "icp" -> n = 0 /\ said = pre /\ prefixer_verify hash prefixer (d_ked e) (Some true) = Ok true) /\
    (ilk <> s! "icp" -> 1 <= asked_for n /\ said_verify hash (d_saider e) (d_ked e) (Some false) (Some true) None None [] = Ok true /\
      exists before p, logged canon st pre (asked_for n - 1) before p /\ field_of (d_ked e) (s! "p") (VStr p)) /\
    (ilk = s! "rot" -> honoured canon hash st pre n ks good).
(** The same of a registry event: its fields, one couple that names a key event of the registry's owner that holds one seal, for this event; a right prefix or identifier; number 0, but for a revocation, which
    names the event with the number before. *)
Definition anchored_well (canon : bytes -> option bytes) (hash : bytes -> bytes -> bytes) (st : store) (e : sadder) (c : list (matter * matter)) (pre : bytes) (n : N) (said : bytes) : Prop :=
  exists ilk labels prefixer number seqner saider owner k t anchor, c = [(seqner, saider)] /\ field_of (d_ked e) (s! "i") (VStr pre) /\ prefixer_with_qb64 hash pre = Ok prefixer /\
    ordinal (d_ked e) n /\ field_of (d_ked e) (s! "s") (VStr number) /\ sad_said e = Ok said /\ of_type (d_ked e) ilk /\ In (ilk, labels) registry_required /\ Forall (has_field (d_ked e)) labels /\
    owned canon st e owner /\ seqner_sn seqner = Ok k /\ infil saider = Ok t /\ logged canon st owner (asked_for k) anchor t /\ sealed (d_ked anchor) pre number said /\
    (ilk = s! "vcp" -> prefixer_verify hash prefixer (d_ked e) (Some true) = Ok true) /\
    (ilk <> s! "vcp" -> said_verify hash (d_saider e) (d_ked e) (Some false) (Some true) None None [] = Ok true) /\
    (ilk <> s! "rev" -> n = 0) /\
    (ilk = s! "rev" -> 1 <= asked_for n /\ exists before p, recorded canon st pre (asked_for n - 1) before /\ sad_said before = Ok p /\ field_of (d_ked e) (s! "p") (VStr p)).

(** A text that can be read as a primitive or rejected, and the primitive printed. *)
Definition clean (t : bytes) : Prop := exfil t <> Panic /\ forall m, exfil t = Ok m -> exists q, infil m = Ok q.
(** All texts in an array under a label are clean. *)
Definition clean_list (v : value) (label : bytes) : Prop := forall l t, field_of v label (VArr l) -> In (VStr t) l -> clean t.
(** A key event with prefix, number and type, whose primitives are clean and whose thresholds, if they are ones, have a small weight for each key. *)
Definition harmless (canon : bytes -> option bytes) (e : sadder) : Prop :=
  (forall label, In label [s! "i"; s! "s"; s! "t"] -> ~ lacks (d_ked e) label) /\
  (forall label t, In label [s! "i"; s! "d"] -> field_of (d_ked e) label (VStr t) -> clean t) /\ clean_list (d_ked e) (s! "k") /\ clean_list (d_ked e) (s! "n") /\
  (serder_tholder canon e <> Panic /\ forall t ks, serder_tholder canon e = Ok (Some t) -> serder_verfers e = Ok ks -> steady t (len ks)) /\
  (serder_ntholder canon e <> Panic /\ forall t ds, serder_ntholder canon e = Ok (Some t) -> serder_digers e = Ok ds -> steady t (len ds)).
(** A log of such events, fewer than 2^32 of them, from a store that answers. *)
Definition sound_log (canon : bytes -> option bytes) (st : store) (pre : bytes) : Prop :=
  count_key_events st pre <> Panic /\ (forall c, count_key_events st pre = Ok c -> c < 2 ^ 32) /\
  forall n, get_key_event st pre n <> Panic /\ get_latest_establishment_event_as_of_sn st pre n <> Panic /\
    forall text, get_key_event st pre n = Ok text \/ get_latest_establishment_event_as_of_sn st pre n = Ok text ->
      serder_with_raw canon text <> Panic /\ forall e, serder_with_raw canon text = Ok e -> harmless canon e.
