(** Property C174: endorsements of key events and what can be read back from them. Theorem statements only; the proofs are in [ReadbackThms]. *)
From Coq Require Import String.
From Coq Require Import NArith ZArith QArith Bool List.
From Verif Require Import Base BaseFacts Tables Matter Indexer Counter Prims Json Common Saider Sadder Messaging Events SpecPrims SpecJson SpecSaider SpecSadder Spec SpecMessaging SadderFacts SadderThms Short ReadbackThms.
Import ListNotations.
Open Scope N_scope.

(** Without unindexed signatures and without a seal (see C174_seals_read_back for seals), an endorsement is one group for each list given, and reading it gives the codes, the exact numbers of signatures and the signatures in
   order. In the pipelined form the event is followed by a counter that says exactly how many groups of four characters follow, and then by the endorsement; the event is read from it as
   before. Lists are shorter than 2^32 and endorsements than 2^34 characters. Full statement: also unindexed signatures with their keys; see C174_whose_signatures_refuted. *)
Theorem C174_endorsements_read_back_partial :
  forall (s : sadder) (sigers wigers : option (list (indexer * matter))) (en : bytes),
  (forall code l, In (code, l) (given (s! "-A") sigers ++ given (s! "-B") wigers) -> Forall made l /\ len l < 2 ^ 32) ->
  endorse_serder sigers None wigers None = Ok en ->
  (exists gs, groups gs en /\ same_groups (given (s! "-A") sigers ++ given (s! "-B") wigers) gs) /\
  (forall t, messagize_serder s en (Some false) = Ok t -> t = d_raw s ++ en) /\
  (forall t, len en < 2 ^ 34 -> messagize_serder s en (Some true) = Ok t ->
    exists h n, t = d_raw s ++ h ++ en /\ len h = 4 /\ cexfil (h ++ en) = Ok (Ct (s! "-V") n) /\ len en = 4 * n) /\
  (forall p t, messagize_serder s en p = Ok t ->
    forall new canon code raw kind ked sad, In new constructors -> new canon code (Some raw) kind ked sad = Ok s -> new canon code (Some t) None None None = Ok s).
Proof. exact C174_l. Qed.
Print Assumptions C174_endorsements_read_back_partial.

Example C174_case : exists p q s en t, siger_new None (Some 3) (Some 4) (Some (s! "2A")) (Some (repeat x07 64)) None None None = Ok p /\
  siger_new (Some (Mt (s! "B") 0 (repeat x05 32))) (Some 1) None (Some (s! "B")) (Some (repeat x09 64)) None None None = Ok q /\
  serder_new (fun _ => None) None (Some (s! "{""v"":""KERI10JSON00004c_"",""d"":""EAAAAAAAAAAAAAAAAAAAAAAAAAAAAAAAAAAAAAAAAAAA""}")) None None None = Ok s /\
  endorse_serder (Some [p; p]) None (Some [q]) None = Ok en /\ messagize_serder s en (Some true) = Ok t /\ len t = 76 + 4 + 4 + 2 * 92 + 4 + 88.
Proof.
  eexists. eexists. eexists. eexists. eexists. split; [vm_compute; reflexivity|]. split; [vm_compute; reflexivity|]. split; [vm_compute; reflexivity|].
  split; [vm_compute; reflexivity|]. split; [vm_compute; reflexivity|]. vm_compute. reflexivity.
Qed.

(** With a seal and signatures of the controller the endorsement begins with a counter announcing one group and the identifier of the seal, and, unless the seal stands for the last event, with
   the number written in hexadecimal in the seal and its digest; then come the signatures as before. If the identifier and the digest are texts of primitives, all of it is read back. *)
Theorem C174_seals_read_back :
  forall (sigers : list (indexer * matter)) (wigers : option (list (indexer * matter))) (v : value) (last : bool) (i sn d en : bytes) (pi pd : matter),
  (forall code l, In (code, l) (given (s! "-A") (Some sigers) ++ given (s! "-B") wigers) -> Forall made l /\ len l < 2 ^ 32) ->
  endorse_serder (Some sigers) (Some (v, last)) wigers None = Ok en ->
  field_of v (s! "i") (VStr i) -> utf8 i = true -> exfil i = Ok pi -> (last = false -> field_of v (s! "s") (VStr sn) /\ field_of v (s! "d") (VStr d) /\ utf8 d = true /\ exfil d = Ok pd) ->
  exists h a b gs, en = h ++ i ++ a ++ b /\ len h = 4 /\ exfil (i ++ a ++ b) = Ok pi /\ groups gs b /\
    same_groups (given (s! "-A") (Some sigers) ++ given (s! "-B") wigers) gs /\
    (last = true -> cexfil (h ++ i ++ a ++ b) = Ok (Ct (s! "-H") 1) /\ a = []) /\
    (last = false -> cexfil (h ++ i ++ a ++ b) = Ok (Ct (s! "-F") 1) /\
      exists q m n, a = q ++ d /\ exfil (q ++ d ++ b) = Ok m /\ infil m = Ok q /\ m_code m = s! "0A" /\ seqner_sn m = Ok n /\ hex_reading sn n /\ exfil (d ++ b) = Ok pd).
Proof. exact C174_seals_l. Qed.
Print Assumptions C174_seals_read_back.

Example C174_seals_case : exists p en, siger_new None (Some 1) None (Some (s! "B")) (Some (repeat x09 64)) None None None = Ok p /\
  endorse_serder (Some [p]) (Some (VObj [(s! "i", VStr (s! "MAAB")); (s! "s", VStr (s! "1f")); (s! "d", VStr (s! "MAAC"))], false)) None None = Ok en /\ take 36 en = s! "-FABMAAB0AAAAAAAAAAAAAAAAAAAAAAfMAAC".
Proof. eexists. eexists. split; [vm_compute; reflexivity|]. split; [vm_compute; reflexivity|]. vm_compute. reflexivity. Qed.

(** The full statement is false of unindexed signatures: the group that announces pairs of a key and a signature holds the signatures only, so the endorsement is the same whoever signed.
   Endorsements for any two lists with the same signatures, and with keys that are not transferable, are one and the same text; and there are such lists for which it is made. *)
Theorem C174_whose_signatures_refuted :
  (forall (sigers wigers : option (list (indexer * matter))) (seal : option (value * bool)) (some other : list (matter * matter)),
    map fst some = map fst other -> Forall (fun p => transferable (snd p) = false) (some ++ other) ->
    endorse_serder sigers seal wigers (Some some) = endorse_serder sigers seal wigers (Some other)) /\
  exists x v w en, v <> w /\ endorse_serder None None None (Some [(x, v)]) = Ok en /\ endorse_serder None None None (Some [(x, w)]) = Ok en.
Proof. exact C174_no_l. Qed.
Print Assumptions C174_whose_signatures_refuted.

Example C174_whose_case : exists t, endorse_serder None None None (Some [(Mt (s! "0B") 0 (repeat x07 64), Mt (s! "B") 0 (repeat x05 32))]) = Ok t /\ t = s! "-CAB" ++ drop 4 t /\ len t = 4 + 88.
Proof. eexists. split; [vm_compute; reflexivity|]. split; vm_compute; reflexivity. Qed.

(** Without a seal an endorsement is made exactly if at least one list is given, none is longer than 4095, every signature can be printed, and no key of a witness or of an unindexed
   signature is transferable. *)
Theorem C174_endorsed_exactly :
  forall (sigers wigers : option (list (indexer * matter))) (cigars : option (list (matter * matter))),
  (forall l, sigers = Some l \/ wigers = Some l -> Forall made l /\ len l < 2 ^ 32) -> (forall l, cigars = Some l -> len l < 2 ^ 32) ->
  (exists en, endorse_serder sigers None wigers cigars = Ok en) <->
  (sigers <> None \/ wigers <> None \/ cigars <> None) /\
  (forall l, sigers = Some l \/ wigers = Some l -> len l <= 4095 /\ Forall printable l) /\
  (forall l, wigers = Some l -> Forall (fun p => transferable (snd p) = false) l) /\
  (forall l, cigars = Some l -> len l <= 4095 /\ Forall (fun p => transferable (snd p) = false /\ exists t, infil (fst p) = Ok t) l).
Proof. exact C174_exactly_l. Qed.
Print Assumptions C174_endorsed_exactly.

Example C174_exactly_case : exists x v t, siger_new (Some (Mt (s! "D") 0 (repeat x05 32))) (Some 1) None (Some (s! "B")) (Some (repeat x09 64)) None None None = Ok (x, v) /\ transferable v = true /\
  endorse_serder (Some [(x, v)]) None None None = Ok t /\ endorse_serder None None (Some [(x, v)]) None = Err EEncoding.
Proof. eexists. eexists. eexists. split; [vm_compute; reflexivity|]. split; [vm_compute; reflexivity|]. split; [vm_compute; reflexivity|]. vm_compute. reflexivity. Qed.

(** The pipelined form is made exactly if the event is text and the endorsement has a whole number of groups of four characters, at most 4095; the counter it uses has two digits. So an
   event with 187 to 4095 signatures of 88 characters has an endorsement but no pipelined message, and the event-building functions of the sample, which always pipeline, fail on it. *)
Theorem C174_pipelined_exactly :
  forall (s : sadder) (en : bytes),
  len en < 2 ^ 34 ->
  ((exists t, messagize_serder s en (Some true) = Ok t) <-> utf8 (d_raw s) = true /\ len en mod 4 = 0 /\ len en / 4 <= 4095) /\
  ((exists t, messagize_serder s en (Some false) = Ok t) <-> utf8 (d_raw s) = true) /\
  forall p, messagize_serder s en p <> Panic.
Proof. exact C174_pipelined_l. Qed.
Print Assumptions C174_pipelined_exactly.

Example C174_pipelined_case : exists p en, siger_new None (Some 3) None (Some (s! "A")) (Some (repeat x07 64)) None None None = Ok p /\ endorse_serder (Some (repeat p 187)) None None None = Ok en /\
  len en = 4 + 187 * 88 /\ len en mod 4 = 0 /\ 4095 < len en / 4.
Proof. eexists. eexists. split; [vm_compute; reflexivity|]. split; [vm_compute; reflexivity|]. split; vm_compute; auto. Qed.
