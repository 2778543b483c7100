(** Properties C76, C77, C96, C97. Theorem statements only; the proofs are in [MessagingThms]. *)
From Coq Require Import String.
From Coq Require Import NArith ZArith QArith Bool List.
From Verif Require Import Base Tables Matter Indexer Counter Prims Json Common Sadder Messaging Spec SpecPrims SpecJson SpecCommon SpecSaider SpecSadder SpecMessaging MessagingThms BaseFacts.
Import ListNotations.
Open Scope N_scope.

(** A message with attached signatures, of a controller or of witnesses, is the bytes of the event followed by one group for each list given; reading it gives the event
   (if it was read from bytes), and for each group its code, the exact number of signatures and the signatures in order: same code, material and index, and same other
   index where the code has room for it. Lists are shorter than 2^32. Full statement: same other index always, and lists of any length; see C76_other_index_refuted and
   C76_count_refuted. *)
Theorem C76_attachments_partial :
  forall (s : sadder) (sigers wigers : option (list (indexer * matter))) (cigars : option (list (matter * matter))) (t : bytes),
  (forall code l, In (code, l) (given (s! "-A") sigers ++ given (s! "-B") wigers) -> Forall made l /\ len l < 2 ^ 32) ->
  messagize s sigers None wigers cigars = Ok t ->
  exists a gs, t = d_raw s ++ a /\ groups gs a /\ same_groups (given (s! "-A") sigers ++ given (s! "-B") wigers) gs /\
    (forall new canon code raw kind ked sad, In new constructors -> new canon code (Some raw) kind ked sad = Ok s -> new canon code (Some t) None None None = Ok s).
Proof. exact C76_l. Qed.
Print Assumptions C76_attachments_partial.

Example C76_case : exists p q s t, siger_new None (Some 3) (Some 4) (Some (s! "2A")) (Some (repeat x07 64)) None None None = Ok p /\
  siger_new None (Some 1) None (Some (s! "B")) (Some (repeat x09 64)) None None None = Ok q /\
  serder_new (fun _ => None) None (Some (s! "{""v"":""KERI10JSON00004c_"",""d"":""EAAAAAAAAAAAAAAAAAAAAAAAAAAAAAAAAAAAAAAAAAAA""}")) None None None = Ok s /\
  messagize s (Some [p; p]) None (Some [q]) None = Ok t /\ len t = 76 + 4 + 2 * 92 + 4 + 88.
Proof.
  eexists. eexists. eexists. eexists. split; [vm_compute; reflexivity|]. split; [vm_compute; reflexivity|]. split; [vm_compute; reflexivity|].
  split; [vm_compute; reflexivity|]. vm_compute. reflexivity.
Qed.

(** A message without seal is made exactly if the event is text, at least one list is given, no list of indexed signatures is longer than 4095, and each signature can be
   printed; in the other cases the call fails with an error. *)
Theorem C76_messages_accepted :
  forall (s : sadder) (sigers wigers : option (list (indexer * matter))) (cigars : option (list (matter * matter))),
  (forall code l, In (code, l) (given (s! "-A") sigers ++ given (s! "-B") wigers) -> Forall made l /\ len l < 2 ^ 32) ->
  ((exists t, messagize s sigers None wigers cigars = Ok t) <->
   utf8 (d_raw s) = true /\ ~ (sigers = None /\ wigers = None /\ cigars = None) /\
   forall code l, In (code, l) (given (s! "-A") sigers ++ given (s! "-B") wigers) -> len l <= 4095 /\ Forall printable l) /\
  messagize s sigers None wigers cigars <> Panic.
Proof. exact C76_accepted_l. Qed.
Print Assumptions C76_messages_accepted.

Example C76_accepted_case : exists p, siger_new None (Some 3) (Some 4) (Some (s! "2A")) (Some (repeat x07 64)) None None None = Ok p /\ printable p.
Proof. eexists. split; [vm_compute; reflexivity|]. eexists. vm_compute. reflexivity. Qed.

(** False as stated: of a signature whose code has no room for the other index, that index is lost without an error. *)
Theorem C76_other_index_refuted :
  exists p s t r y, siger_new None (Some 3) (Some 5) (Some (s! "A")) (Some (repeat x07 64)) None None None = Ok p /\ i_ondex (fst p) = 5 /\
  messagize s (Some [p]) None None None = Ok t /\ read_group (drop (len (d_raw s)) t) = Some (s! "-A", [y], r) /\ i_ondex y = 3.
Proof. exact C76_no_l. Qed.
Print Assumptions C76_other_index_refuted.

(** False as stated: the count is taken modulo 2^32, so that a list of 2^32 signatures is announced as empty. *)
Theorem C76_count_refuted :
  exists s l t r, Forall made l /\ len l = 2 ^ 32 /\ messagize s (Some l) None None None = Ok t /\ read_group (drop (len (d_raw s)) t) = Some (s! "-A", [], r) /\ r <> [].
Proof. exact C76_count_l. Qed.
Print Assumptions C76_count_refuted.

(** With a seal and signatures of the controller, the event is followed by a counter announcing one group, the identifier of the seal, its sequence number and digest
   (unless the seal was made for the last event, which it is not when nothing is said about it), and then the signatures. If identifier and digest are texts of primitives, the whole is read back. The sequence number is the
   number written in hexadecimal in the seal. Full statement: any seal is in the message; see C96_seal_refuted. *)
Theorem C96_seal_partial :
  forall (s : sadder) (sigers : list (indexer * matter)) (i sn d : bytes) (last : option bool) (wigers : option (list (indexer * matter))) (cigars : option (list (matter * matter))) (t : bytes) (pi pd : matter),
  (forall code l, In (code, l) (given (s! "-A") (Some sigers) ++ given (s! "-B") wigers) -> Forall made l /\ len l < 2 ^ 32) ->
  messagize s (Some sigers) (Some (seal_new i sn d last)) wigers cigars = Ok t ->
  utf8 i = true -> exfil i = Ok pi -> utf8 d = true -> exfil d = Ok pd ->
  exists h a b gs, t = d_raw s ++ h ++ i ++ a ++ b /\ len h = 4 /\ exfil (i ++ a ++ b) = Ok pi /\ groups gs b /\
    same_groups (given (s! "-A") (Some sigers) ++ given (s! "-B") wigers) gs /\
    (last = Some true -> cexfil (h ++ i ++ a ++ b) = Ok (Ct (s! "-H") 1) /\ a = []) /\
    (last = Some false \/ last = None -> cexfil (h ++ i ++ a ++ b) = Ok (Ct (s! "-F") 1) /\
      exists q m n, a = q ++ d /\ exfil (q ++ d ++ b) = Ok m /\ infil m = Ok q /\ m_code m = s! "0A" /\ seqner_sn m = Ok n /\ hex_reading sn n /\
        exfil (d ++ b) = Ok pd).
Proof. exact C96_l. Qed.
Print Assumptions C96_seal_partial.

Example C96_case : exists p t, siger_new None (Some 1) None (Some (s! "B")) (Some (repeat x09 64)) None None None = Ok p /\
  messagize (Sd [] [] VNull [] [] 0 current_version (Mt [] 0 [])) (Some [p]) (Some (seal_new (s! "MAAB") (s! "1f") (s! "MAAC") None)) None None = Ok t /\
  take 36 t = s! "-FABMAAB0AAAAAAAAAAAAAAAAAAAAAAfMAAC".
Proof. eexists. eexists. split; [vm_compute; reflexivity|]. split; [vm_compute; reflexivity|]. vm_compute. reflexivity. Qed.

(** False as stated: without signatures of the controller, the seal is dropped. *)
Theorem C96_seal_refuted :
  forall (s : sadder) (z : seal) (wigers : option (list (indexer * matter))) (cigars : option (list (matter * matter))),
  messagize s None (Some z) wigers cigars = messagize s None None wigers cigars /\ exists p t, made p /\ messagize (Sd [] [] VNull [] [] 0 current_version (Mt [] 0 [])) None (Some z) (Some [p]) None = Ok t.
Proof. exact C96_no_l. Qed.
Print Assumptions C96_seal_refuted.

(** False as stated: signatures that are not indexed are dropped without an error; given alone, the message is the bare event. *)
Theorem C77_attached_refuted :
  forall (s : sadder) (sigers wigers : option (list (indexer * matter))) (seal : option seal) (cigars : list (matter * matter)),
  messagize s sigers seal wigers (Some cigars) = messagize s sigers seal wigers (Some []) /\ (utf8 (d_raw s) = true -> messagize s None seal None (Some cigars) = Ok (d_raw s)) /\
  exists c, cigar_new None (Some (s! "0B")) (Some (repeat x09 64)) None None None = Ok c.
Proof. exact C77_no_l. Qed.
Print Assumptions C77_attached_refuted.

(** The text of every indexed signature passed is in the message after the event, or the call fails. Full statement: of the others, too; see C77_attached_refuted. *)
Theorem C77_attached_partial :
  forall (s : sadder) (sigers wigers : option (list (indexer * matter))) (seal : option seal) (cigars : option (list (matter * matter))) (t : bytes) (p : indexer * matter),
  messagize s sigers seal wigers cigars = Ok t -> (exists l, (sigers = Some l \/ wigers = Some l) /\ In p l) ->
  exists u a b, iinfil (fst p) = Ok u /\ t = d_raw s ++ a ++ u ++ b.
Proof. exact C77_l. Qed.
Print Assumptions C77_attached_partial.

Example C77_case : exists p q t, siger_new None (Some 1) None (Some (s! "B")) (Some (repeat x09 64)) None None None = Ok p /\ siger_new None (Some 2) None (Some (s! "A")) (Some (repeat x08 64)) None None None = Ok q /\
  messagize (Sd [] [] VNull [] [] 0 current_version (Mt [] 0 [])) (Some [q; p]) None (Some [p]) None = Ok t /\ In q ([q; p] ++ [p]).
Proof. eexists. eexists. eexists. split; [vm_compute; reflexivity|]. split; [vm_compute; reflexivity|]. split; [vm_compute; reflexivity|]. now left. Qed.

(** A receipt is made exactly if the version (if given) is 1.0, the kind JSON, the text begins with a digest of the default code and the text of the receipt is below 2^24
   bytes. Its data are then exactly those given with the sequence number in hexadecimal, its accessors give them back, and so does reading its bytes, whatever follows.
   It panics exactly if, the rest being right, the digest text does when parsed. *)
Theorem C97_receipt :
  forall (canon : bytes -> option bytes) (pre : bytes) (sn : N) (said : bytes) (ver : option version) (kind : option bytes),
  utf8 pre = true -> utf8 said = true -> sn < 2 ^ 128 -> (forall v, ver = Some v -> v_major v <= 255 /\ v_minor v <= 255) ->
  exists h, lower_hex h /\ hex_number h = sn /\
  (len (to_json (receipt_of (s! "KERI10JSON000000_") said pre h)) < 2 ^ 32 ->
   let fits := (ver = None \/ ver = Some (Ver 1 0)) /\ (kind = None \/ kind = Some (s! "JSON")) /\ len (to_json (receipt_of (s! "KERI10JSON000000_") said pre h)) < 2 ^ 24 in
   ((exists s, receipt canon pre sn said ver kind = Ok s) <-> fits /\ exists d, exfil said = Ok d /\ m_code d = s! "E") /\
   (receipt canon pre sn said ver kind = Panic <-> fits /\ exfil said = Panic) /\
   (forall s, receipt canon pre sn said ver kind = Ok s ->
     (exists vs, d_ked s = receipt_of vs said pre h /\ version_string vs (s! "KERI") 1 0 (len (d_raw s))) /\ d_raw s = to_json (d_ked s) /\
     serder_sn s = Ok sn /\ serder_pre s = Ok pre /\ serder_est s = Ok false /\ exfil said = Ok (d_saider s) /\
     forall c, utf8 c = true -> serder_new canon None (Some (d_raw s ++ c)) None None None = Ok s)).
Proof. exact C97_l. Qed.
Print Assumptions C97_receipt.

Example C97_case : exists s, receipt (fun _ => None) (s! "BAAA") 31 (s! "EAAAAAAAAAAAAAAAAAAAAAAAAAAAAAAAAAAAAAAAAAAA") None None = Ok s /\
  d_raw s = s! "{""v"":""KERI10JSON00006a_"",""t"":""rct"",""d"":""EAAAAAAAAAAAAAAAAAAAAAAAAAAAAAAAAAAAAAAAAAAA"",""i"":""BAAA"",""s"":""1f""}".
Proof. eexists. split; [vm_compute; reflexivity|]. vm_compute. reflexivity. Qed.
