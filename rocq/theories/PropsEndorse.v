(** Properties C161 to C164: attachments and edges of credentials. Theorem statements only; the proofs are in [EndorseThms]. *)
From Coq Require Import String.
From Coq Require Import NArith ZArith QArith Bool List Lia.
From Verif Require Import Base Tables Matter Indexer Prims Json Tholder Common Saider Diger Sadder Signer Prefixer Pather Short Verify Ingest Events SpecPrims SpecTholder SpecSaider SpecSadder SpecSigner SpecLog SpecIngest SpecCred SpecExtra SpecEndorse World Forgery Chain SadderFacts VerifyThms CredThms EndorseThms.
Import ListNotations.
Open Scope N_scope.

(** No key is needed to bring the verification of a credential down. Take any accepted credential, in any store, at any depth. There are groups of signatures on the whole of it, each of which names a key event.
   Attach one more group that names the same event with one signature, whose index is the number of the event's keys: verification panics. The rest of the signature does not matter. *)
Theorem C161_credential_verification_answers_refuted :
  forall (canon : bytes -> option bytes) (hash : bytes -> bytes -> bytes) (cr : crypto) (messages_of : bytes -> R (list message)) (schema_check : bytes -> bytes -> R bool) (age : bytes -> R Z)
    (fuel : nat) (st : store) (e : sadder) (g : list group) (deep : option bool) (seen : list bytes) (r : bool * list bytes),
  verify_acdc canon hash cr messages_of schema_check age fuel st e g deep seen = Ok r ->
  (exists p, about_all g p) /\
  (forall p, about_all g p -> exists x ks t, refers canon st p x ks t) /\
  forall p x ks t p' s, about_all g p -> refers canon st p x ks t -> alike p p' -> bext_of (sp_pather p') = Ok (s! "-") -> sp_sigers p' = [s] -> i_index s = len ks ->
    verify_acdc canon hash cr messages_of schema_check age fuel st e (g ++ [GPaths [p']]) deep seen = Panic.
Proof. exact C161_refuted_l. Qed.
Print Assumptions C161_credential_verification_answers_refuted.

Example C161_case : verify_acdc no_floats mix toy runic accepts_all young 9 (view no_floats issued) cred0 [GPaths [csigs0]] (Some false) [] = Ok (true, []) /\ about_all [GPaths [csigs0]] csigs0 /\
  (exists ks t, refers no_floats (view no_floats issued) csigs0 event0 ks t /\ len ks = 2) /\ bext_of (sp_pather (lone (Ix (s! "A") [] 2 2))) = Ok (s! "-") /\
  verify_acdc no_floats mix toy runic accepts_all young 9 (view no_floats issued) cred0 [GPaths [csigs0]; GPaths [lone (Ix (s! "A") [] 2 2)]] (Some false) [] = Panic /\
  verify_acdc no_floats mix toy runic accepts_all young 9 (view no_floats issued) cred0 [GPaths [csigs0]; GPaths [lone (Ix (s! "A") [] 3 3)]] (Some false) [] = Err EVerification.
Proof.
  split; [exact issued_accepted|]. split; [exact issued_about|]. split; [destruct issued_refers as (ks & t & A & B & _); eauto|]. split; [vm_compute; reflexivity|]. split; vm_compute; reflexivity.
Qed.

(** Otherwise attachments cannot do it. Take a credential accepted with some attachments, and attach instead any groups whatsoever in which the paths have texts and each group of signatures on the whole credential names a
   stored key event, without a signature that has the number of its keys as its index: verification answers or reports an error. Weighted thresholds must have a weight with a small denominator for each key.
   Missing for the full statement: that index; thresholds with other weights; groups that name no stored event (an error in the store assumed in other properties); verification at depth; credentials that no attachments make acceptable. *)
Theorem C161_credential_verification_answers_partial :
  forall (canon : bytes -> option bytes) (hash : bytes -> bytes -> bytes) (cr : crypto) (messages_of : bytes -> R (list message)) (schema_check : bytes -> bytes -> R bool) (age : bytes -> R Z)
    (fuel : nat) (st : store) (e : sadder) (g g' : list group) (seen : list bytes) (r : bool * list bytes),
  verify_acdc canon hash cr messages_of schema_check age fuel st e g (Some false) seen = Ok r ->
  (forall l p, In (GPaths l) g' -> In p l -> exists path, bext_of (sp_pather p) = Ok path) ->
  (forall p, about_all g' p -> exists x ks t, refers canon st p x ks t /\ steady t (len ks) /\ forall s, In s (sp_sigers p) -> i_index s <> len ks) ->
  verify_acdc canon hash cr messages_of schema_check age fuel st e g' (Some false) seen <> Panic.
Proof. exact C161_partial_l. Qed.
Print Assumptions C161_credential_verification_answers_partial.

Example C161_answers_case : verify_acdc no_floats mix toy runic accepts_all young 9 (view no_floats issued) cred0 [GPaths [csigs0]] (Some false) [] = Ok (true, []) /\
  (exists ks t, refers no_floats (view no_floats issued) csigs0 event0 ks t /\ len ks = 2 /\ steady t (len ks)) /\
  verify_acdc no_floats mix toy runic accepts_all young 9 (view no_floats issued) cred0 [GPaths [lone (Ix (s! "A") [] 1 1)]; GPaths [lone (Ix (s! "A") [] 7 7)]] (Some false) [] = Err EForeign.
Proof.
  split; [exact issued_accepted|]. split; [destruct issued_refers as (ks & t & A & B & C); exists ks, t; repeat split; auto; congruence|]. vm_compute. reflexivity.
Qed.

(** A further endorsement can make an accepted credential refused. Take any accepted credential, in any store, at any depth, and attach the signatures on the whole of it of someone whose key event the store does not have:
   verification reports the error with which the store answers, although all that was attached before still stands. *)
Theorem C162_further_endorsements_refuted :
  forall (canon : bytes -> option bytes) (hash : bytes -> bytes -> bytes) (cr : crypto) (messages_of : bytes -> R (list message)) (schema_check : bytes -> bytes -> R bool) (age : bytes -> R Z)
    (fuel : nat) (st : store) (e : sadder) (g : list group) (deep : option bool) (seen : list bytes) (r : bool * list bytes) (p : sad_path_sig) (pre : bytes) (n : N) (er : err),
  verify_acdc canon hash cr messages_of schema_check age fuel st e g deep seen = Ok r ->
  bext_of (sp_pather p) = Ok (s! "-") -> infil (sp_prefixer p) = Ok pre -> seqner_sn (sp_seqner p) = Ok n -> get_key_event st pre (asked_for n) = Err er ->
  verify_acdc canon hash cr messages_of schema_check age fuel st e (g ++ [GPaths [p]]) deep seen = Err er.
Proof. exact C162_refuted_l. Qed.
Print Assumptions C162_further_endorsements_refuted.

Example C162_case : verify_acdc no_floats mix toy runic accepts_all young 9 (view no_floats issued) cred0 [GPaths [csigs0]] (Some false) [] = Ok (true, []) /\
  get_key_event (view no_floats issued) pre_m (asked_for 0) = Err EForeign /\ infil (sp_prefixer csigs_m) = Ok pre_m /\ seqner_sn (sp_seqner csigs_m) = Ok 0 /\ bext_of (sp_pather csigs_m) = Ok (s! "-").
Proof. split; [exact issued_accepted|]. split; [vm_compute; reflexivity|]. split; [vm_compute; reflexivity|]. split; vm_compute; reflexivity. Qed.

(** Endorsements that are good do no harm, nor do signatures on parts of a credential. Attach to an accepted credential further groups of signatures on parts of it, such that each on the whole of it names a stored key event and
   has enough good signatures by its keys: verification gives the same answer. At depth the event must be one that a group attached before names. Missing for the full statement: groups that name events the store does not have, or
   have too few good signatures; other events at depth. *)
Theorem C162_further_endorsements_partial :
  forall (canon : bytes -> option bytes) (hash : bytes -> bytes -> bytes) (cr : crypto) (messages_of : bytes -> R (list message)) (schema_check : bytes -> bytes -> R bool) (age : bytes -> R Z)
    (fuel : nat) (st : store) (e : sadder) (g more : list group) (deep : option bool) (seen : list bytes) (r : bool * list bytes),
  verify_acdc canon hash cr messages_of schema_check age fuel st e g deep seen = Ok r ->
  Forall on_parts more -> (forall p, about_all more p -> endorsed canon cr st (d_raw e) p) ->
  deep = Some false \/ (forall p, about_all more p -> exists p', about_all g p' /\ alike p' p) ->
  verify_acdc canon hash cr messages_of schema_check age fuel st e (g ++ more) deep seen = Ok r.
Proof. exact C162_partial_l. Qed.
Print Assumptions C162_further_endorsements_partial.

Example C162_good_case : verify_acdc no_floats mix toy runic accepts_all young 9 (view no_floats issued) cred0 [GPaths [csigs0]] (Some false) [] = Ok (true, []) /\ on_parts (GPaths [csigs0]) /\
  endorsed no_floats toy (view no_floats issued) (d_raw cred0) csigs0.
Proof.
  split; [exact issued_accepted|]. split. { exists [csigs0]. split; auto. constructor; [|constructor]. eexists. vm_compute. reflexivity. }
  apply (endorses_accepted _ _ _ _ _ _ _ _ _ _ _ _ issued_accepted _ issued_about).
Qed.

(** Exactly which credentials are accepted, without depth: those for which all is due that C132 lists, whose edges are a section or an array of sections, and each of whose edges is in order: it leads to a credential in the
   store that the schema it names, if any, accepts; its operators are texts without NOT; at most one of them says who has to be whom, I2I or NI2I, and it is met. If the store has the credential already, under its identifier, this is reported. *)
Theorem C163_accepted_credentials_exactly :
  forall (canon : bytes -> option bytes) (hash : bytes -> bytes -> bytes) (cr : crypto) (messages_of : bytes -> R (list message)) (schema_check : bytes -> bytes -> R bool) (age : bytes -> R Z)
    (fuel : nat) (st : store) (e : sadder) (g : list group) (seen seen' : list bytes) (there : bool),
  verify_acdc canon hash cr messages_of schema_check age (S fuel) st e g (Some false) seen = Ok (there, seen') <->
  seen' = seen /\ exists said, due canon hash cr schema_check age st e g said /\ sectioned (d_ked e) /\ (forall node, edge (d_ked e) node -> in_order canon schema_check st e node) /\
    (there = true /\ (exists e', held canon st said e' /\ sad_said e' = Ok said) \/ there = false /\ exists er, get_acdc st said = Err er).
Proof. exact C163_l. Qed.
Print Assumptions C163_accepted_credentials_exactly.

Example C163_case : due no_floats mix toy accepts_all young (view no_floats chained) cred_b [GPaths [csigs_b]] csaid_b /\ edge (d_ked cred_b) edge_b /\ in_order no_floats accepts_all (view no_floats chained) cred_b edge_b.
Proof.
  assert (verify_acdc no_floats mix toy knotted accepts_all young 9 (view no_floats chained) cred_b [GPaths [csigs_b]] (Some false) [] = Ok (true, [])) as V by (vm_compute; reflexivity).
  assert (edge (d_ked cred_b) edge_b) as ED. { exists (s! "auth"), [(s! "d", VStr []); (s! "auth", edge_b)]. split; [right; now left|]. split; [discriminate|]. split; [discriminate|]. left. apply index_field. vm_compute. reflexivity. }
  apply exactly_accepted in V as (_ & said & D & _ & E & _). split; [|split; auto]. assert (sad_said cred_b = Ok csaid_b) as S by (vm_compute; reflexivity).
  destruct D as (a1 & a2 & a3 & a4 & a5 & a6 & a7 & a8 & D1 & D2 & D). assert (said = csaid_b) as -> by congruence. exists a1, a2, a3, a4, a5, a6, a7, a8. auto.
Qed.

(** An issuer can bring down whoever verifies a credential. Take any credential, in any store, for which all is due but whose edges are not in order: one of them leads nowhere, or has an operator that is no text, or asks for
   delegation, or asks for a holder where there is none. If the others are in order, verification panics. *)
Theorem C164_edges_answer_refuted :
  forall (canon : bytes -> option bytes) (hash : bytes -> bytes -> bytes) (cr : crypto) (messages_of : bytes -> R (list message)) (schema_check : bytes -> bytes -> R bool) (age : bytes -> R Z)
    (fuel : nat) (st : store) (e : sadder) (g : list group) (seen : list bytes) (said : bytes) (node : value),
  due canon hash cr schema_check age st e g said -> sectioned (d_ked e) -> edge (d_ked e) node -> hostile canon schema_check st node ->
  (forall node', edge (d_ked e) node' -> node' = node \/ in_order canon schema_check st e node') ->
  verify_acdc canon hash cr messages_of schema_check age (S fuel) st e g (Some false) seen = Panic.
Proof. exact C164_refuted_l. Qed.
Print Assumptions C164_edges_answer_refuted.

Example C164_case : let to (o : value) := VObj [(s! "x", VObj [(s! "n", VStr csaid0); (s! "o", o)])] in
  bite (to (VStr (s! "NI2I"))) = Ok (false, []) /\ bite trap = Panic /\ bite (to (VStr (s! "DI2I"))) = Panic /\ bite (to (VStr (s! "I2I"))) = Panic /\ bite (to (VArr [VNull])) = Panic.
Proof. cbv zeta. do 4 (split; [vm_compute; reflexivity|]). vm_compute. reflexivity. Qed.
Example C164_due_case : exists said, due no_floats mix toy accepts_all young (view no_floats trapped) cred_t [GPaths [csigs_t]] said /\ sectioned (d_ked cred_t) /\
  edge (d_ked cred_t) (VObj []) /\ hostile no_floats accepts_all (view no_floats trapped) (VObj []) /\ forall node, edge (d_ked cred_t) node -> node = VObj [] \/ in_order no_floats accepts_all (view no_floats trapped) cred_t node.
Proof. exact trap_due. Qed.

(** Otherwise edges cannot do it. Take any credential with an issuer for which all is due, whose edges are a section or an array of sections, in a store whose credentials are readable and have attributes, and about
   which schemas answer. If no edge leads nowhere, has an operator that is no text, asks for delegation, or asks for a holder where there is none, verification answers or reports an error.
   Missing for the full statement: those edges; stored credentials without attributes; verification at depth. *)
Theorem C164_edges_answer_partial :
  forall (canon : bytes -> option bytes) (hash : bytes -> bytes -> bytes) (cr : crypto) (messages_of : bytes -> R (list message)) (schema_check : bytes -> bytes -> R bool) (age : bytes -> R Z)
    (fuel : nat) (st : store) (e : sadder) (g : list group) (seen : list bytes) (said issuer : bytes),
  due canon hash cr schema_check age st e g said -> field_of (d_ked e) (s! "i") (VStr issuer) -> sectioned (d_ked e) -> answering canon schema_check st ->
  (forall node, edge (d_ked e) node -> ~ hostile canon schema_check st node) ->
  verify_acdc canon hash cr messages_of schema_check age (S fuel) st e g (Some false) seen <> Panic.
Proof. exact C164_partial_l. Qed.
Print Assumptions C164_edges_answer_partial.

Example C164_answers_case : due no_floats mix toy accepts_all young (view no_floats chained) cred_b [GPaths [csigs_b]] csaid_b /\ sectioned (d_ked cred_b) /\ field_of (d_ked cred_b) (s! "i") (VStr pre_m) /\
  answering no_floats accepts_all (view no_floats chained) /\ edge (d_ked cred_b) edge_b /\ (forall node, edge (d_ked cred_b) node -> ~ hostile no_floats accepts_all (view no_floats chained) node) /\
  verify_acdc no_floats mix toy knotted accepts_all young 9 (view no_floats chained) cred_b [GPaths [csigs_b]] (Some false) [] = Ok (true, []).
Proof.
  assert (verify_acdc no_floats mix toy knotted accepts_all young 9 (view no_floats chained) cred_b [GPaths [csigs_b]] (Some false) [] = Ok (true, [])) as V by (vm_compute; reflexivity).
  pose proof V as V0. apply exactly_accepted in V as (_ & said & D & SE & ED & _). assert (sad_said cred_b = Ok csaid_b) as S by (vm_compute; reflexivity).
  assert (said = csaid_b) as ->. { destruct D as (a1 & a2 & a3 & a4 & a5 & a6 & a7 & a8 & D1 & D2 & D). congruence. }
  split; auto. split; auto. split. { apply text_field. vm_compute. reflexivity. } split; [exact chained_answers|]. split.
  - assert (exists es, field_of (d_ked cred_b) (s! "e") (VObj es) /\ In (s! "auth", edge_b) es) as (es & F & I).
    { eexists. split; [apply index_field; vm_compute; reflexivity|]. right. left. vm_compute. reflexivity. }
    exists (s! "auth"), es. split; auto. split; [discriminate|]. split; [discriminate|]. now left.
  - split; auto. intros node E. apply (orderly_harmless _ _ _ cred_b). now apply ED.
Qed.
