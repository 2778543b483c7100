(** Properties C58-C61, C83, C85, C86. Theorem statements only; the proofs are in [SaiderThms]. *)
From Coq Require Import String.
From Coq Require Import NArith ZArith QArith Bool List.
From Verif Require Import Base Tables Matter Prims Json Common Saider Spec SpecPrims SpecJson SpecCommon SpecSaider SaiderThms BaseFacts.
Import ListNotations.
Open Scope N_scope.

(** The SAID and the data returned by saidify verify, with prefix and version checks switched on or off. *)
Theorem C58_said_round_trip :
  forall (hash : bytes -> bytes -> bytes) (sad out : value) (code kind label : option bytes) (ignore : list bytes) (saider : matter) (prefixed versioned : option bool),
  saidify hash sad code kind label ignore = Ok (saider, out) ->
  said_verify hash saider out prefixed versioned kind label ignore = Ok true.
Proof. exact C58a_l. Qed.
Print Assumptions C58_said_round_trip.

Example C58_case : is_ok (saidify pretend (VObj [(s! "v", VStr (s! "KERI10JSON000000_")); (s! "d", VStr []); (s! "a", VInt 3)]) None None None []) = true.
Proof. vm_compute. reflexivity. Qed.

(** Any data map that contains the label is given a SAID, whatever fields are ignored, provided it has no v field or begins with a v field that holds a
   version string of version 1.0 and its JSON, with the SAID in place, has fewer than 2^24 bytes. *)
Theorem C58_saidify_accepts :
  forall (hash : bytes -> bytes -> bytes) (m : list (bytes * value)) (code label : bytes) (n : N) (kind : option bytes) (ignore : list bytes),
  sized_hash hash -> In (code, n) digest_sizes -> data (VObj m) -> In label (map fst m) -> label <> s! "v" -> kind = None \/ kind = Some (s! "JSON") ->
  (get (s! "v") m = None \/
   exists vs proto size m', m = (s! "v", VStr vs) :: m' /\ version_string vs proto 1 0 size /\
     len (to_json (VObj (replaced label (dummies (text_width code)) m))) < 2 ^ 24) ->
  exists saider out, saidify hash (VObj m) (Some code) kind (Some label) ignore = Ok (saider, out).
Proof. exact C58b_l. Qed.
Print Assumptions C58_saidify_accepts.

Example C58_accepts_case : In (s! "d") (map fst [(s! "v", VStr (s! "KERI10JSON000000_")); (s! "d", VNull)]) /\ s! "d" <> s! "v" /\
  len (to_json (VObj (replaced (s! "d") (dummies 44) [(s! "v", VStr (s! "KERI10JSON000000_")); (s! "d", VNull)]))) = 76.
Proof. split; [right; left; reflexivity|]. split; [discriminate|]. vm_compute. reflexivity. Qed.

(** If a SAID verifies against two data maps with the version check on, then the two maps have the same fields in the same order, the label aside, or the
   digest function has a collision. *)
Theorem C59_tamper_evident :
  forall (hash : bytes -> bytes -> bytes) (s : matter) (m1 m2 : list (bytes * value)) (pre1 pre2 : option bool) (kind1 kind2 : option bytes) (label : bytes),
  sized_hash hash -> data (VObj m1) -> data (VObj m2) -> utf8 label = true ->
  said_verify hash s (VObj m1) pre1 (Some true) kind1 (Some label) [] = Ok true ->
  said_verify hash s (VObj m2) pre2 (Some true) kind2 (Some label) [] = Ok true ->
  without [label] m1 = without [label] m2 \/ collision hash (m_code s).
Proof. exact C59a_l. Qed.
Print Assumptions C59_tamper_evident.

Example C59_case : said_verify (fun _ _ => zeros 32) (Mt (s! "E") 0 (zeros 32)) (VObj [(s! "d", VNull); (s! "a", VInt 1)]) None None None (Some (s! "d")) [] = Ok true /\
  said_verify (fun _ _ => zeros 32) (Mt (s! "E") 0 (zeros 32)) (VObj [(s! "d", VNull); (s! "a", VInt 2)]) None None None (Some (s! "d")) [] = Ok true.
Proof. split; vm_compute; reflexivity. Qed.

(** The same with any ignore list and with the version check on or off: the maps agree on every field other than the label and the ignored ones, and other
   than v where the version check was off. *)
Theorem C59_tamper_evident_ignoring :
  forall (hash : bytes -> bytes -> bytes) (s : matter) (m1 m2 : list (bytes * value)) (pre1 pre2 ver1 ver2 : option bool) (kind1 kind2 : option bytes) (label : bytes)
    (ignore : list bytes),
  sized_hash hash -> data (VObj m1) -> data (VObj m2) -> utf8 label = true ->
  said_verify hash s (VObj m1) pre1 ver1 kind1 (Some label) ignore = Ok true ->
  said_verify hash s (VObj m2) pre2 ver2 kind2 (Some label) ignore = Ok true ->
  (forall k, k <> label -> ~ In k ignore -> k <> s! "v" \/ ver1 <> Some false /\ ver2 <> Some false -> get k m1 = get k m2) \/
  collision hash (m_code s).
Proof. exact C59b_l. Qed.
Print Assumptions C59_tamper_evident_ignoring.

(** saidify gives the same SAID and the same data whatever the label field held. *)
Theorem C60_label_content_irrelevant :
  forall (hash : bytes -> bytes -> bytes) (m : list (bytes * value)) (x : value) (code kind : option bytes) (label : bytes) (ignore : list bytes),
  NoDup (map fst m) -> In label (map fst m) ->
  saidify hash (VObj (replaced label x m)) code kind (Some label) ignore = saidify hash (VObj m) code kind (Some label) ignore.
Proof. exact C60a_l. Qed.
Print Assumptions C60_label_content_irrelevant.

Example C60_case : replaced (s! "d") (VStr (s! "x")) [(s! "d", VNull); (s! "a", VInt 1)] = [(s! "d", VStr (s! "x")); (s! "a", VInt 1)].
Proof. reflexivity. Qed.

(** saidify applied to its own output returns the same SAID and the same data. *)
Theorem C60_saidify_idempotent :
  forall (hash : bytes -> bytes -> bytes) (sad out : value) (code kind label : option bytes) (ignore : list bytes) (saider : matter),
  saidify hash sad code kind label ignore = Ok (saider, out) -> saidify hash out code kind label ignore = Ok (saider, out).
Proof. exact C60b_l. Qed.
Print Assumptions C60_saidify_idempotent.

(** False as stated: verifying against data that are not a map panics, and so does verifying with the prefix check on against a map without the label. *)
Theorem C61_verify_panics_refuted :
  (forall hash s, m_code s = s! "E" -> said_verify hash s VNull None None None None [] = Panic) /\
  exists hash s m, sized_hash hash /\ built s /\ data (VObj m) /\ said_verify hash s (VObj m) (Some true) None None None [] = Panic.
Proof. exact C61_no_l. Qed.
Print Assumptions C61_verify_panics_refuted.

(** Verifying a primitive against any map never panics if the map contains the label or the prefix check is off. The full statement fails: see
   C61_verify_panics_refuted. *)
Theorem C61_verify_total_partial :
  forall (hash : bytes -> bytes -> bytes) (s : matter) (m : list (bytes * value)) (pre ver : option bool) (kind : option bytes) (label : bytes) (ignore : list bytes),
  built s -> (pre = Some true -> In label (map fst m)) -> said_verify hash s (VObj m) pre ver kind (Some label) ignore <> Panic.
Proof. exact C61_l. Qed.
Print Assumptions C61_verify_total_partial.

Example C61_case : built (Mt (s! "E") 0 (zeros 32)).
Proof. exists (s! "E"), (zeros 32). split; [cbn; tauto|]. vm_compute. reflexivity. Qed.

(** These are the only panics: data that are not a map, for a primitive with a digest code; or the prefix check on against a map without the label, which
   would verify if the check were off. *)
Theorem C61_verify_panics_exactly :
  forall (hash : bytes -> bytes -> bytes) (s : matter) (sad : value) (pre ver : option bool) (kind : option bytes) (label : bytes) (ignore : list bytes),
  built s ->
  (said_verify hash s sad pre ver kind (Some label) ignore = Panic <->
   In (m_code s) (map fst digest_sizes) /\ (forall m, sad <> VObj m) \/
   exists m, sad = VObj m /\ pre = Some true /\ ~ In label (map fst m) /\ said_verify hash s sad (Some false) ver kind (Some label) ignore = Ok true).
Proof. exact C61_exact_l. Qed.
Print Assumptions C61_verify_panics_exactly.

Example C61_exactly_case : exists s : matter, built s /\ In (m_code s) (map fst digest_sizes) /\
  said_verify (fun _ _ => zeros 32) s (VObj []) (Some false) None None (Some (s! "d")) [] = Ok true /\
  said_verify (fun _ _ => zeros 32) s (VObj []) (Some true) None None (Some (s! "d")) [] = Panic.
Proof.
  exists (Mt (s! "E") 0 (zeros 32)). split; [exists (s! "E"), (zeros 32); split; [cbn; tauto|]; vm_compute; reflexivity|]. split; [cbn; tauto|]. split; vm_compute; reflexivity.
Qed.

(** False as stated: a field that follows an ignored one may be moved. Ignoring the first of four fields, the digest is taken over the last field, then
   the second and the third. *)
Theorem C83_ignored_fields_refuted :
  exists hash s o, sized_hash hash /\
  saidify hash (VObj [(s! "a", VNull); (s! "b", VNull); (s! "c", VNull); (s! "d", VNull)]) None None None [s! "a"] = Ok (s, VObj o) /\
  m_raw s = hash (s! "E") (to_json (VObj [(s! "d", dummies 44); (s! "b", VNull); (s! "c", VNull)])) /\
  m_raw s <> hash (s! "E") (to_json (VObj (without [s! "a"] (replaced (s! "d") (dummies 44) o)))).
Proof. exact C83_no_l. Qed.
Print Assumptions C83_ignored_fields_refuted.

(** When the ignored fields are the last ones of the data, the SAID is the digest of the JSON of the returned data, the SAID replaced by as many hash
   signs, without the ignored fields. The full statement, for ignored fields anywhere, fails: see C83_ignored_fields_refuted. *)
Theorem C83_ignored_fields_partial :
  forall (hash : bytes -> bytes -> bytes) (m keep last : list (bytes * value)) (code label : bytes) (kind : option bytes) (ignore : list bytes) (s : matter),
  sized_hash hash -> NoDup (map fst m) ->
  saidify hash (VObj m) (Some code) kind (Some label) ignore = Ok (s, VObj (keep ++ last)) ->
  (forall k, In k (map fst keep) -> ~ In k ignore) -> (forall k, In k (map fst last) -> In k ignore) ->
  m_raw s = hash code (to_json (VObj (without ignore (replaced label (dummies (text_width code)) (keep ++ last))))).
Proof. exact C83_l. Qed.
Print Assumptions C83_ignored_fields_partial.

Example C83_case : exists s o, saidify (fun _ _ => zeros 32) (VObj [(s! "b", VNull); (s! "d", VNull); (s! "x", VInt 1)]) None None (Some (s! "d")) [s! "x"] = Ok (s, VObj ([(s! "b", VNull); (s! "d", o)] ++ [(s! "x", VInt 1)])).
Proof. eexists. eexists. vm_compute. reflexivity. Qed.

(** What the digest is taken over, for any ignore list: the returned data with the SAID replaced by as many hash signs, and the ignored fields taken out one
   after the other in the order of the list, each time moving the last field left to the place that falls free. *)
Theorem C83_ignored_fields_exactly :
  forall (hash : bytes -> bytes -> bytes) (m o : list (bytes * value)) (code label : bytes) (kind : option bytes) (ignore : list bytes) (s : matter),
  sized_hash hash -> NoDup (map fst m) -> saidify hash (VObj m) (Some code) kind (Some label) ignore = Ok (s, VObj o) ->
  exists rest, all_taken ignore (replaced label (dummies (text_width code)) o) rest /\ m_raw s = hash code (to_json (VObj rest)).
Proof. exact C83_exact_l. Qed.
Print Assumptions C83_ignored_fields_exactly.

Example C83_exactly_case : all_taken [s! "a"; s! "x"; s! "d"] [(s! "a", VNull); (s! "b", VNull); (s! "c", VNull); (s! "d", VNull)] [(s! "c", VNull); (s! "b", VNull)].
Proof.
  eapply taken_next; [apply (taken_inner (s! "a") [] VNull [(s! "b", VNull); (s! "c", VNull)] (s! "d", VNull)); cbn; tauto|]. cbn [app].
  eapply taken_next; [apply taken_absent; cbn; intuition discriminate|].
  eapply taken_next; [apply (taken_inner (s! "d") [] VNull [(s! "b", VNull)] (s! "c", VNull)); cbn; tauto|]. apply taken_none.
Qed.

(** A SAID that verifies against data, without an ignore list and with the version check on, is the digest of the JSON of these data with the label field
   replaced by as many hash signs as the SAID has characters; if the prefix check is on too, the label field holds the SAID. *)
Theorem C85_verified_digest :
  forall (hash : bytes -> bytes -> bytes) (s : matter) (m : list (bytes * value)) (pre : option bool) (kind : option bytes) (label : bytes),
  sized_hash hash -> built s -> NoDup (map fst m) -> In label (map fst m) ->
  said_verify hash s (VObj m) pre (Some true) kind (Some label) [] = Ok true ->
  m_raw s = hash (m_code s) (to_json (VObj (replaced label (dummies (text_width (m_code s))) m))) /\
  (pre = Some true -> exists t, infil s = Ok t /\ get label m = Some (VStr t)).
Proof. exact C85a_l. Qed.
Print Assumptions C85_verified_digest.

(** The same with an ignore list: the SAID is the digest of the JSON of the data with the label field replaced by hash signs and the ignored fields taken
   out, each time moving the last field left to the place that falls free. *)
Theorem C85_verified_digest_ignoring :
  forall (hash : bytes -> bytes -> bytes) (s : matter) (m : list (bytes * value)) (pre : option bool) (kind : option bytes) (label : bytes) (ignore : list bytes),
  sized_hash hash -> built s -> NoDup (map fst m) -> In label (map fst m) ->
  said_verify hash s (VObj m) pre (Some true) kind (Some label) ignore = Ok true ->
  (exists rest, all_taken ignore (replaced label (dummies (text_width (m_code s))) m) rest /\ m_raw s = hash (m_code s) (to_json (VObj rest))) /\
  (pre = Some true -> exists t, infil s = Ok t /\ get label m = Some (VStr t)).
Proof. exact C85_ignore_l. Qed.
Print Assumptions C85_verified_digest_ignoring.

Example C85_ignoring_case : said_verify (fun _ _ => zeros 32) (Mt (s! "E") 0 (zeros 32)) (VObj [(s! "d", VNull); (s! "x", VNull)]) None (Some true) None (Some (s! "d")) [s! "x"] = Ok true.
Proof. vm_compute. reflexivity. Qed.

(** For data without a v field the converse holds as well: with the prefix check on, verification answers true exactly when the label field holds the SAID
   and the SAID is that digest. *)
Theorem C85_verified_exactly :
  forall (hash : bytes -> bytes -> bytes) (s : matter) (m : list (bytes * value)) (label : bytes),
  sized_hash hash -> built s -> In (m_code s) (map fst digest_sizes) -> NoDup (map fst m) -> In label (map fst m) -> label <> s! "v" -> get (s! "v") m = None ->
  (said_verify hash s (VObj m) (Some true) (Some true) None (Some label) [] = Ok true <->
   m_raw s = hash (m_code s) (to_json (VObj (replaced label (dummies (text_width (m_code s))) m))) /\ exists t, infil s = Ok t /\ get label m = Some (VStr t)).
Proof. exact C85b_l. Qed.
Print Assumptions C85_verified_exactly.

Example C85_case : built (Mt (s! "E") 0 (zeros 32)) /\ get (s! "v") [(s! "d", VNull)] = None /\ NoDup (map fst [(s! "d", VNull)]).
Proof. split; [exists (s! "E"), (zeros 32); split; [cbn; tauto|vm_compute; reflexivity]|]. split; [reflexivity|repeat constructor; cbn; tauto]. Qed.

(** One list of digest codes: a primitive is reported digestive, can be built as a SAID and has a digest function exactly when its code is one of the nine
   digest codes. *)
Theorem C86_digest_codes_agree :
  forall (hash : bytes -> bytes -> bytes) (m : matter),
  built m ->
  let code := m_code m in let listed := In code (map fst digest_sizes) in
  (digestive m = true <-> listed) /\
  ((exists s, said_new hash None None None [] (Some code) (Some (m_raw m)) None None None = Ok s) <-> listed) /\
  (forall ser, is_ok (digest hash code ser) = true <-> listed).
Proof. exact C86_l. Qed.
Print Assumptions C86_digest_codes_agree.

Example C86_case : digestive (Mt (s! "0G") 0 []) = true /\ digestive (Mt (s! "B") 0 []) = false.
Proof. split; reflexivity. Qed.
