(** Properties C62-C64, C89. Theorem statements only; the proofs are in [PrefixerThms]. *)
From Coq Require Import String.
From Coq Require Import NArith ZArith QArith Bool List.
From Verif Require Import Base Tables Matter Prims Json Common Saider Diger Prefixer Spec SpecPrims SpecJson SpecCommon SpecSaider SpecSadder SpecPrefixer PrefixerThms BaseFacts.
Import ListNotations.
Open Scope N_scope.

(** A derived prefix has the code asked for, or else the code of the text in field i; it is one of the allowed codes if any are named, and a key or digest code. *)
Theorem C62_code_asked :
  forall (hash : bytes -> bytes -> bytes) (ked : value) (allows : option (list bytes)) (code : option bytes) (p : matter),
  prefixer_new hash (Some ked) allows code None None None None = Ok p ->
  (forall c, code = Some c -> m_code p = c) /\ (code = None -> exists t m, field_of ked (s! "i") (VStr t) /\ exfil t = Ok m /\ m_code p = m_code m) /\
  (forall l, allows = Some l -> l = [] \/ In (m_code p) l) /\ In (m_code p) (fixed_keys ++ rotatable_keys ++ map fst digest_sizes).
Proof. exact C62_asked_l. Qed.
Print Assumptions C62_code_asked.

Example C62_asked_case : is_err (prefixer_new (fun _ _ => zeros 32)
    (Some (VObj [(s! "v", VStr (s! "KERI10JSON000000_")); (s! "t", VStr (s! "icp")); (s! "d", VStr []); (s! "i", VStr []); (s! "k", VArr [])])) (Some [s! "D"]) (Some (s! "E")) None None None None) = true.
Proof. vm_compute. reflexivity. Qed.

(** A digest prefix derived from an inception event verifies against that event with the prefix written into field i and anything, such as a SAID, into field d,
   with the prefix check on or off. *)
Theorem C62_digest_prefix_verifies :
  forall (hash : bytes -> bytes -> bytes) (m : list (bytes * value)) (allows : option (list bytes)) (code : option bytes) (p : matter) (said : value) (prefixed : option bool),
  NoDup (map fst m) -> prefixer_new hash (Some (VObj m)) allows code None None None None = Ok p -> In (m_code p) (map fst digest_sizes) ->
  exists pre, infil p = Ok pre /\ prefixer_verify hash p (VObj (assigned (s! "d") said (assigned (s! "i") (VStr pre) m))) prefixed = Ok true.
Proof. exact C62a_l. Qed.
Print Assumptions C62_digest_prefix_verifies.

Example C62_digest_case : exists p, prefixer_new (fun _ _ => zeros 32)
    (Some (VObj [(s! "v", VStr (s! "KERI10JSON000000_")); (s! "t", VStr (s! "icp")); (s! "d", VStr []); (s! "i", VStr []); (s! "k", VArr [])])) None (Some (s! "E")) None None None None = Ok p /\
  m_code p = s! "E".
Proof. eexists. split; [vm_compute; reflexivity|reflexivity]. Qed.

(** The same holds when the size in the version string of the event was filled in, or changed, after the prefix was derived. *)
Theorem C62_resized_event :
  forall (hash : bytes -> bytes -> bytes) (vs vs' proto : bytes) (n n' : N) (m : list (bytes * value)) (allows : option (list bytes)) (code : option bytes) (p : matter)
    (said : value) (prefixed : option bool),
  NoDup (map fst ((s! "v", VStr vs) :: m)) -> version_string vs proto 1 0 n -> version_string vs' proto 1 0 n' ->
  prefixer_new hash (Some (VObj ((s! "v", VStr vs) :: m))) allows code None None None None = Ok p -> In (m_code p) (map fst digest_sizes) ->
  exists pre, infil p = Ok pre /\ prefixer_verify hash p (VObj ((s! "v", VStr vs') :: assigned (s! "d") said (assigned (s! "i") (VStr pre) m))) prefixed = Ok true.
Proof. exact C62b_l. Qed.
Print Assumptions C62_resized_event.

Example C62_resized_case : version_string (s! "KERI10JSON000000_") (s! "KERI") 1 0 0 /\ version_string (s! "KERI10JSON0000fd_") (s! "KERI") 1 0 253.
Proof. split; (split; [now left|]); [exists [x31], [x30], (s! "000000")|exists [x31], [x30], (s! "0000fd")]; repeat split; try reflexivity; cbn; intros; intuition (subst; cbn; tauto). Qed.

(** Any inception event that begins with a version string of version 1.0 is given a digest prefix of any digest code, provided the code is allowed and the JSON of the
   event, with prefix and SAID in place, has fewer than 2^24 bytes. *)
Theorem C62_digest_prefix_accepted :
  forall (hash : bytes -> bytes -> bytes) (vs proto code : bytes) (n w : N) (m : list (bytes * value)) (allows : option (list bytes)),
  sized_hash hash -> In (code, w) digest_sizes -> data (VObj ((s! "v", VStr vs) :: m)) -> version_string vs proto 1 0 n -> incepts (VObj ((s! "v", VStr vs) :: m)) ->
  (forall l, allows = Some l -> l = [] \/ In code l) ->
  len (to_json (VObj (assigned (s! "d") (dummies (text_width code)) (assigned (s! "i") (dummies (text_width code)) ((s! "v", VStr vs) :: m))))) < 2 ^ 24 ->
  exists p, prefixer_new hash (Some (VObj ((s! "v", VStr vs) :: m))) allows (Some code) None None None None = Ok p /\ m_code p = code.
Proof. exact C62c_l. Qed.
Print Assumptions C62_digest_prefix_accepted.

Example C62_accepted_case : incepts (VObj [(s! "v", VStr (s! "KERI10JSON000000_")); (s! "t", VStr (s! "dip"))]) /\ In (s! "0G", 64) digest_sizes /\
  len (to_json (VObj (assigned (s! "d") (dummies 88) (assigned (s! "i") (dummies 88) [(s! "v", VStr (s! "KERI10JSON000000_")); (s! "t", VStr (s! "dip"))])))) = 225.
Proof.
  split; [exists (s! "dip"); split; [exists [(s! "v", VStr (s! "KERI10JSON000000_"))], []; split; [reflexivity|cbn; intuition discriminate]|cbn; tauto]|].
  split; [cbn; tauto|vm_compute; reflexivity].
Qed.

(** False as stated for prefixes that are keys: if the text of the key in the event is followed by further characters, a prefix is derived, but it does not verify
   against the event it was derived from. *)
Theorem C62_basic_prefix_refuted :
  exists hash m p pre, NoDup (map fst m) /\ prefixer_new hash (Some (VObj m)) None (Some (s! "D")) None None None None = Ok p /\ infil p = Ok pre /\
  prefixer_verify hash p (VObj (assigned (s! "i") (VStr pre) m)) None = Ok false.
Proof. exact C62_no_l. Qed.
Print Assumptions C62_basic_prefix_refuted.

(** A prefix that is a key, derived from an inception event, is the primitive the event's only key text parses to; its text is the beginning of that key text. If it is
   the whole key text then the prefix verifies against the event with the prefix written into field i and anything into field d. Full statement: without that
   condition; see C62_basic_prefix_refuted. *)
Theorem C62_basic_prefix_partial :
  forall (hash : bytes -> bytes -> bytes) (m : list (bytes * value)) (allows : option (list bytes)) (code : option bytes) (p : matter) (said : value) (prefixed : option bool),
  NoDup (map fst m) -> prefixer_new hash (Some (VObj m)) allows code None None None None = Ok p -> In (m_code p) (fixed_keys ++ rotatable_keys) ->
  exists pre key, infil p = Ok pre /\ sole_key (VObj m) key /\ exfil key = Ok p /\ prefix pre key /\
  (key = pre -> prefixer_verify hash p (VObj (assigned (s! "d") said (assigned (s! "i") (VStr pre) m))) prefixed = Ok true).
Proof. exact C62_l. Qed.
Print Assumptions C62_basic_prefix_partial.

Example C62_basic_case : exists p, prefixer_new (fun _ _ => []) (Some (VObj [(s! "t", VStr (s! "icp")); (s! "k", VArr [VStr (s! "BAAAAAAAAAAAAAAAAAAAAAAAAAAAAAAAAAAAAAAAAAAA")])])) None
    (Some (s! "B")) None None None None = Ok p /\ infil p = Ok (s! "BAAAAAAAAAAAAAAAAAAAAAAAAAAAAAAAAAAAAAAAAAAA").
Proof. eexists. split; [vm_compute; reflexivity|]. vm_compute. reflexivity. Qed.

(** If a prefix that is a key verifies against an event, the event is an inception, the text of the prefix is its only key and, with the prefix check on, also its
   field i. For a key that can be rotated this is exactly when the prefix verifies. *)
Theorem C63_basic_prefix_is_the_key :
  forall (hash : bytes -> bytes -> bytes) (p : matter) (ked : value) (prefixed : option bool),
  In (m_code p) (fixed_keys ++ rotatable_keys) ->
  (prefixer_verify hash p ked prefixed = Ok true -> incepts ked /\ exists pre, infil p = Ok pre /\ sole_key ked pre /\ (prefixed = Some true -> field_of ked (s! "i") (VStr pre))) /\
  (In (m_code p) rotatable_keys -> forall pre, incepts ked -> infil p = Ok pre -> sole_key ked pre -> (prefixed = Some true -> field_of ked (s! "i") (VStr pre)) ->
   prefixer_verify hash p ked prefixed = Ok true).
Proof. exact C63a_l. Qed.
Print Assumptions C63_basic_prefix_is_the_key.

Example C63_basic_case : prefixer_verify (fun _ _ => []) (Mt (s! "D") 0 (zeros 32))
    (VObj [(s! "t", VStr (s! "icp")); (s! "i", VStr (s! "DAAAAAAAAAAAAAAAAAAAAAAAAAAAAAAAAAAAAAAAAAAA")); (s! "k", VArr [VStr (s! "DAAAAAAAAAAAAAAAAAAAAAAAAAAAAAAAAAAAAAAAAAAA")])]) (Some true) = Ok true.
Proof. vm_compute. reflexivity. Qed.

(** False as stated: whatever the digest function, some prefix verifies against two events with different labels. The label looks like a version string, and sizing the
   event overwrites it before the digest is taken. *)
Theorem C63_digest_tamper_refuted :
  forall hash, sized_hash hash -> exists p m1 m2, data (VObj m1) /\ data (VObj m2) /\ built p /\ m_code p = s! "E" /\
  prefixer_verify hash p (VObj m1) None = Ok true /\ prefixer_verify hash p (VObj m2) None = Ok true /\ without [s! "i"; s! "d"; s! "v"] m1 <> without [s! "i"; s! "d"; s! "v"] m2.
Proof. exact C63_no_l. Qed.
Print Assumptions C63_digest_tamper_refuted.

(** If a digest prefix verifies against two inception events that begin with their version strings, then the version strings differ in the size at most, and the
   events have the same other fields in the same order, prefix and SAID aside; or the digest function has a collision. The full statement, for events that do not
   begin with the version string, fails: see C63_digest_tamper_refuted. *)
Theorem C63_digest_tamper_partial :
  forall (hash : bytes -> bytes -> bytes) (p : matter) (vs1 vs2 : bytes) (m1 m2 : list (bytes * value)) (prefixed1 prefixed2 : option bool),
  sized_hash hash -> In (m_code p) (map fst digest_sizes) -> data (VObj ((s! "v", VStr vs1) :: m1)) -> data (VObj ((s! "v", VStr vs2) :: m2)) ->
  prefixer_verify hash p (VObj ((s! "v", VStr vs1) :: m1)) prefixed1 = Ok true -> prefixer_verify hash p (VObj ((s! "v", VStr vs2) :: m2)) prefixed2 = Ok true ->
  collision hash (m_code p) \/
  (exists proto n1 n2, version_string vs1 proto 1 0 n1 /\ version_string vs2 proto 1 0 n2) /\ without [s! "i"; s! "d"] m1 = without [s! "i"; s! "d"] m2.
Proof. exact C63_l. Qed.
Print Assumptions C63_digest_tamper_partial.

Example C63_case : prefixer_verify (fun _ _ => zeros 32) (Mt (s! "E") 0 (zeros 32)) (VObj [(s! "v", VStr (s! "KERI10JSON000000_")); (s! "t", VStr (s! "icp")); (s! "i", VNull); (s! "d", VNull)]) None = Ok true.
Proof. vm_compute. reflexivity. Qed.

(** A prefix for a key that cannot be rotated is derived only from an event whose fields n, b and a are each missing or the empty text. So it names no next keys, no
   witnesses and no anchors. *)
Theorem C64_derivation_commits_to_nothing :
  forall (hash : bytes -> bytes -> bytes) (ked : value) (allows : option (list bytes)) (code : option bytes) (p : matter),
  prefixer_new hash (Some ked) allows code None None None None = Ok p -> In (m_code p) fixed_keys -> forall k, In k [s! "n"; s! "b"; s! "a"] -> vacant ked k.
Proof. exact C64a_l. Qed.
Print Assumptions C64_derivation_commits_to_nothing.

Example C64_case : exists p, prefixer_new (fun _ _ => []) (Some (VObj [(s! "t", VStr (s! "icp")); (s! "k", VArr [VStr (s! "BAAAAAAAAAAAAAAAAAAAAAAAAAAAAAAAAAAAAAAAAAAA")]); (s! "n", VStr [])])) None
    (Some (s! "B")) None None None None = Ok p /\ m_code p = s! "B".
Proof. eexists. split; [vm_compute; reflexivity|]. reflexivity. Qed.

(** False as stated for verification: a prefix for a key that cannot be rotated verifies against an event naming a witness and an anchor, even one it cannot be derived from. *)
Theorem C64_verification_refuted :
  exists hash p m, built p /\ m_code p = s! "B" /\ field_of (VObj m) (s! "b") (VArr [VStr (s! "BAAAAAAAAAAAAAAAAAAAAAAAAAAAAAAAAAAAAAAAAAAA")]) /\
  field_of (VObj m) (s! "a") (VArr [VInt 1]) /\ prefixer_verify hash p (VObj m) (Some true) = Ok true /\
  is_err (prefixer_new hash (Some (VObj m)) None (Some (s! "B")) None None None None) = true.
Proof. exact C64_no_l. Qed.
Print Assumptions C64_verification_refuted.

(** A prefix for a key that cannot be rotated verifies against an event exactly when the event is an inception, the prefix is its only key (and its field i, if checked)
   and field n is not a non-empty list or text. Full statement: also no witnesses or anchors; see C64_verification_refuted. *)
Theorem C64_verification_partial :
  forall (hash : bytes -> bytes -> bytes) (p : matter) (ked : value) (prefixed : option bool),
  In (m_code p) fixed_keys ->
  (prefixer_verify hash p ked prefixed = Ok true <->
   incepts ked /\ exists pre, infil p = Ok pre /\ sole_key ked pre /\ (prefixed = Some true -> field_of ked (s! "i") (VStr pre)) /\
   forall x, field_of ked (s! "n") x -> (forall y l, x <> VArr (y :: l)) /\ (forall c t, x <> VStr (c :: t))).
Proof. exact C64_l. Qed.
Print Assumptions C64_verification_partial.

Example C64_verified_case : prefixer_verify (fun _ _ => []) (Mt (s! "B") 0 (zeros 32))
    (VObj [(s! "t", VStr (s! "icp")); (s! "k", VArr [VStr (s! "BAAAAAAAAAAAAAAAAAAAAAAAAAAAAAAAAAAAAAAAAAAA")]); (s! "n", VArr [])]) None = Ok true /\
  prefixer_verify (fun _ _ => []) (Mt (s! "B") 0 (zeros 32))
    (VObj [(s! "t", VStr (s! "icp")); (s! "k", VArr [VStr (s! "BAAAAAAAAAAAAAAAAAAAAAAAAAAAAAAAAAAAAAAAAAAA")]); (s! "n", VArr [VStr (s! "x")])]) None = Ok false.
Proof. split; [vm_compute; reflexivity|]. vm_compute. reflexivity. Qed.

(** False as stated: deriving a prefix from, or verifying one against, data without a field t panics. *)
Theorem C89_prefix_panics_refuted :
  (forall hash, prefixer_new hash (Some (VObj [])) None (Some (s! "E")) None None None None = Panic) /\
  exists p, built p /\ forall hash, prefixer_verify hash p (VObj []) None = Panic.
Proof. exact C89_no_l. Qed.
Print Assumptions C89_prefix_panics_refuted.

(** Verifying a prefix panics exactly when the data verified against have no field t. *)
Theorem C89_verify_panics_exactly :
  forall (hash : bytes -> bytes -> bytes) (p : matter) (ked : value) (prefixed : option bool),
  built p -> (prefixer_verify hash p ked prefixed = Panic <-> lacks ked (s! "t")).
Proof. exact C89a_l. Qed.
Print Assumptions C89_verify_panics_exactly.

Example C89_verify_case : prefixer_verify (fun _ _ => []) (Mt (s! "E") 0 (zeros 32)) (VObj [(s! "t", VStr (s! "rot"))]) None = Err EValue.
Proof. vm_compute. reflexivity. Qed.

(** Deriving a prefix panics only if the data have no field t, or if parsing the text of field i or of the only key panics. Full statement: never; see
   C89_prefix_panics_refuted. *)
Theorem C89_derivation_panics_partial :
  forall (hash : bytes -> bytes -> bytes) (ked : option value) (allows : option (list bytes)) (code : option bytes),
  prefixer_new hash ked allows code None None None None = Panic ->
  exists v, ked = Some v /\ (lacks v (s! "t") \/ exists t, (field_of v (s! "i") (VStr t) \/ sole_key v t) /\ exfil t = Panic).
Proof. exact C89_l. Qed.
Print Assumptions C89_derivation_panics_partial.

Example C89_derive_case : prefixer_new (fun _ _ => []) (Some VNull) None None None None None None = Err EConversion /\
  prefixer_new (fun _ _ => []) (Some (VObj [(s! "t", VNull)])) None (Some (s! "E")) None None None None = Err EConversion.
Proof. split; reflexivity. Qed.

(** Exactly when deriving a prefix panics. Without a code given, if parsing the text of field i panics. Otherwise, with the code given or the one that text
   has: it must be a prefix code and an allowed one; then a missing field t panics, and so does, for a key code and an inception event, a sole key whose
   text panics when it is parsed. Nothing else does. *)
Theorem C89_derivation_panics_exactly :
  forall (hash : bytes -> bytes -> bytes) (ked : option value) (allows : option (list bytes)) (code : option bytes),
  prefixer_new hash ked allows code None None None None = Panic <->
  exists v, ked = Some v /\
    ((code = None /\ exists t, field_of v (s! "i") (VStr t) /\ exfil t = Panic) \/
     exists c, (code = Some c \/ code = None /\ exists t m, field_of v (s! "i") (VStr t) /\ exfil t = Ok m /\ m_code m = c) /\
       In c (fixed_keys ++ rotatable_keys ++ map fst digest_sizes) /\ (forall l, allows = Some l -> l = [] \/ In c l) /\
       (lacks v (s! "t") \/ In c (fixed_keys ++ rotatable_keys) /\ incepts v /\ exists k, sole_key v k /\ exfil k = Panic)).
Proof. exact C89_exact_l. Qed.
Print Assumptions C89_derivation_panics_exactly.

Example C89_exactly_case : prefixer_new (fun _ _ => []) (Some VNull) None (Some (s! "E")) None None None None = Panic /\
  prefixer_new (fun _ _ => []) (Some VNull) (Some [s! "D"]) (Some (s! "E")) None None None None = Err EUnexpectedCode.
Proof. split; reflexivity. Qed.
