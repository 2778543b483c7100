(** Properties C72-C75, C94, C95. Theorem statements only; the proofs are in [PatherThms]. *)
From Coq Require Import String.
From Coq Require Import NArith ZArith QArith Bool List.
From Verif Require Import Base Tables Matter Counter Prims Json Common Saider Sadder Pather Spec SpecPrims SpecCounter SpecSaider SpecSadder SpecPather PatherThms BaseFacts.
Import ListNotations.
Open Scope N_scope.

(** False as stated: an element with a dash is accepted and comes back as two, and a path with an empty first element comes back empty. *)
Theorem C72_path_round_trip_refuted :
  (exists m, pather_of_path (VArr [VStr (s! "a-b")]) = Ok m /\ elements m [s! "a"; s! "b"]) /\
  (exists m, pather_of_path (VArr [VStr []; VStr (s! "x")]) = Ok m /\ elements m []) /\ (exists m, pather_of_path (VArr [VInt (-5)]) = Ok m /\ elements m []).
Proof. exact C72_no_l. Qed.
Print Assumptions C72_path_round_trip_refuted.

(** A pather built from a list of elements, given as texts over the base64url alphabet or as integers, has their text and is the same after qb64, qb64b and qb2. It gives
   the elements (as texts) back exactly if none contains a dash and the first is not empty. Full statement: always; see C72_path_round_trip_refuted. *)
Theorem C72_path_round_trip_partial :
  forall (vs : list value) (els : list bytes),
  Forall2 names vs els -> Forall (over base64url_alphabet) els -> len (path_text els) <= 67108860 ->
  exists m t b, pather_of_path (VArr vs) = Ok m /\ bext_of m = Ok (path_text els) /\ infil m = Ok t /\ binfil m = Ok b /\
    pather_new None None None None None (Some t) None = Ok m /\ pather_new None None None None (Some t) None None = Ok m /\ pather_new None None None None None None (Some b) = Ok m /\
    (elements m els <-> separable els).
Proof. exact C72_l. Qed.
Print Assumptions C72_path_round_trip_partial.

Example C72_case : exists m, pather_of_path (VArr [VStr (s! "field0"); VInt 12; VStr []; VStr (s! "z_")]) = Ok m /\ bext_of m = Ok (s! "-field0-12--z_") /\
  elements m [s! "field0"; s! "12"; []; s! "z_"].
Proof. eexists. split; [vm_compute; reflexivity|]. split; vm_compute; reflexivity. Qed.

(** A pather is built from a list exactly if each element is a text or an integer, over the base64url alphabet, and the text fits the largest code; otherwise the call
   fails with an error. The length of the text is below 2^32. *)
Theorem C72_paths_accepted :
  forall (vs : list value),
  (forall z, In (VInt z) vs -> (- 2 ^ 63 <= z < 2 ^ 63)%Z) -> (forall els, Forall2 names vs els -> len (path_text els) < 2 ^ 32) ->
  ((exists m, pather_of_path (VArr vs) = Ok m) <-> exists els, Forall2 names vs els /\ Forall (over base64url_alphabet) els /\ len (path_text els) <= 67108860) /\
  pather_of_path (VArr vs) <> Panic.
Proof. exact C72_accepted_l. Qed.
Print Assumptions C72_paths_accepted.

Example C72_accepted_case : is_err (pather_of_path (VArr [VStr (s! "a"); VBool true])) = true /\ is_err (pather_of_path (VArr [VStr (s! "a.b")])) = true /\ names (VInt (-5)) (s! "-5").
Proof.
  split; [reflexivity|]. split; [reflexivity|]. right. exists (-5)%Z. split; [reflexivity|]. split; [split; [discriminate|reflexivity]|]. exists (s! "5"), 5. split; [|split; [intros r H; discriminate H|right; repeat split]].
  split; [discriminate|]. split; [repeat constructor; discriminate|reflexivity].
Qed.

(** Rooting a path at another gives the path of the elements of the root followed by its own; it starts with the root if the text of the root is that of its elements. *)
Theorem C73_root :
  forall (self root : matter) (p r : list bytes),
  elements self p -> elements root r -> Forall (over base64url_alphabet) (r ++ p) -> len (path_text (r ++ p)) <= 67108860 ->
  exists m, path_root self root = Ok m /\ elements m (r ++ p) /\ bext_of m = Ok (path_text (r ++ p)) /\ (bext_of root = Ok (path_text r) -> path_starts_with m root = Ok true).
Proof. exact C73_root_l. Qed.
Print Assumptions C73_root.

Example C73_root_case : exists a r m, pather_of_bext (s! "-a-b") = Ok a /\ pather_of_bext (s! "-r") = Ok r /\ path_root a r = Ok m /\ elements m [s! "r"; s! "a"; s! "b"] /\ path_starts_with m r = Ok true.
Proof. eexists. eexists. eexists. split; [vm_compute; reflexivity|]. split; [vm_compute; reflexivity|]. split; [vm_compute; reflexivity|]. split; vm_compute; reflexivity. Qed.

(** Without that condition a rooted path need not start with its root: the path --x has no elements. *)
Theorem C73_root_start_refuted :
  exists a r m, pather_of_bext (s! "-a") = Ok a /\ pather_of_bext (s! "--x") = Ok r /\ path_root a r = Ok m /\ path_starts_with m r = Ok false.
Proof. exact C73_start_no_l. Qed.
Print Assumptions C73_root_start_refuted.

(** False as stated: rooting b-a at a and stripping a gives a-b. *)
Theorem C73_strip_refuted :
  exists p r m n, pather_of_bext (s! "-b-a") = Ok p /\ pather_of_bext (s! "-a") = Ok r /\ path_root p r = Ok m /\ path_strip m r = Ok n /\ bext_of n = Ok (s! "-a-b").
Proof. exact C73_no_l. Qed.
Print Assumptions C73_strip_refuted.

(** What holds: if the elements of the root are different from each other and from those that follow, stripping the root gives what follows, and a path shorter than the
   root is left alone. Full statement: for all paths; see C73_strip_refuted. *)
Theorem C73_strip_partial :
  forall (self root : matter) (q r : list bytes),
  elements self q -> elements root r ->
  (forall p, q = r ++ p -> NoDup r -> (forall e, In e r -> ~ In e p) -> Forall (over base64url_alphabet) p -> len (path_text p) <= 67108860 ->
     exists m, path_strip self root = Ok m /\ bext_of m = Ok (path_text p) /\ (separable p -> elements m p)) /\
  (len q < len r -> path_strip self root = Ok self).
Proof. exact C73_strip_l. Qed.
Print Assumptions C73_strip_partial.

Example C73_strip_case : exists a r m, pather_of_bext (s! "-a-b-c") = Ok a /\ pather_of_bext (s! "-a-b") = Ok r /\ path_strip a r = Ok m /\ elements m [s! "c"] /\ path_strip r a = Ok r.
Proof. eexists. eexists. eexists. split; [vm_compute; reflexivity|]. split; [vm_compute; reflexivity|]. split; [vm_compute; reflexivity|]. split; vm_compute; reflexivity. Qed.

(** False as stated: the path ab starts with the path a. *)
Theorem C74_starts_with_refuted :
  exists p q, pather_of_bext (s! "-ab") = Ok p /\ pather_of_bext (s! "-a") = Ok q /\ elements p [s! "ab"] /\ elements q [s! "a"] /\ path_starts_with p q = Ok true.
Proof. exact C74_no_l. Qed.
Print Assumptions C74_starts_with_refuted.

(** What holds, for paths whose text is that of their elements: a path starts with the empty path, and with another exactly if the elements of the other but the last are
   its first elements, and the last is a textual prefix of the next. Full statement: an equal one; see C74_starts_with_refuted. *)
Theorem C74_starts_with_partial :
  forall (self other : matter) (p q : list bytes),
  bext_of self = Ok (path_text p) -> bext_of other = Ok (path_text q) -> separable p -> separable q ->
  (path_starts_with self other = Ok true <-> q = [] \/ exists i x t rest, q = i ++ [x] /\ p = i ++ (x ++ t) :: rest) /\
  (path_starts_with self other = Ok true \/ path_starts_with self other = Ok false) /\
  ((exists rest, p = q ++ rest) -> path_starts_with self other = Ok true).
Proof. exact C74_l. Qed.
Print Assumptions C74_starts_with_partial.

Example C74_case : exists p q, pather_of_bext (s! "-a-bc-d") = Ok p /\ pather_of_bext (s! "-a-bc") = Ok q /\ bext_of p = Ok (path_text [s! "a"; s! "bc"; s! "d"]) /\
  path_starts_with p q = Ok true /\ path_starts_with q p = Ok false.
Proof. eexists. eexists. split; [vm_compute; reflexivity|]. split; [vm_compute; reflexivity|]. split; [vm_compute; reflexivity|]. split; vm_compute; reflexivity. Qed.

(** Resolving a path without empty elements gives a value exactly if the elements lead to it, step by step, from labels or positions; the empty path gives the whole
   value; any other case is an error, never a panic. Full statement: also with empty elements and with labels that are numbers; see C75_empty_element_refuted,
   C75_numeric_label_refuted and C75_empty_element. *)
Theorem C75_resolution_partial :
  forall (self : matter) (els : list bytes) (v : value),
  elements self els -> ~ In [] els ->
  (forall w, path_resolve self v = Ok w <-> follows v els w) /\ (els = [] -> path_resolve self v = Ok v) /\ path_resolve self v <> Panic.
Proof. exact C75_l. Qed.
Print Assumptions C75_resolution_partial.

Example C75_case : exists m, pather_of_bext (s! "-a-1-b") = Ok m /\ elements m [s! "a"; s! "1"; s! "b"] /\
  path_resolve m (VObj [(s! "x", VNull); (s! "a", VArr [VInt 1; VObj [(s! "b", VBool true)]])]) = Ok (VBool true) /\ is_err (path_resolve m (VObj [(s! "a", VArr [VInt 1])])) = true.
Proof. eexists. split; [vm_compute; reflexivity|]. split; [vm_compute; reflexivity|]. split; vm_compute; reflexivity. Qed.

(** With an empty element, a path resolves exactly if the elements before the first empty one lead to a map, and gives that map; the rest of the path is not looked at. *)
Theorem C75_empty_element :
  forall (self : matter) (a b : list bytes) (v w : value),
  elements self (a ++ [] :: b) -> ~ In [] a ->
  (path_resolve self v = Ok w <-> follows v a w /\ exists m, w = VObj m).
Proof. exact C75_empty_l. Qed.
Print Assumptions C75_empty_element.

Example C75_empty_case : exists m, pather_of_bext (s! "-a--b") = Ok m /\ elements m [s! "a"; []; s! "b"].
Proof. eexists. split; vm_compute; reflexivity. Qed.

(** False as stated: a path with an empty element resolves although its last step is missing. *)
Theorem C75_empty_element_refuted :
  exists m v w, pather_of_bext (s! "-a--b") = Ok m /\ elements m [s! "a"; []; s! "b"] /\ path_resolve m v = Ok w /\ forall u, ~ follows v [s! "a"; []; s! "b"] u.
Proof. exact C75_no_l. Qed.
Print Assumptions C75_empty_element_refuted.

(** False as stated for labels that are numbers: they count as positions, so that the path 1 selects the second entry although there is one labelled 1, and the path 7
   selects nothing although there is an entry labelled 7. *)
Theorem C75_numeric_label_refuted :
  exists m n, pather_of_bext (s! "-1") = Ok m /\ pather_of_bext (s! "-7") = Ok n /\
  path_resolve m (VObj [(s! "1", VBool true); (s! "x", VBool false)]) = Ok (VBool false) /\ path_resolve n (VObj [(s! "7", VBool true)]) = Err EValue.
Proof. exact C75_label_no_l. Qed.
Print Assumptions C75_numeric_label_refuted.

(** False as stated for strip: stripping a-a of itself panics, and so does stripping b of a. *)
Theorem C94_strip_panics_refuted :
  (exists p, pather_of_bext (s! "-a-a") = Ok p /\ path_strip p p = Panic) /\ (exists p q, pather_of_bext (s! "-a") = Ok p /\ pather_of_bext (s! "-b") = Ok q /\ path_strip p q = Panic).
Proof. exact C94_no_l. Qed.
Print Assumptions C94_strip_panics_refuted.

(** Reading, rooting, comparing and resolving paths never panics. Stripping panics exactly if the root is not longer than the path and some element of the root does not
   occur in the path, or its last occurrence there is followed by fewer elements than in the root. Texts are below 2^32 bytes. Full statement: never; see
   C94_strip_panics_refuted. *)
Theorem C94_path_panics_partial :
  forall (path path' : option value) (bext bext' code code' raw raw' qb64b qb64b' qb64 qb64' qb2 qb2' : option bytes) (self root : matter) (v : value),
  pather_new path bext code raw qb64b qb64 qb2 = Ok self -> pather_new path' bext' code' raw' qb64b' qb64' qb2' = Ok root ->
  path_of self <> Panic /\ path_starts_with self root <> Panic /\ path_resolve self v <> Panic /\
  (forall p r, elements self p -> elements root r -> len (path_text (r ++ p)) < 2 ^ 32 - 1 ->
    path_root self root <> Panic /\
    (path_strip self root = Panic <-> len r <= len p /\ exists a x b, r = a ++ x :: b /\ forall u w, p = u ++ x :: w -> ~ In x w -> len w < len b)).
Proof. exact C94_l. Qed.
Print Assumptions C94_path_panics_partial.

Example C94_case : exists p q m, pather_of_bext (s! "-a-b-a") = Ok p /\ pather_of_bext (s! "-b") = Ok q /\ path_strip p q = Ok m /\ elements m [s! "a"; s! "a"].
Proof. eexists. eexists. eexists. split; [vm_compute; reflexivity|]. split; [vm_compute; reflexivity|]. split; [vm_compute; reflexivity|]. vm_compute. reflexivity. Qed.

(** The tail of a path in an event is given exactly if the path resolves, to a text beginning with a self-addressing identifier, which is given whole, or to a map or an
   array, of which the JSON is given. It panics exactly if the text does when parsed. *)
Theorem C95_tail :
  forall (path : option value) (bext code raw qb64b qb64 qb2 : option bytes) (self : matter) (s : sadder) (t : bytes),
  pather_new path bext code raw qb64b qb64 qb2 = Ok self ->
  (path_tail self s = Ok t <-> exists w, path_resolve self (d_ked s) = Ok w /\
    (w = VStr t /\ (exists m n, exfil t = Ok m /\ In (m_code m, n) digest_sizes) \/ (exists l, w = VArr l /\ t = to_json w) \/ (exists l, w = VObj l /\ t = to_json w))) /\
  (path_tail self s = Panic <-> exists q, path_resolve self (d_ked s) = Ok (VStr q) /\ exfil q = Panic).
Proof. exact C95_l. Qed.
Print Assumptions C95_tail.

Example C95_case : exists m, pather_of_bext (s! "-a") = Ok m /\ forall c r i k n v sa, path_tail m (Sd c r (VObj [(s! "a", VArr [VInt 1])]) i k n v sa) = Ok (s! "[1]") /\
  is_err (path_tail m (Sd c r (VObj [(s! "a", VInt 1)]) i k n v sa)) = true.
Proof. eexists. split; [vm_compute; reflexivity|]. intros. split; vm_compute; reflexivity. Qed.

(** The text need not be a self-addressing identifier: whatever text follows one is given as well. *)
Theorem C95_tail_is_identifier_refuted :
  exists m s t q, pather_of_bext (s! "-a") = Ok m /\ path_tail m s = Ok t /\ exfil (take 44 t) = Ok q /\ infil q = Ok (take 44 t) /\ drop 44 t = s! "!?".
Proof. exact C95_no_l. Qed.
Print Assumptions C95_tail_is_identifier_refuted.
