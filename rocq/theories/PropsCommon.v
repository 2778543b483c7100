(** Properties C51-C53, C84. Theorem statements only; the proofs are in [CommonThms]. *)
From Coq Require Import String.
From Coq Require Import NArith ZArith QArith Bool List.
From Verif Require Import Base Prims Json Common SpecPrims SpecJson SpecCommon CommonFacts CommonThms BaseFacts.
Import ListNotations.
Open Scope N_scope.

(** Writing a version string and reading it back gives the same protocol, version, kind and size; the text has 17 characters. *)
Theorem C51_version_round_trip :
  forall (proto : bytes) (major minor size : N) (kind : option bytes),
  proto = s! "KERI" \/ proto = s! "ACDC" -> major < 16 -> minor < 16 -> size < 2 ^ 24 -> kind = None \/ kind = Some (s! "JSON") ->
  exists vs, versify (Some proto) (Some (Ver major minor)) kind (Some size) = Ok vs /\ len vs = 17 /\
    version_string vs proto major minor size /\ deversify vs = Ok (Vi proto (s! "JSON") (Ver major minor) size).
Proof. exact C51a_l. Qed.
Print Assumptions C51_version_round_trip.

Example C51_case : versify (Some (s! "ACDC")) (Some (Ver 1 0)) None (Some 291) = Ok (s! "ACDC10JSON000123_").
Proof. vm_compute. reflexivity. Qed.

(** The texts deversify accepts are exactly the version strings, and what it returns is what they state. *)
Theorem C51_only_version_strings_accepted :
  forall (vs : bytes) (i : vinfo),
  deversify vs = Ok i <->
  version_string vs (vi_ident i) (v_major (vi_version i)) (v_minor (vi_version i)) (vi_size i) /\ vi_kind i = s! "JSON".
Proof. exact C51b_l. Qed.
Print Assumptions C51_only_version_strings_accepted.

Example C51_not_accepted : is_err (deversify (s! "xKERI10JSON000123_")) = true /\ is_err (deversify (s! "KERI10JSON000123_KERI10JSON000123_")) = true
  /\ is_err (deversify (s! "KERI10CBOR000123_")) = true /\ is_err (deversify (s! "KERI10JSON00012G_")) = true.
Proof. split; [|split; [|split]]; vm_compute; reflexivity. Qed.

(** For any version numbers and any size, also those that do not fit: if the text written is read back at all, then it is read back as what was
   written. Numbers that do not fit give a text that is not accepted. *)
Theorem C51_no_silent_change :
  forall (proto kind vs : bytes) (major minor size : N) (i : vinfo),
  major <= 255 -> minor <= 255 -> size < 2 ^ 32 ->
  versify (Some proto) (Some (Ver major minor)) (Some kind) (Some size) = Ok vs -> deversify vs = Ok i ->
  i = Vi proto kind (Ver major minor) size.
Proof. exact C51c_l. Qed.
Print Assumptions C51_no_silent_change.

Example C51_does_not_fit : exists vs, versify None (Some (Ver 16 0)) None (Some 5) = Ok vs /\ deversify vs = Err EValidation.
Proof. exists (s! "KERI100JSON000005_"). split; vm_compute; reflexivity. Qed.

(** Sizing can return raw bytes that are not the JSON of the returned data. When an earlier field holds a text that looks like a version string, that
   text is overwritten in the raw bytes, while the data keep it and get the new version string in the field v. *)
Theorem C52_sizing_refuted :
  exists ked z, data ked /\ sizeify ked None = Ok z /\ z_raw z <> to_json (z_ked z) /\
  index_str (z_ked z) (s! "d") = Ok (VStr (s! "KERI10JSON000000_")) /\ index_str ked (s! "d") = Ok (VStr (s! "KERI10JSON000000_")) /\
  z_raw z = s! "{""d"":""KERI10JSON000031_"",""v"":""KERI10JSON000000_""}".
Proof. exact C52_no_l. Qed.
Print Assumptions C52_sizing_refuted.

(** Sizing an event of exactly 2^32 bytes succeeds and writes the size 0 into its version string: the length is cut to 32 bits before it is checked. *)
Theorem C52_huge_event_refuted :
  exists ked z vs, data ked /\ sizeify ked None = Ok z /\ len (z_raw z) = 2 ^ 32 /\
  index_str (z_ked z) (s! "v") = Ok (VStr vs) /\ version_string vs (s! "KERI") 1 0 0.
Proof. exact C52_huge_l. Qed.
Print Assumptions C52_huge_event_refuted.

(** When nothing before the field v looks like a version string and the event is shorter than 2^32 bytes, sizing returns the JSON of the returned data;
   these are the given data with only the version string replaced, and that states the protocol given, version 1.0 and the length of the raw bytes.
   What is missing: the two cases of the refutations. *)
Theorem C52_sizing_partial :
  forall (m1 m2 : list (bytes * value)) (vs : bytes) (kind : option bytes) (z : sized),
  ~ In (s! "v") (map fst m1) -> no_version_in (to_json (VObj m1)) ->
  sizeify (VObj (m1 ++ (s! "v", VStr vs) :: m2)) kind = Ok z -> len (z_raw z) < 2 ^ 32 ->
  z_raw z = to_json (z_ked z) /\ z_kind z = s! "JSON" /\ z_version z = Ver 1 0 /\
  (exists n, version_string vs (z_ident z) 1 0 n) /\
  exists vs', z_ked z = VObj (m1 ++ (s! "v", VStr vs') :: m2) /\ version_string vs' (z_ident z) 1 0 (len (z_raw z)).
Proof. exact C52_l. Qed.
Print Assumptions C52_sizing_partial.

Example C52_case : exists z, sizeify (VObj [(s! "v", VStr (s! "KERI10JSON000000_")); (s! "d", VStr (s! "x"))]) None = Ok z /\
  no_version_in (to_json (VObj [])) /\ z_raw z = s! "{""v"":""KERI10JSON000021_"",""d"":""x""}".
Proof.
  eexists. split; [vm_compute; reflexivity|]. split; [|vm_compute; reflexivity].
  apply no_version_find. vm_compute. reflexivity.
Qed.

(** When nothing before the field v looks like a version string (in particular when v is the first field), the outcome of sizing does not depend on the
   size written in the incoming version string. *)
Theorem C53_sizing_ignores_old_size :
  forall (m1 m2 : list (bytes * value)) (vs vs' proto : bytes) (major minor n n' : N) (kind : option bytes),
  ~ In (s! "v") (map fst m1) -> no_version_in (to_json (VObj m1)) ->
  version_string vs proto major minor n -> version_string vs' proto major minor n' ->
  sizeify (VObj (m1 ++ (s! "v", VStr vs) :: m2)) kind = sizeify (VObj (m1 ++ (s! "v", VStr vs') :: m2)) kind.
Proof. exact C53a_l. Qed.
Print Assumptions C53_sizing_ignores_old_size.

Example C53_case : version_string (s! "KERI10JSON000000_") (s! "KERI") 1 0 0 /\ version_string (s! "KERI10JSON000fff_") (s! "KERI") 1 0 4095.
Proof.
  split; (split; [now left|]).
  - exists (s! "1"), (s! "0"), (s! "000000"). repeat split; intros c H; cbn in H; intuition (subst; vm_compute; tauto).
  - exists (s! "1"), (s! "0"), (s! "000fff"). repeat split; intros c H; cbn in H; intuition (subst; vm_compute; tauto).
Qed.

(** Sizing the data returned by sizing changes nothing. *)
Theorem C53_sizing_idempotent :
  forall (m1 m2 : list (bytes * value)) (vs : bytes) (kind : option bytes) (z : sized),
  ~ In (s! "v") (map fst m1) -> no_version_in (to_json (VObj m1)) ->
  sizeify (VObj (m1 ++ (s! "v", VStr vs) :: m2)) kind = Ok z -> sizeify (z_ked z) kind = Ok z.
Proof. exact C53b_l. Qed.
Print Assumptions C53_sizing_idempotent.

(** An event whose first field is v and whose JSON has fewer than 2^32 bytes is sized exactly when v holds a version string of version 1.0 and the JSON
   has fewer than 2^24 bytes; otherwise sizing is an error, never a panic. *)
Theorem C84_sizing_accepts :
  forall (vs : bytes) (m : list (bytes * value)),
  data (VObj ((s! "v", VStr vs) :: m)) -> len (to_json (VObj ((s! "v", VStr vs) :: m))) < 2 ^ 32 ->
  ((exists z, sizeify (VObj ((s! "v", VStr vs) :: m)) None = Ok z) <->
   (exists proto n, version_string vs proto 1 0 n) /\ len (to_json (VObj ((s! "v", VStr vs) :: m))) < 2 ^ 24) /\
  sizeify (VObj ((s! "v", VStr vs) :: m)) None <> Panic.
Proof. exact C84_l. Qed.
Print Assumptions C84_sizing_accepts.

Example C84_case : data (VObj ((s! "v", VStr (s! "KERI10JSON000000_")) :: [(s! "t", VStr (s! "icp"))])) /\
  is_err (sizeify (VObj [(s! "v", VStr (s! "KERI11JSON000000_"))]) None) = true.
Proof. split; [|vm_compute; reflexivity]. apply data_obj; [repeat constructor; cbn; intuition discriminate|repeat constructor|repeat constructor]. Qed.
