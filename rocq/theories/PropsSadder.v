(** Properties C54-C57, C87, C88. Theorem statements only; the proofs are in [SadderThms]. *)
From Coq Require Import String.
From Coq Require Import NArith ZArith QArith Bool List.
From Verif Require Import Base Tables Matter Prims Json Common Saider Diger Tholder Sadder Spec SpecPrims SpecJson SpecCommon SpecSaider SpecSadder SadderFacts SadderThms BaseFacts.
Import ListNotations.
Open Scope N_scope.

(** An event read from bytes keeps exactly the announced number of them; its data are what those bytes parse to; and reading those bytes again, followed by any
   text whatever (also text holding other version strings), gives the same event. *)
Theorem C87_reading_is_local :
  forall (new : constructor) (canon : bytes -> option bytes) (code kind kind' : option bytes) (raw c : bytes) (ked ked' : option value) (sad sad' : option sadder) (s : sadder),
  In new constructors -> new canon code (Some raw) kind ked sad = Ok s ->
  d_size s <= len raw /\ d_raw s = take (d_size s) raw /\ value_of_text canon (d_raw s) = Ok (d_ked s) /\ announces raw (d_ident s) (d_size s) /\
  (utf8 c = true -> new canon code (Some (d_raw s ++ c)) kind' ked' sad' = Ok s).
Proof. exact C87_l. Qed.
Print Assumptions C87_reading_is_local.

Example C87_case : exists s, serder_new (fun _ => None) None (Some (s! "{""v"":""KERI10JSON00004c_"",""d"":""EAAAAAAAAAAAAAAAAAAAAAAAAAAAAAAAAAAAAAAAAAAA""}-AABKERI10JSON000fff_")) None None None = Ok s /\
  d_size s = 76 /\ d_ked s = VObj [(s! "v", VStr (s! "KERI10JSON00004c_")); (s! "d", VStr (s! "EAAAAAAAAAAAAAAAAAAAAAAAAAAAAAAAAAAAAAAAAAAA"))].
Proof. eexists. split; [vm_compute; reflexivity|]. split; reflexivity. Qed.

(** False as stated: when a field before v is named like a version string, serialising rewrites that name instead of v, and the event read back differs. *)
Theorem C54_round_trip_refuted :
  exists ked s s', data ked /\ float_free ked /\
  serder_new (fun _ => None) None None None (Some ked) None = Ok s /\
  serder_new (fun _ => None) None (Some (d_raw s)) None None None = Ok s' /\ d_ked s' <> d_ked s.
Proof. exact C54_no_l. Qed.
Print Assumptions C54_round_trip_refuted.

(** What holds: an event built from data without floats, nested at most 127 deep, in which no text before v looks like a version string, and whose serialisation is
   shorter than 2^32 bytes, is read back identically (data, raw, size, kind, version, protocol and SAID) from its raw bytes followed by any text; and the raw bytes
   are the JSON text of its data. Missing: version-like names before v, deeper nesting, floats. *)
Theorem C54_round_trip_partial :
  forall (new : constructor) (canon : bytes -> option bytes) (code kind kind' : option bytes) (m1 m2 : list (bytes * value)) (vs c : bytes) (ked' : option value)
    (sad sad' : option sadder) (s : sadder),
  In new constructors -> ~ In (s! "v") (map fst m1) -> no_version_in (to_json (VObj m1)) ->
  data (VObj (m1 ++ (s! "v", VStr vs) :: m2)) -> nests 127 (VObj (m1 ++ (s! "v", VStr vs) :: m2)) ->
  new canon code None kind (Some (VObj (m1 ++ (s! "v", VStr vs) :: m2))) sad = Ok s -> len (d_raw s) < 2 ^ 32 -> utf8 c = true ->
  new canon code (Some (d_raw s ++ c)) kind' ked' sad' = Ok s /\ d_raw s = to_json (d_ked s) /\ d_size s = len (d_raw s).
Proof. exact C54_l. Qed.
Print Assumptions C54_round_trip_partial.

Example C54_case : exists s, serder_new (fun _ => None) None None None
    (Some (VObj [(s! "v", VStr (s! "KERI10JSON000000_")); (s! "d", VStr (s! "EAAAAAAAAAAAAAAAAAAAAAAAAAAAAAAAAAAAAAAAAAAA")); (s! "s", VStr (s! "0"))])) None = Ok s /\
  d_size s = 84 /\ d_raw s = s! "{""v"":""KERI10JSON000054_"",""d"":""EAAAAAAAAAAAAAAAAAAAAAAAAAAAAAAAAAAAAAAAAAAA"",""s"":""0""}".
Proof. eexists. split; [vm_compute; reflexivity|]. split; reflexivity. Qed.

(** Data whose first field v is a version 1.0 string of the right protocol, whose field d is a digest text of the expected code, and whose text is below 2^24 bytes,
   build an event; only the size in v changes. *)
Theorem C54_events_are_built :
  forall (canon : bytes -> option bytes) (code : option bytes) (vs t proto : bytes) (size : N) (m : list (bytes * value)) (d : matter),
  data (VObj ((s! "v", VStr vs) :: m)) -> version_string vs proto 1 0 size -> len (to_json (VObj ((s! "v", VStr vs) :: m))) < 2 ^ 24 ->
  field_of (VObj m) (s! "d") (VStr t) -> exfil t = Ok d -> m_code d = or_else code (s! "E") -> In (m_code d) (map fst digest_sizes) ->
  exists s vs', (proto = s! "KERI" -> serder_new canon code None None (Some (VObj ((s! "v", VStr vs) :: m))) None = Ok s) /\
    (proto = s! "ACDC" -> creder_new canon code None None (Some (VObj ((s! "v", VStr vs) :: m))) None = Ok s) /\
    d_ked s = VObj ((s! "v", VStr vs') :: m) /\ version_string vs' proto 1 0 (len (d_raw s)) /\ d_saider s = d /\ d_ident s = proto /\ d_version s = Ver 1 0.
Proof. exact C54_built_l. Qed.
Print Assumptions C54_events_are_built.

Example C54_built_case : version_string (s! "KERI10JSON000000_") (s! "KERI") 1 0 0 /\
  exfil (s! "EAAAAAAAAAAAAAAAAAAAAAAAAAAAAAAAAAAAAAAAAAAA") = Ok (Mt (s! "E") 0 (zeros 32)).
Proof.
  split; [|vm_compute; reflexivity]. split; [now left|].
  exists (s! "1"), (s! "0"), (s! "000000"). repeat split; intros c H; cbn in H; intuition (subst; vm_compute; tauto).
Qed.

(** False as stated: bytes announcing more bytes than there are, and an event without a field d, make the constructor panic. *)
Theorem C55_reading_events_panics_refuted :
  exists truncated bare, utf8 truncated = true /\ utf8 bare = true /\
  forall new, In new constructors -> new (fun _ => None) None (Some truncated) None None None = Panic /\ new (fun _ => None) None (Some bare) None None None = Panic.
Proof. exact C55_no_l. Qed.
Print Assumptions C55_reading_events_panics_refuted.

(** What holds: exactly when the constructor panics. Either more bytes are announced than given; or the announced bytes hold a number the loader cannot represent
   (value_of_text panics, see C81); or they are a value without field d; or the text in d makes parsing a primitive panic. In every other case the result is an
   event or an error. *)
Theorem C55_reading_events_panics_partial :
  forall (new : constructor) (canon : bytes -> option bytes) (code kind : option bytes) (raw : bytes) (ked : option value) (sad : option sadder),
  In new constructors ->
  (new canon code (Some raw) kind ked sad = Panic <->
   exists proto n, announces raw proto n /\
     (len raw < n \/
      n <= len raw /\ utf8 (take n raw) = true /\
      (value_of_text canon (take n raw) = Panic \/
       exists v, value_of_text canon (take n raw) = Ok v /\
         (lacks v (s! "d") \/ exists t, field_of v (s! "d") (VStr t) /\ exfil t = Panic)))).
Proof. exact C55_l. Qed.
Print Assumptions C55_reading_events_panics_partial.

Example C55_case : announces (s! "{""v"":""KERI10JSON000fff_"",""a"":1}") (s! "KERI") 4095.
Proof. apply announces_sniff. vm_compute. reflexivity. Qed.

(** False as stated: cutting an event makes the constructor panic rather than return an error. *)
Theorem C56_truncation_refuted :
  exists raw s, serder_new (fun _ => None) None (Some raw) None None None = Ok s /\ d_raw s = raw /\
  serder_new (fun _ => None) None (Some (take 75 raw)) None None None = Panic /\ len raw = 76.
Proof. exact C56_no_l. Qed.
Print Assumptions C56_truncation_refuted.

(** What holds: a truncated event is never accepted. The result is an error when fewer than 29 bytes are left or the cut is inside a character, and a panic
   otherwise. *)
Theorem C56_truncation_partial :
  forall (new : constructor) (canon : bytes -> option bytes) (code kind kind' : option bytes) (raw : bytes) (ked ked' : option value) (sad sad' : option sadder) (s : sadder) (k : N),
  In new constructors -> new canon code (Some raw) kind ked sad = Ok s -> k < len (d_raw s) ->
  is_ok (new canon code (Some (take k (d_raw s))) kind' ked' sad') = false /\
  (new canon code (Some (take k (d_raw s))) kind' ked' sad' = Panic <-> 29 <= k /\ utf8 (take k (d_raw s)) = true).
Proof. exact C56_l. Qed.
Print Assumptions C56_truncation_partial.

Example C56_case : exists s, serder_new (fun _ => None) None (Some (s! "{""v"":""KERI10JSON00004c_"",""d"":""EAAAAAAAAAAAAAAAAAAAAAAAAAAAAAAAAAAAAAAAAAAA""}")) None None None = Ok s /\
  is_err (serder_new (fun _ => None) None (Some (take 28 (d_raw s))) None None None) = true.
Proof. eexists. split; [vm_compute; reflexivity|]. vm_compute. reflexivity. Qed.

(** False as stated: for every collision-free digest some event is accepted although the text in its field d is not the digest of its content. *)
Theorem C57_said_is_checked_refuted :
  forall (hash : bytes -> bytes -> bytes),
  sized_hash hash -> ~ collision hash (s! "E") ->
  exists raw s, serder_new (fun _ => None) None (Some raw) None None None = Ok s /\ data (d_ked s) /\
    said_verify hash (d_saider s) (d_ked s) None None None None [] <> Ok true.
Proof. exact C57_no_l. Qed.
Print Assumptions C57_said_is_checked_refuted.

(** What holds: an accepted event has in its field d a text that parses to its SAID, a digest of the expected code. Missing: that this digest is that of the content
   (Saider.verify, C59 and C85, does check it). *)
Theorem C57_said_is_checked_partial :
  forall (new : constructor) (canon : bytes -> option bytes) (code raw kind : option bytes) (ked : option value) (s : sadder),
  In new constructors -> new canon code raw kind ked None = Ok s ->
  exists t, field_of (d_ked s) (s! "d") (VStr t) /\ exfil t = Ok (d_saider s) /\ m_code (d_saider s) = or_else code (s! "E") /\
    In (m_code (d_saider s)) (map fst digest_sizes).
Proof. exact C57_l. Qed.
Print Assumptions C57_said_is_checked_partial.

Example C57_case : exists s, serder_new (fun _ => None) None None None
    (Some (VObj [(s! "v", VStr (s! "KERI10JSON000000_")); (s! "d", VStr (s! "EAAAAAAAAAAAAAAAAAAAAAAAAAAAAAAAAAAAAAAAAAAA"))])) None = Ok s /\ m_code (d_saider s) = s! "E".
Proof. eexists. split; [vm_compute; reflexivity|]. reflexivity. Qed.

(** The keys, next-key digests and witnesses of an event are exactly the primitives whose texts are listed in its fields k, n and b, in order, each of the right
   kind. A missing field counts as an empty list; so does, for keys and digests but not for witnesses, a field that is no array. *)
Theorem C88_key_lists :
  forall (s : sadder) (l : list matter),
  (exists m, d_ked s = VObj m) ->
  (serder_verfers s = Ok l <->
     (exists ts, field_of (d_ked s) (s! "k") (VArr ts) /\ texts_of [s! "B"; s! "D"; s! "1AAA"; s! "1AAB"; s! "1AAI"; s! "1AAJ"] ts l) \/
     (forall ts, ~ field_of (d_ked s) (s! "k") (VArr ts)) /\ l = []) /\
  (serder_digers s = Ok l <->
     (exists ts, field_of (d_ked s) (s! "n") (VArr ts) /\ texts_of (map fst digest_sizes) ts l) \/
     (forall ts, ~ field_of (d_ked s) (s! "n") (VArr ts)) /\ l = []) /\
  (serder_werfers s = Ok l <->
     (exists ts, field_of (d_ked s) (s! "b") (VArr ts) /\ texts_of [s! "B"; s! "D"; s! "1AAA"; s! "1AAB"; s! "1AAI"; s! "1AAJ"] ts l) \/
     lacks (d_ked s) (s! "b") /\ l = []).
Proof. exact C88_l. Qed.
Print Assumptions C88_key_lists.

Example C88_case : exists s, serder_new (fun _ => None) None None None
    (Some (VObj [(s! "v", VStr (s! "KERI10JSON000000_")); (s! "d", VStr (s! "EAAAAAAAAAAAAAAAAAAAAAAAAAAAAAAAAAAAAAAAAAAA"));
                 (s! "k", VArr [VStr (s! "DAAAAAAAAAAAAAAAAAAAAAAAAAAAAAAAAAAAAAAAAAAA"); VStr (s! "BAAAAAAAAAAAAAAAAAAAAAAAAAAAAAAAAAAAAAAAAAAA")])])) None = Ok s /\
  serder_verfers s = Ok [Mt (s! "D") 0 (zeros 32); Mt (s! "B") 0 (zeros 32)] /\ serder_digers s = Ok [].
Proof. eexists. split; [vm_compute; reflexivity|]. split; vm_compute; reflexivity. Qed.

(** The sequence number of an event is the number its field s denotes in hexadecimal; an empty text counts as zero; anything else is an error. The identifier is the
   text of field i, and the event is an establishment event exactly when field t is icp, rot, dip or drt. *)
Theorem C88_sequence_number :
  forall (s : sadder) (n : N) (t : bytes) (b : bool),
  (field_of (d_ked s) (s! "s") (VStr t) -> t <> [] -> (serder_sn s = Ok n <-> hex_reading t n /\ n < 2 ^ 128)) /\
  (field_of (d_ked s) (s! "s") (VStr []) -> serder_sn s = Ok 0) /\
  (field_of (d_ked s) (s! "i") (VStr t) -> serder_pre s = Ok t) /\
  (field_of (d_ked s) (s! "t") (VStr t) -> (serder_est s = Ok b <-> (b = true <-> In t [s! "icp"; s! "rot"; s! "dip"; s! "drt"]))).
Proof. exact C88_sn_l. Qed.
Print Assumptions C88_sequence_number.

Example C88_sn_case : exists s, serder_new (fun _ => None) None None None
    (Some (VObj [(s! "v", VStr (s! "KERI10JSON000000_")); (s! "t", VStr (s! "rot")); (s! "d", VStr (s! "EAAAAAAAAAAAAAAAAAAAAAAAAAAAAAAAAAAAAAAAAAAA")); (s! "s", VStr (s! "1f"))])) None = Ok s /\
  serder_sn s = Ok 31 /\ serder_est s = Ok true.
Proof. eexists. split; [vm_compute; reflexivity|]. split; vm_compute; reflexivity. Qed.
