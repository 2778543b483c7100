(** Proofs of the properties of events and credentials. *)
From Coq Require Import String.
From Coq Require Import NArith ZArith Lia Bool List.
From Verif Require Import Base BaseFacts Tables Matter MatterFacts MatterText MatterMore MatterThms Prims PrimsFacts PrimsThms Json JsonFacts JsonThms Common CommonFacts CommonThms
  Saider SaiderFacts SaiderThms Diger Tholder Sadder SadderFacts Spec SpecPrims SpecJson SpecCommon SpecSaider SpecSadder.
Import ListNotations.
Open Scope N_scope.

(** The two event constructors are the common one followed by a check of the protocol. *)
Lemma gated new : In new constructors -> exists ok : bytes -> option err, forall canon code raw kind ked sad,
  new canon code raw kind ked sad =
  match sadder_new canon code raw kind ked sad with
  | Ok s => match ok (d_ident s) with None => Ok s | Some e => Err e end
  | Err e => Err e
  | Panic => Panic
  end.
Proof.
  intros [<-|[<-|[<-|[]]]].
  - exists (fun _ => None). intros. destruct (sadder_new _ _ _ _ _ _); reflexivity.
  - exists (fun i => if negb (beq i (s! "KERI")) then Some EValidation else None). intros. unfold serder_new.
    change (sadder_new canon (Some (or_else code (s! "E"))) raw kind ked sad) with (sadder_new canon code raw kind ked sad). destruct (sadder_new _ _ _ _ _ _) as [s| |]; try reflexivity. rewrite bind_Ok.
    destruct (negb _); reflexivity.
  - exists (fun i => if negb (beq i (s! "ACDC")) then Some EValue else None). intros. unfold creder_new.
    change (sadder_new canon (Some (or_else code (s! "E"))) raw kind ked sad) with (sadder_new canon code raw kind ked sad). destruct (sadder_new _ _ _ _ _ _) as [s| |]; try reflexivity. rewrite bind_Ok.
    destruct (negb _); reflexivity.
Qed.
Lemma new_raw canon code raw kind ked sad : sadder_new canon code (Some raw) kind ked sad = populate_from_raw canon (or_else code (s! "E")) raw.
Proof. reflexivity. Qed.
Lemma new_ked canon code kind ked sad : sadder_new canon code None kind (Some ked) sad = populate_from_ked (or_else code (s! "E")) ked kind.
Proof. reflexivity. Qed.

(** ** Reading is determined by the announced bytes *)
Lemma read_again canon code raw s c : populate_from_raw canon code raw = Ok s -> utf8 c = true -> populate_from_raw canon code (d_raw s ++ c) = Ok s.
Proof.
  intros H C. destruct (raw_size _ _ _ _ H) as (S44 & _). destruct (raw_ok _ _ _ _ H) as (proto & n & t & sa & A & N & U & V & F & SA & CO & E).
  rewrite E in *. cbn [d_size d_raw d_ked] in *. assert (len (take n raw) = n) as L by (rewrite len_take; lia).
  pose proof (announces_own raw proto n c A N ltac:(lia) U C) as A'.
  rewrite (raw_intro canon code (take n raw ++ c) (d_ked s) proto n t sa); auto; rewrite ?len_app, ?take_app_exact; auto; lia.
Qed.

(*# C87_reading_is_local
   An event read from bytes keeps exactly the announced number of them; its data are what those bytes parse to; and reading those bytes again, followed by any
   text whatever (also text holding other version strings), gives the same event.
##
Example C87_case : exists s, serder_new (fun _ => None) None (Some (s! "{""v"":""KERI10JSON00004c_"",""d"":""EAAAAAAAAAAAAAAAAAAAAAAAAAAAAAAAAAAAAAAAAAAA""}-AABKERI10JSON000fff_")) None None None = Ok s /\
  d_size s = 76 /\ d_ked s = VObj [(s! "v", VStr (s! "KERI10JSON00004c_")); (s! "d", VStr (s! "EAAAAAAAAAAAAAAAAAAAAAAAAAAAAAAAAAAAAAAAAAAA"))].
Proof. eexists. split; [vm_compute; reflexivity|]. split; reflexivity. Qed.
#*)
Lemma C87_l (new : constructor) (canon : bytes -> option bytes) (code kind kind' : option bytes) (raw c : bytes) (ked ked' : option value) (sad sad' : option sadder) (s : sadder) :
  In new constructors -> new canon code (Some raw) kind ked sad = Ok s ->
  d_size s <= len raw /\ d_raw s = take (d_size s) raw /\ value_of_text canon (d_raw s) = Ok (d_ked s) /\ announces raw (d_ident s) (d_size s) /\
  (utf8 c = true -> new canon code (Some (d_raw s ++ c)) kind' ked' sad' = Ok s).
Proof.
  intros I H. destruct (gated new I) as (ok & G). rewrite G, new_raw in *. destruct (populate_from_raw _ _ _) as [s'| |] eqn:P; [|discriminate|discriminate].
  destruct (ok (d_ident s')) eqn:O; [discriminate|]. injection H as ->. destruct (raw_size _ _ _ _ P) as (_ & S1 & S2).
  destruct (raw_ok _ _ _ _ P) as (proto & n & t & sa & A & N & U & V & F & SA & CO & E). split; auto. split; auto.
  assert (d_raw s = take n raw /\ d_ident s = proto /\ d_size s = n) as (T1 & T2 & T3) by (rewrite E; auto).
  split; [now rewrite T1|]. split; [now rewrite T2, T3|]. intros C. now rewrite (read_again _ _ _ _ _ P C), O.
Qed.

(** ** Events survive serialisation *)
Lemma ked_ok code ked kind s : populate_from_ked code ked kind = Ok s -> exists z t sa, sizeify ked kind = Ok z /\ field_of (z_ked z) (s! "d") (VStr t) /\ said_of_qb64 t = Ok sa /\
  m_code sa = code /\ s = Sd code (z_raw z) (z_ked z) (z_ident z) (z_kind z) (as_u32 (len (z_raw z))) (z_version z) sa.
Proof.
  unfold populate_from_ked. intros H. apply bind_ok in H as (z & Z & H). apply bind_ok in H as (d & D & H). apply index_field in D.
  apply bind_ok in H as (q & Q & H). destruct d; try discriminate. injection Q as ->. apply bind_ok in H as (sa & SA & H). destruct (beq code (m_code sa)) eqn:C; [|discriminate].
  cbn [negb] in H. apply beq_eq in C. injection H as <-. exists z, q, sa. auto.
Qed.
Lemma nests_insert n k t m : nests (S n) (VObj m) -> nests (S n) (VObj (insert k (VStr t) m)).
Proof.
  intros H. inversion H; subst. constructor. rewrite Forall_forall in *. intros x X. apply in_map_iff in X as ((a & b) & <- & X). apply insert_in in X as [(_ & ->)|X]; [constructor|].
  match goal with F : forall x, In x (map snd m) -> _ |- _ => apply F end. apply in_map_iff. exists (a, b). auto.
Qed.
Lemma vinfo_string vs p a b n : version_string vs p a b n -> vinfo_of vs = Vi p (s! "JSON") (Ver a b) n /\ has_code serials (g_kind vs) = true.
Proof.
  intros V. destruct (version_string_rever _ _ _ _ _ V) as (L & M). assert (deversify vs = Ok (Vi p (s! "JSON") (Ver a b) n)) as D by (apply deversify_ok; split; auto).
  rewrite deversify_match in D by auto. destruct (negb (has_code idents _)); [discriminate|]. destruct (has_code serials (g_kind vs)) eqn:K; [|discriminate]. cbn [negb] in D.
  injection D as D1 D2 D3 D4 D5. split; auto. unfold vinfo_of. congruence.
Qed.
Lemma sizeify_fore m1 vs m2 kind z : ~ In (s! "v") (map fst m1) -> find_rever (to_json (VObj m1)) = None -> sizeify (VObj (m1 ++ (s! "v", VStr vs) :: m2)) kind = Ok z ->
  len (fore m1 (s! "v")) <= 12.
Proof.
  intros N F H. destruct (sizeify_shape _ _ _ H) as (n1 & vs2 & n2 & proto & n & E & N' & V). assert (vs2 = vs) as ->.
  { injection E as E. apply (f_equal (assoc (s! "v"))) in E. rewrite !assoc_at in E by auto. injection E as E. auto. }
  rewrite (sizeify_spec _ _ _ _ _ _ _ _ N F V) in H. cbn [N.eqb Pos.eqb andb negb] in H.
  destruct (knd kind); [|discriminate]. cbn [negb] in H. destruct (utf8 _ && _); [|discriminate]. cbn [negb] in H.
  destruct (12 <? _) eqn:L; [discriminate|]. now apply N.ltb_ge in L.
Qed.
Lemma read_built canon code m1 vs m2 kind s c : ~ In (s! "v") (map fst m1) -> no_version_in (to_json (VObj m1)) ->
  data (VObj (m1 ++ (s! "v", VStr vs) :: m2)) -> nests 127 (VObj (m1 ++ (s! "v", VStr vs) :: m2)) ->
  populate_from_ked code (VObj (m1 ++ (s! "v", VStr vs) :: m2)) kind = Ok s -> len (d_raw s) < 2 ^ 32 -> utf8 c = true ->
  populate_from_raw canon code (d_raw s ++ c) = Ok s /\ d_raw s = to_json (d_ked s) /\ d_size s = len (d_raw s).
Proof.
  intros N F D NE H L C. destruct (ked_ok _ _ _ _ H) as (z & t & sa & Z & FD & SA & CO & E). assert (d_raw s = z_raw z) as RZ by now rewrite E. rewrite RZ in *.
  destruct (C52_l _ _ _ _ _ N F Z L) as (RJ & KJ & VJ & _ & vs' & KE & VS). pose proof F as F'. apply no_version_find in F'. pose proof (sizeify_fore _ _ _ _ _ N F' Z) as L12.
  destruct (version_string_plain _ _ _ _ _ VS) as (PL & AS). destruct (version_string_rever _ _ _ _ _ VS) as (L17 & RV).
  pose proof (insert_at (s! "v") (VStr vs) (VStr vs') m1 m2 N) as IA.
  assert (data (z_ked z)) as DZ. { rewrite KE, <- IA. apply data_insert; auto. apply data_str. now apply utf8_ascii. }
  assert (nests 127 (z_ked z)) as NZ. { rewrite KE, <- IA. now apply nests_insert. }
  pose proof (C49_l canon _ DZ NZ) as VT. rewrite <- RJ in VT.
  assert (utf8 (z_raw z) = true) as UZ. { rewrite RJ. apply utf8_to_json, data_wfv, DZ. }
  assert (as_u32 (len (z_raw z)) = len (z_raw z)) as A32. { unfold as_u32. apply N.mod_small. exact L. }
  assert (announces (z_raw z) (z_ident z) (len (z_raw z))) as AN.
  { apply announces_sniff. pose proof (said_len _ _ SA) as S44. pose proof (text_obj _ _ _ _ _ VT FD) as TL.
    assert (z_raw z = fore m1 (s! "v") ++ vs' ++ back m2) as ER. { rewrite RJ, KE. now apply to_json_str. }
    destruct (vinfo_string _ _ _ _ _ VS) as (VI & KI). rewrite ER at 1. rewrite sniff_at; auto.
    - rewrite KI, VI. replace (12 <? len (fore m1 (s! "v"))) with false by (symmetry; now apply N.ltb_ge). reflexivity.
    - now apply (find_rever_vs m1 vs' (vs' ++ back m2) (back m2)).
    - rewrite <- ER. lia.
    - now rewrite <- ER. }
  split; [|split; [now rewrite E|rewrite E; cbn [d_size]; exact A32]].
  assert (44 <= len (z_raw z)) as S44. { pose proof (said_len _ _ SA). pose proof (text_obj _ _ _ _ _ VT FD). lia. }
  assert (take (len (z_raw z)) (z_raw z) = z_raw z) as TA by (apply take_all; lia).
  pose proof (announces_own _ _ _ c AN ltac:(lia) ltac:(lia)) as AO. rewrite TA in AO.
  rewrite (raw_intro canon code _ (z_ked z) (z_ident z) (len (z_raw z)) t sa); auto; rewrite ?len_app, ?take_app_exact; auto; try lia.
  rewrite E, KJ, VJ, A32. reflexivity.
Qed.

(*# C54_round_trip_refuted
   False as stated: when a field before v is named like a version string, serialising rewrites that name instead of v, and the event read back differs.
#*)
Lemma C54_no_l : exists ked s s', data ked /\ float_free ked /\
  serder_new (fun _ => None) None None None (Some ked) None = Ok s /\
  serder_new (fun _ => None) None (Some (d_raw s)) None None None = Ok s' /\ d_ked s' <> d_ked s.
Proof.
  pose (ked := VObj [(s! "KERI10JSON000000_", VInt 1); (s! "v", VStr (s! "KERI10JSON000000_")); (s! "d", VStr (s! "EAAAAAAAAAAAAAAAAAAAAAAAAAAAAAAAAAAAAAAAAAAA"))]).
  exists ked. eexists. eexists. split; [|split; [|split; [vm_compute; reflexivity|split; [vm_compute; reflexivity|discriminate]]]].
  - apply data_obj; [|repeat constructor..]; try (vm_compute; congruence). repeat constructor; cbn; intuition discriminate.
  - repeat constructor.
Qed.

(*# C54_round_trip_partial
   What holds: an event built from data without floats, nested at most 127 deep, in which no text before v looks like a version string, and whose serialisation is
   shorter than 2^32 bytes, is read back identically (data, raw, size, kind, version, protocol and SAID) from its raw bytes followed by any text; and the raw bytes
   are the JSON text of its data. Missing: version-like names before v, deeper nesting, floats.
##
Example C54_case : exists s, serder_new (fun _ => None) None None None
    (Some (VObj [(s! "v", VStr (s! "KERI10JSON000000_")); (s! "d", VStr (s! "EAAAAAAAAAAAAAAAAAAAAAAAAAAAAAAAAAAAAAAAAAAA")); (s! "s", VStr (s! "0"))])) None = Ok s /\
  d_size s = 84 /\ d_raw s = s! "{""v"":""KERI10JSON000054_"",""d"":""EAAAAAAAAAAAAAAAAAAAAAAAAAAAAAAAAAAAAAAAAAAA"",""s"":""0""}".
Proof. eexists. split; [vm_compute; reflexivity|]. split; reflexivity. Qed.
#*)
Lemma C54_l (new : constructor) (canon : bytes -> option bytes) (code kind kind' : option bytes) (m1 m2 : list (bytes * value)) (vs c : bytes) (ked' : option value)
    (sad sad' : option sadder) (s : sadder) :
  In new constructors -> ~ In (s! "v") (map fst m1) -> no_version_in (to_json (VObj m1)) ->
  data (VObj (m1 ++ (s! "v", VStr vs) :: m2)) -> nests 127 (VObj (m1 ++ (s! "v", VStr vs) :: m2)) ->
  new canon code None kind (Some (VObj (m1 ++ (s! "v", VStr vs) :: m2))) sad = Ok s -> len (d_raw s) < 2 ^ 32 -> utf8 c = true ->
  new canon code (Some (d_raw s ++ c)) kind' ked' sad' = Ok s /\ d_raw s = to_json (d_ked s) /\ d_size s = len (d_raw s).
Proof.
  intros I N F D NE H L C. destruct (gated new I) as (ok & G). rewrite G, new_raw in *. rewrite new_ked in H. destruct (populate_from_ked _ _ _) as [s'| |] eqn:P; [|discriminate|discriminate].
  destruct (ok (d_ident s')) eqn:O; [discriminate|]. injection H as ->.
  destruct (read_built canon _ _ _ _ _ _ _ N F D NE P L C) as (R & R'). rewrite R, O. auto.
Qed.

(*# C54_events_are_built
   Data whose first field v is a version 1.0 string of the right protocol, whose field d is a digest text of the expected code, and whose text is below 2^24 bytes,
   build an event; only the size in v changes.
##
Example C54_built_case : version_string (s! "KERI10JSON000000_") (s! "KERI") 1 0 0 /\
  exfil (s! "EAAAAAAAAAAAAAAAAAAAAAAAAAAAAAAAAAAAAAAAAAAA") = Ok (Mt (s! "E") 0 (zeros 32)).
Proof.
  split; [|vm_compute; reflexivity]. split; [now left|].
  exists (s! "1"), (s! "0"), (s! "000000"). repeat split; intros c H; cbn in H; intuition (subst; vm_compute; tauto).
Qed.
#*)
Lemma C54_built_l (canon : bytes -> option bytes) (code : option bytes) (vs t proto : bytes) (size : N) (m : list (bytes * value)) (d : matter) :
  data (VObj ((s! "v", VStr vs) :: m)) -> version_string vs proto 1 0 size -> len (to_json (VObj ((s! "v", VStr vs) :: m))) < 2 ^ 24 ->
  field_of (VObj m) (s! "d") (VStr t) -> exfil t = Ok d -> m_code d = or_else code (s! "E") -> In (m_code d) (map fst digest_sizes) ->
  exists s vs', (proto = s! "KERI" -> serder_new canon code None None (Some (VObj ((s! "v", VStr vs) :: m))) None = Ok s) /\
    (proto = s! "ACDC" -> creder_new canon code None None (Some (VObj ((s! "v", VStr vs) :: m))) None = Ok s) /\
    d_ked s = VObj ((s! "v", VStr vs') :: m) /\ version_string vs' proto 1 0 (len (d_raw s)) /\ d_saider s = d /\ d_ident s = proto /\ d_version s = Ver 1 0.
Proof.
  intros D V L F E C I.
  assert (len (to_json (VObj ((s! "v", VStr vs) :: m))) < 2 ^ 32) as L32 by (eapply N.lt_trans; [exact L|reflexivity]).
  pose proof (sized_first _ _ _ _ _ _ D L32 V) as Z. cbn [N.eqb Pos.eqb andb negb] in Z. pose proof L as L'. apply N.ltb_lt in L'. rewrite L' in Z. change (negb ((1 =? 1) && (0 =? 0))) with false in Z. cbv iota in Z. clear L'.
  set (z := sized_of [] m proto) in *.
  assert (len (z_raw z) < 2 ^ 32) as LR.
  { unfold z, sized_of. cbn [z_raw]. destruct (version_string_plain _ _ _ _ _ V) as (PL & _). pose proof (to_json_str [] (s! "v") vs m PL) as T. cbn [app] in T. rewrite T in *.
    rewrite !len_app in *. destruct (version_string_rever _ _ _ _ _ V) as (L17 & _). rewrite L17 in *. assert (In proto idents) as IP by (apply idents_or; apply V).
    pose proof (vtext_len proto (as_u32 (len (fore [] (s! "v")) + 17 + len (back m))) IP (as_u32_le _)) as VL.
    replace (as_u32 (len (fore [] (s! "v")) + 17 + len (back m)) <? 2 ^ 24) with true in VL.
    { apply N.eqb_eq in VL. rewrite VL. exact L32. }
    symmetry. apply N.ltb_lt. unfold as_u32. rewrite N.mod_small; [|rewrite <- N.add_assoc; exact L32]. rewrite <- N.add_assoc. exact L. }
  destruct (C52_l [] m vs None z (fun H => H) ltac:(apply no_version_find; vm_compute; reflexivity) Z LR) as (RJ & KJ & VJ & (n0 & VP) & vs' & KE & VS). cbn [app] in KE.
  change (z_ident z) with proto in VS.
  assert (said_of_qb64 t = Ok d) as SA. { apply said_text. split; auto. }
  assert (field_of (z_ked z) (s! "d") (VStr t)) as FD. { rewrite KE. apply field_assoc in F. apply field_assoc. cbn [assoc]. exact F. }
  exists (Sd (or_else code (s! "E")) (z_raw z) (z_ked z) proto (z_kind z) (as_u32 (len (z_raw z))) (z_version z) d), vs'.
  assert (populate_from_ked (or_else code (s! "E")) (VObj ((s! "v", VStr vs) :: m)) None = Ok (Sd (or_else code (s! "E")) (z_raw z) (z_ked z) proto (z_kind z) (as_u32 (len (z_raw z))) (z_version z) d)) as P.
  { unfold populate_from_ked. rewrite Z, bind_Ok. apply index_field in FD. rewrite FD, bind_Ok. cbn [to_string]. rewrite bind_Ok, SA, bind_Ok, C, beq_refl. reflexivity. }
  split; [|split; [|cbn [d_ked d_raw d_saider d_ident d_version]; auto 10]].
  - intros ->. unfold serder_new. rewrite new_ked. cbn [or_else]. rewrite P. reflexivity.
  - intros ->. unfold creder_new. rewrite new_ked. cbn [or_else]. rewrite P. reflexivity.
Qed.

(** ** When reading panics *)
Lemma raw_announced canon code raw proto n : announces raw proto n -> populate_from_raw canon code raw =
  if len raw <? n then Panic else if negb (utf8 (take n raw)) then Err EForeign else
  let* ked := value_of_text canon (take n raw) in
  let* d := index_str ked (s! "d") in
  let* q := to_string d in
  let* sa := said_of_qb64 q in
  if negb (beq code (m_code sa)) then Err EValidation else Ok (Sd code (take n raw) ked proto (s! "JSON") n (Ver 1 0) sa).
Proof.
  intros A. apply announces_sniff in A. unfold populate_from_raw, inhale. rewrite A, bind_Ok. cbn [vi_version]. change (version_eqb (Ver 1 0) current_version) with true. cbn [negb].
  unfold loads. cbn [vi_kind vi_size or_else]. rewrite beq_refl. destruct (len raw <? n) eqn:L.
  - apply N.ltb_lt in L. unfold slice_bytes. replace (n <=? len raw) with false by (symmetry; apply N.leb_gt; auto). rewrite andb_false_r. reflexivity.
  - apply N.ltb_ge in L. rewrite !slice_bytes_in by lia. rewrite !bind_Ok, N.sub_0_r, drop_0. unfold from_utf8. destruct (utf8 (take n raw)); [|reflexivity]. cbn [negb]. rewrite bind_Ok.
    destruct (value_of_text canon (take n raw)) as [ked| |]; try reflexivity. rewrite !bind_Ok. cbn [vi_size vi_ident vi_kind vi_version]. rewrite slice_bytes_in by lia. rewrite bind_Ok, N.sub_0_r, drop_0.
    reflexivity.
Qed.
Lemma raw_silent canon code raw : (forall proto n, ~ announces raw proto n) -> is_err (populate_from_raw canon code raw) = true.
Proof.
  intros H. unfold populate_from_raw, inhale. destruct (sniff raw) as [i| |] eqn:S; [|reflexivity|destruct (sniff_np _ S)]. rewrite bind_Ok.
  destruct (version_eqb (vi_version i) current_version) eqn:V; [|reflexivity]. apply version_eqb_eq in V. exfalso. apply (H (vi_ident i) (vi_size i)). apply announces_sniff. rewrite S. f_equal.
  destruct (sniff_ok _ _ S) as (p & m & t & _ & _ & _ & _ & _ & _ & _ & K & E). apply serials_json in K. destruct i as [a b c d]. cbn in *. subst c. f_equal. unfold vinfo_of in E. congruence.
Qed.
Lemma announces_dec raw : (exists proto n, announces raw proto n) \/ (forall proto n, ~ announces raw proto n).
Proof.
  destruct (sniff raw) as [[a b [c d] e]| |] eqn:S; try (right; intros p n A; apply announces_sniff in A; congruence).
  destruct (beq b (s! "JSON")) eqn:B; [|right; intros p n A; apply announces_sniff in A; rewrite A in S; injection S as -> <- <- <- ->; rewrite beq_refl in B; discriminate].
  destruct (c =? 1) eqn:C; [|right; intros p n A; apply announces_sniff in A; rewrite A in S; injection S as -> <- <- <- ->; discriminate].
  destruct (d =? 0) eqn:D; [|right; intros p n A; apply announces_sniff in A; rewrite A in S; injection S as -> <- <- <- ->; discriminate].
  apply beq_eq in B. apply N.eqb_eq in C, D. subst. left. exists a, e. now apply announces_sniff.
Qed.
Lemma announces_fun raw p n q k : announces raw p n -> announces raw q k -> p = q /\ n = k.
Proof. intros A B. apply announces_sniff in A, B. rewrite A in B. injection B as -> ->. auto. Qed.

(*# C55_reading_events_panics_refuted
   False as stated: bytes announcing more bytes than there are, and an event without a field d, make the constructor panic.
#*)
Lemma C55_no_l : exists truncated bare, utf8 truncated = true /\ utf8 bare = true /\
  forall new, In new constructors -> new (fun _ => None) None (Some truncated) None None None = Panic /\ new (fun _ => None) None (Some bare) None None None = Panic.
Proof.
  exists (s! "{""v"":""KERI10JSON000fff_"",""a"":1}"), (s! "{""v"":""KERI10JSON00001f_"",""a"":1}"). split; [vm_compute; reflexivity|]. split; [vm_compute; reflexivity|].
  intros new [<-|[<-|[<-|[]]]]; split; vm_compute; reflexivity.
Qed.

(*# C55_reading_events_panics_partial
   What holds: exactly when the constructor panics. Either more bytes are announced than given; or the announced bytes hold a number the loader cannot represent
   (value_of_text panics, see C81); or they are a value without field d; or the text in d makes parsing a primitive panic. In every other case the result is an
   event or an error.
##
Example C55_case : announces (s! "{""v"":""KERI10JSON000fff_"",""a"":1}") (s! "KERI") 4095.
Proof. apply announces_sniff. vm_compute. reflexivity. Qed.
#*)
Lemma C55_l (new : constructor) (canon : bytes -> option bytes) (code kind : option bytes) (raw : bytes) (ked : option value) (sad : option sadder) :
  In new constructors ->
  (new canon code (Some raw) kind ked sad = Panic <->
   exists proto n, announces raw proto n /\
     (len raw < n \/
      n <= len raw /\ utf8 (take n raw) = true /\
      (value_of_text canon (take n raw) = Panic \/
       exists v, value_of_text canon (take n raw) = Ok v /\
         (lacks v (s! "d") \/ exists t, field_of v (s! "d") (VStr t) /\ exfil t = Panic)))).
Proof.
  intros I. destruct (gated new I) as (ok & G). rewrite G, new_raw.
  assert (forall r, match r with Ok s => match ok (d_ident s) with None => Ok s | Some e => Err e end | Err e => Err e | Panic => Panic end = Panic <-> r = Panic) as GP.
  { intros [s| |]; [|split; discriminate|tauto]. destruct (ok (d_ident s)); split; discriminate. }
  rewrite GP. clear GP G ok I. split.
  - intros H. destruct (announces_dec raw) as [(proto & n & A)|NA].
    2:{ pose proof (raw_silent canon (or_else code (s! "E")) raw NA) as E. rewrite H in E. discriminate. }
    exists proto, n. split; auto. rewrite (raw_announced _ _ _ _ _ A) in H. destruct (len raw <? n) eqn:L; [apply N.ltb_lt in L; auto|]. apply N.ltb_ge in L. right. split; auto.
    destruct (utf8 (take n raw)); [|discriminate]. cbn [negb] in H. split; auto. destruct (value_of_text canon (take n raw)) as [v| |] eqn:V; [|discriminate|auto]. right. exists v. split; auto.
    rewrite bind_Ok in H. destruct (index_str v (s! "d")) as [d| |] eqn:D; [|discriminate|left; now apply index_lacks]. right. rewrite bind_Ok in H. apply index_field in D.
    destruct d; try discriminate. cbn [to_string] in H. rewrite bind_Ok in H. exists s. split; auto. destruct (said_of_qb64 s) as [sa| |] eqn:S; [|discriminate|now apply said_panic].
    rewrite bind_Ok in H. destruct (negb _); discriminate.
  - intros (proto & n & A & H). rewrite (raw_announced _ _ _ _ _ A). destruct H as [H|(L & U & H)]; [apply N.ltb_lt in H; now rewrite H|]. apply N.ltb_ge in L. rewrite L, U. cbn [negb].
    destruct H as [-> |(v & -> & H)]; [reflexivity|]. rewrite bind_Ok. destruct H as [H|(t & F & X)]; [apply index_lacks in H; now rewrite H|].
    apply index_field in F. rewrite F, bind_Ok. cbn [to_string]. rewrite bind_Ok. apply said_panic in X. now rewrite X.
Qed.

(*# C56_truncation_refuted
   False as stated: cutting an event makes the constructor panic rather than return an error.
#*)
Lemma C56_no_l : exists raw s, serder_new (fun _ => None) None (Some raw) None None None = Ok s /\ d_raw s = raw /\
  serder_new (fun _ => None) None (Some (take 75 raw)) None None None = Panic /\ len raw = 76.
Proof.
  exists (s! "{""v"":""KERI10JSON00004c_"",""d"":""EAAAAAAAAAAAAAAAAAAAAAAAAAAAAAAAAAAAAAAAAAAA""}"). eexists. split; [vm_compute; reflexivity|].
  split; [reflexivity|]. split; vm_compute; reflexivity.
Qed.

(*# C56_truncation_partial
   What holds: a truncated event is never accepted. The result is an error when fewer than 29 bytes are left or the cut is inside a character, and a panic
   otherwise.
##
Example C56_case : exists s, serder_new (fun _ => None) None (Some (s! "{""v"":""KERI10JSON00004c_"",""d"":""EAAAAAAAAAAAAAAAAAAAAAAAAAAAAAAAAAAAAAAAAAAA""}")) None None None = Ok s /\
  is_err (serder_new (fun _ => None) None (Some (take 28 (d_raw s))) None None None) = true.
Proof. eexists. split; [vm_compute; reflexivity|]. vm_compute. reflexivity. Qed.
#*)
Lemma C56_l (new : constructor) (canon : bytes -> option bytes) (code kind kind' : option bytes) (raw : bytes) (ked ked' : option value) (sad sad' : option sadder) (s : sadder) (k : N) :
  In new constructors -> new canon code (Some raw) kind ked sad = Ok s -> k < len (d_raw s) ->
  is_ok (new canon code (Some (take k (d_raw s))) kind' ked' sad') = false /\
  (new canon code (Some (take k (d_raw s))) kind' ked' sad' = Panic <-> 29 <= k /\ utf8 (take k (d_raw s)) = true).
Proof.
  intros I H K. destruct (C87_l new canon code kind kind' raw [] ked ked' sad sad' s I H) as (L & R & V & A & _). destruct (gated new I) as (ok & G). rewrite G, new_raw in *. clear H.
  assert (len (d_raw s) = d_size s) as LR by (rewrite R, len_take; lia).
  assert (d_raw s = take k (d_raw s) ++ drop k (d_raw s)) as SP by now rewrite take_drop. assert (len (take k (d_raw s)) = k) as LK by (rewrite len_take; lia).
  destruct (29 <=? k) eqn:K29.
  - apply N.leb_le in K29. destruct (utf8 (take k (d_raw s))) eqn:U.
    + assert (announces (take k (d_raw s)) (d_ident s) (d_size s)) as A'.
      { apply announces_sniff. apply announces_sniff in A. rewrite R in U |- *. rewrite take_take in *. rewrite N.min_l in * by lia.
        rewrite <- (take_drop k raw) in A. apply sniff_back in A; auto. rewrite len_take. lia. }
      rewrite (raw_announced _ _ _ _ _ A'). rewrite LK. replace (k <? d_size s) with true by (symmetry; apply N.ltb_lt; lia). split; [reflexivity|]. split; auto.
    + assert (is_err (populate_from_raw canon (or_else code (s! "E")) (take k (d_raw s))) = true) as E.
      { apply raw_silent. intros p n (U' & _). congruence. }
      destruct (populate_from_raw _ _ _); try discriminate. split; [reflexivity|]. split; [discriminate|intros (_ & F); discriminate].
  - apply N.leb_gt in K29. assert (is_err (populate_from_raw canon (or_else code (s! "E")) (take k (d_raw s))) = true) as E.
    { apply raw_silent. intros p n (_ & L29 & _). lia. }
    destruct (populate_from_raw _ _ _); try discriminate. split; [reflexivity|]. split; [discriminate|intros (F & _); lia].
Qed.

(** ** The SAID field *)
Lemma dec_true (r : R bool) : r = Ok true \/ r <> Ok true.
Proof. destruct r as [[]| |]; [left; reflexivity|right; discriminate..]. Qed.
(*# C57_said_is_checked_refuted
   False as stated: for every collision-free digest some event is accepted although the text in its field d is not the digest of its content.
#*)
Lemma C57_no_l (hash : bytes -> bytes -> bytes) : sized_hash hash -> ~ collision hash (s! "E") ->
  exists raw s, serder_new (fun _ => None) None (Some raw) None None None = Ok s /\ data (d_ked s) /\
    said_verify hash (d_saider s) (d_ked s) None None None None [] <> Ok true.
Proof.
  intros SH NC.
  pose (ev := fun c : bytes => s! "{""v"":""KERI10JSON000054_"",""d"":""EAAAAAAAAAAAAAAAAAAAAAAAAAAAAAAAAAAAAAAAAAAA"",""s"":""" ++ c ++ s! """}").
  pose (m := fun c : bytes => [(s! "v", VStr (s! "KERI10JSON000054_")); (s! "d", VStr (s! "EAAAAAAAAAAAAAAAAAAAAAAAAAAAAAAAAAAAAAAAAAAA")); (s! "s", VStr c)]).
  pose (e := fun c : bytes => Sd (s! "E") (ev c) (VObj (m c)) (s! "KERI") (s! "JSON") 84 (Ver 1 0) (Mt (s! "E") 0 (zeros 32))).
  assert (forall c, In c [s! "0"; s! "1"] -> serder_new (fun _ => None) None (Some (ev c)) None None None = Ok (e c) /\ data (VObj (m c))) as A.
  { intros c I. split; [destruct I as [<-|[<-|[]]]; vm_compute; reflexivity|].
    apply data_obj; [repeat constructor; cbn; intuition discriminate|repeat constructor|]. unfold m. cbn [map snd]. repeat constructor; destruct I as [<-|[<-|[]]]; reflexivity. }
  destruct (A (s! "0") ltac:(now left)) as (A0 & D0). destruct (A (s! "1") ltac:(right; now left)) as (A1 & D1).
  destruct (dec_true (said_verify hash (d_saider (e (s! "0"))) (d_ked (e (s! "0"))) None None None None [])) as [V0|V0]; [|exists (ev (s! "0")), (e (s! "0")); auto].
  destruct (dec_true (said_verify hash (d_saider (e (s! "1"))) (d_ked (e (s! "1"))) None None None None [])) as [V1|V1]; [|exists (ev (s! "1")), (e (s! "1")); auto].
  exfalso. pose proof (C59a_l hash (Mt (s! "E") 0 (zeros 32)) (m (s! "0")) (m (s! "1")) None None None None (s! "d") SH D0 D1 eq_refl V0 V1) as [X|X]; [|contradiction].
  vm_compute in X. discriminate.
Qed.

(*# C57_said_is_checked_partial
   What holds: an accepted event has in its field d a text that parses to its SAID, a digest of the expected code. Missing: that this digest is that of the content
   (Saider.verify, C59 and C85, does check it).
##
Example C57_case : exists s, serder_new (fun _ => None) None None None
    (Some (VObj [(s! "v", VStr (s! "KERI10JSON000000_")); (s! "d", VStr (s! "EAAAAAAAAAAAAAAAAAAAAAAAAAAAAAAAAAAAAAAAAAAA"))])) None = Ok s /\ m_code (d_saider s) = s! "E".
Proof. eexists. split; [vm_compute; reflexivity|]. reflexivity. Qed.
#*)
Lemma C57_l (new : constructor) (canon : bytes -> option bytes) (code raw kind : option bytes) (ked : option value) (s : sadder) :
  In new constructors -> new canon code raw kind ked None = Ok s ->
  exists t, field_of (d_ked s) (s! "d") (VStr t) /\ exfil t = Ok (d_saider s) /\ m_code (d_saider s) = or_else code (s! "E") /\
    In (m_code (d_saider s)) (map fst digest_sizes).
Proof.
  intros I H. destruct (gated new I) as (ok & G). rewrite G in H. destruct (sadder_new _ _ _ _ _ _) as [s'| |] eqn:P; [|discriminate|discriminate].
  destruct (ok (d_ident s')); [discriminate|]. injection H as ->.
  assert (exists t sa, field_of (d_ked s) (s! "d") (VStr t) /\ said_of_qb64 t = Ok sa /\ m_code sa = or_else code (s! "E") /\ d_saider s = sa) as (t & sa & F & SA & C & ->).
  { destruct raw as [raw|].
    - rewrite new_raw in P. destruct (raw_ok _ _ _ _ P) as (proto & n & t & sa & A & N & U & V & F & SA & CO & E). exists t, sa. split; auto. split; auto. split; auto. now rewrite E.
    - destruct ked as [ked|]; [|discriminate]. rewrite new_ked in P. destruct (ked_ok _ _ _ _ P) as (z & t & sa & Z & FD & SA & CO & E). exists t, sa. rewrite E. auto. }
  apply said_text in SA as (X & Y). exists t. auto.
Qed.

(** ** What the accessors return *)
Lemma each_ok {A} (f : value -> R A) l ys : each f l = Ok ys <-> Forall2 (fun x y => f x = Ok y) l ys.
Proof.
  revert ys; induction l as [|x l IH]; intros ys; cbn [each].
  - split; [intros [= <-]; constructor|intros H; inversion H; reflexivity].
  - split.
    + intros H. apply bind_ok in H as (y & Y & H). apply bind_ok in H as (zs & Z & H). injection H as <-. constructor; auto. now apply IH.
    + intros H. inversion H as [|? y ? zs Y Z]; subst. rewrite Y, bind_Ok. apply IH in Z. now rewrite Z, bind_Ok.
Qed.
Lemma Forall2_iff {A B} (P Q : A -> B -> Prop) l k : (forall a b, P a b <-> Q a b) -> Forall2 P l k <-> Forall2 Q l k.
Proof. intros H. split; intros F; induction F; constructor; auto; now apply H. Qed.
Lemma verfer_text v m : verfer_of v = Ok m <-> exists q, v = VStr q /\ exfil q = Ok m /\ In (m_code m) verfer_codes.
Proof.
  unfold verfer_of, verfer_new. split.
  - intros H. apply bind_ok in H as (q & Q & H). destruct v; try discriminate. injection Q as ->. exists q. split; auto. change (matter_new (Some (or_else None (s! "B"))) None None (Some q) None) with (exfil q) in H.
    apply bind_ok in H as (m' & E & H). unfold validate in H. destruct (has_code verfer_codes (m_code m')) eqn:C; [|discriminate]. rewrite bind_Ok in H. injection H as ->. apply has_code_in in C. auto.
  - intros (q & -> & E & C). cbn [to_string]. rewrite bind_Ok. change (matter_new (Some (or_else None (s! "B"))) None None (Some q) None) with (exfil q). rewrite E, bind_Ok.
    apply has_code_in in C. unfold validate. now rewrite C, bind_Ok.
Qed.
Lemma diger_text v m : diger_of v = Ok m <-> exists q, v = VStr q /\ exfil q = Ok m /\ In (m_code m) diger_codes.
Proof.
  unfold diger_of, diger_new. split.
  - intros H. apply bind_ok in H as (q & Q & H). destruct v; try discriminate. injection Q as ->. exists q. split; auto. change (matter_new None None None (Some q) None) with (exfil q) in H.
    destruct (exfil q) as [m'| |]; [|discriminate|discriminate]. unfold validate in H. destruct (has_code diger_codes (m_code m')) eqn:C; [|discriminate]. rewrite bind_Ok in H. injection H as ->.
    apply has_code_in in C. auto.
  - intros (q & -> & E & C). cbn [to_string]. rewrite bind_Ok. change (matter_new None None None (Some q) None) with (exfil q). rewrite E.
    apply has_code_in in C. unfold validate. now rewrite C, bind_Ok.
Qed.
Lemma diger_said c : In c diger_codes <-> In c (map fst digest_sizes).
Proof. cbn. tauto. Qed.
Lemma contains_field k m : contains_key k m = true <-> exists x, field_of (VObj m) k x.
Proof.
  unfold contains_key. split.
  - destruct (assoc k m) eqn:A; [|discriminate]. intros _. exists v. now apply field_assoc.
  - intros (x & F). apply field_assoc in F. now rewrite F.
Qed.

(*# C88_key_lists
   The keys, next-key digests and witnesses of an event are exactly the primitives whose texts are listed in its fields k, n and b, in order, each of the right
   kind. A missing field counts as an empty list; so does, for keys and digests but not for witnesses, a field that is no array.
##
Example C88_case : exists s, serder_new (fun _ => None) None None None
    (Some (VObj [(s! "v", VStr (s! "KERI10JSON000000_")); (s! "d", VStr (s! "EAAAAAAAAAAAAAAAAAAAAAAAAAAAAAAAAAAAAAAAAAAA"));
                 (s! "k", VArr [VStr (s! "DAAAAAAAAAAAAAAAAAAAAAAAAAAAAAAAAAAAAAAAAAAA"); VStr (s! "BAAAAAAAAAAAAAAAAAAAAAAAAAAAAAAAAAAAAAAAAAAA")])])) None = Ok s /\
  serder_verfers s = Ok [Mt (s! "D") 0 (zeros 32); Mt (s! "B") 0 (zeros 32)] /\ serder_digers s = Ok [].
Proof. eexists. split; [vm_compute; reflexivity|]. split; vm_compute; reflexivity. Qed.
#*)
Lemma C88_l (s : sadder) (l : list matter) :
  (exists m, d_ked s = VObj m) ->
  (serder_verfers s = Ok l <->
     (exists ts, field_of (d_ked s) (s! "k") (VArr ts) /\ texts_of [s! "B"; s! "D"; s! "1AAA"; s! "1AAB"; s! "1AAI"; s! "1AAJ"] ts l) \/
     (forall ts, ~ field_of (d_ked s) (s! "k") (VArr ts)) /\ l = []) /\
  (serder_digers s = Ok l <->
     (exists ts, field_of (d_ked s) (s! "n") (VArr ts) /\ texts_of (map fst digest_sizes) ts l) \/
     (forall ts, ~ field_of (d_ked s) (s! "n") (VArr ts)) /\ l = []) /\
  (serder_werfers s = Ok l <->
     (exists ts, field_of (d_ked s) (s! "b") (VArr ts) /\ texts_of [s! "B"; s! "D"; s! "1AAA"; s! "1AAB"; s! "1AAI"; s! "1AAJ"] ts l) \/
     lacks (d_ked s) (s! "b") /\ l = []).
Proof.
  intros (m & M). unfold serder_verfers, serder_digers, serder_werfers. rewrite M. cbn [to_map]. rewrite !bind_Ok.
  assert (forall codes k (l : list matter) (g : value -> R matter), (forall v y, g v = Ok y <-> exists q, v = VStr q /\ exfil q = Ok y /\ In (m_code y) codes) ->
    ((if contains_key k m then let* v := index_str (VObj m) k in match to_vec v with Ok l => each g l | Err _ => Ok [] | Panic => Panic end else Ok []) = Ok l <->
     (exists ts, field_of (VObj m) k (VArr ts) /\ texts_of codes ts l) \/ (forall ts, ~ field_of (VObj m) k (VArr ts)) /\ l = [])) as G.
  { intros codes k l0 g Hg. destruct (contains_key k m) eqn:C.
    - apply contains_field in C as (x & F). pose proof F as F'. apply index_field in F'. rewrite F', bind_Ok. split.
      + intros H. destruct x; cbn [to_vec] in H; try (right; split; [intros ts F2; pose proof (field_unique _ _ _ _ F F2); discriminate|congruence]).
        left. exists l1. split; auto. apply each_ok in H. unfold texts_of. exact (proj1 (Forall2_iff _ _ _ _ Hg) H).
      + intros [(ts & F2 & T)|(N & ->)].
        * pose proof (field_unique _ _ _ _ F F2). subst x. cbn [to_vec]. apply each_ok. exact (proj2 (Forall2_iff _ _ _ _ Hg) T).
        * destruct x; try reflexivity. destruct (N _ F).
    - assert (forall x, ~ field_of (VObj m) k x) as N by (intros x F; rewrite (proj2 (contains_field k m) (ex_intro _ x F)) in C; discriminate). split.
      + intros [= <-]. right. split; auto.
      + intros [(ts & F & _)|(_ & ->)]; [destruct (N _ F)|reflexivity]. }
  split; [|split].
  - apply (G verfer_codes). apply verfer_text.
  - apply (G (map fst digest_sizes)). intros v y. rewrite diger_text. split; intros (q & Q & E & C); exists q; (split; [auto|split; [auto|]]); apply diger_said; auto.
  - destruct (contains_key (s! "b") m) eqn:C.
    + apply contains_field in C as (x & F). pose proof F as F'. apply index_field in F'. rewrite F', bind_Ok. split.
      * intros H. destruct x; cbn [to_vec] in H; try discriminate. rewrite bind_Ok in H. left. exists l0. split; auto. apply each_ok in H. unfold texts_of. exact (proj1 (Forall2_iff _ _ _ _ verfer_text) H).
      * intros [(ts & F2 & T)|(N & ->)]; [|destruct (N _ F)]. pose proof (field_unique _ _ _ _ F F2). subst x. cbn [to_vec]. rewrite bind_Ok. apply each_ok. exact (proj2 (Forall2_iff _ _ _ _ verfer_text) T).
    + assert (forall x, ~ field_of (VObj m) (s! "b") x) as N by (intros x F; rewrite (proj2 (contains_field _ m) (ex_intro _ x F)) in C; discriminate). split.
      * intros [= <-]. right. split; auto.
      * intros [(ts & F & _)|(_ & ->)]; [destruct (N _ F)|reflexivity].
Qed.

(*# C88_sequence_number
   The sequence number of an event is the number its field s denotes in hexadecimal; an empty text counts as zero; anything else is an error. The identifier is the
   text of field i, and the event is an establishment event exactly when field t is icp, rot, dip or drt.
##
Example C88_sn_case : exists s, serder_new (fun _ => None) None None None
    (Some (VObj [(s! "v", VStr (s! "KERI10JSON000000_")); (s! "t", VStr (s! "rot")); (s! "d", VStr (s! "EAAAAAAAAAAAAAAAAAAAAAAAAAAAAAAAAAAAAAAAAAAA")); (s! "s", VStr (s! "1f"))])) None = Ok s /\
  serder_sn s = Ok 31 /\ serder_est s = Ok true.
Proof. eexists. split; [vm_compute; reflexivity|]. split; vm_compute; reflexivity. Qed.
#*)
Lemma C88_sn_l (s : sadder) (n : N) (t : bytes) (b : bool) :
  (field_of (d_ked s) (s! "s") (VStr t) -> t <> [] -> (serder_sn s = Ok n <-> hex_reading t n /\ n < 2 ^ 128)) /\
  (field_of (d_ked s) (s! "s") (VStr []) -> serder_sn s = Ok 0) /\
  (field_of (d_ked s) (s! "i") (VStr t) -> serder_pre s = Ok t) /\
  (field_of (d_ked s) (s! "t") (VStr t) -> (serder_est s = Ok b <-> (b = true <-> In t [s! "icp"; s! "rot"; s! "dip"; s! "drt"]))).
Proof.
  unfold serder_sn, serder_sner, serder_pre, serder_est. split; [|split; [|split]].
  - intros F NE. apply index_field in F. rewrite F, bind_Ok. cbn [to_string]. rewrite bind_Ok. split.
    + intros H. apply bind_ok in H as (m & M & H). destruct (C36b_l t m NE) as (A & _). apply A in M as (k & R & K & M). destruct (C34_l k K) as (m' & ? & ? & M' & NN & _). rewrite M in M'. injection M' as <-.
      rewrite H in NN. injection NN as ->. auto.
    + intros (R & K). destruct (C34_l n K) as (m & ? & ? & M & NN & _). destruct (C36b_l t m NE) as (A & _). rewrite (proj2 A); [|exists n; auto]. now rewrite bind_Ok.
  - intros F. apply index_field in F. rewrite F. vm_compute. reflexivity.
  - intros F. apply index_field in F. rewrite F. reflexivity.
  - intros F. apply index_field in F. rewrite F, bind_Ok. cbn [to_string]. rewrite bind_Ok. rewrite <- has_code_in. destruct (has_code _ t), b; split; intros H; try discriminate; try reflexivity; try tauto.
    + destruct H as (_ & H). discriminate (H eq_refl).
    + destruct H as (H & _). discriminate (H eq_refl).
Qed.
