(** Proofs of C107: events filled again in place. *)
From Coq Require Import String.
From Coq Require Import NArith ZArith Bool List Lia.
From Verif Require Import Base BaseFacts Tables Matter Prims Json JsonFacts Common CommonFacts CommonThms Saider SaiderFacts SaiderThms Diger Sadder Renew
  Spec SpecPrims SpecJson SpecCommon SpecSaider SpecSadder SadderFacts SadderThms JsonThms FlowThms.
Import ListNotations.
Open Scope N_scope.

Definition outcome {A} (r : R A) : R unit := match r with Ok _ => Ok tt | Err x => Err x | Panic => Panic end.

Lemma raw_pop canon e raw : (raw_into canon e raw = (fst (raw_into canon e raw), outcome (populate_from_raw canon (d_code e) raw))) /\
  forall s, populate_from_raw canon (d_code e) raw = Ok s -> fst (raw_into canon e raw) = s.
Proof.
  unfold raw_into, populate_from_raw. destruct (inhale canon raw) as [(ked & i)| |]; [|split; [reflexivity|discriminate]..]. rewrite bind_Ok.
  destruct (slice_bytes raw 0 (vi_size i)) as [own| |]; [|split; [reflexivity|discriminate]..]. rewrite bind_Ok.
  unfold settle. cbn [with_content d_ked]. destruct (index_str ked (s! "d")) as [d| |]; [|split; [reflexivity|discriminate]..]. rewrite !bind_Ok.
  destruct (to_string d) as [q| |]; [|split; [reflexivity|discriminate]..]. rewrite !bind_Ok.
  destruct (said_of_qb64 q) as [m| |]; [|split; [reflexivity|discriminate]..]. rewrite !bind_Ok. cbn [with_saider with_content d_code d_saider fst].
  destruct (beq (d_code e) (m_code m)); cbn [negb]; (split; [reflexivity|]); [|discriminate]. intros s H. injection H as <-. reflexivity.
Qed.
Lemma ked_pop e ked kind : (ked_into e ked kind = (fst (ked_into e ked kind), outcome (populate_from_ked (d_code e) ked kind))) /\
  forall s, populate_from_ked (d_code e) ked kind = Ok s -> fst (ked_into e ked kind) = s.
Proof.
  unfold ked_into, populate_from_ked. destruct (sizeify ked kind) as [z| |]; [|split; [reflexivity|discriminate]..]. rewrite bind_Ok.
  unfold settle. cbn [with_content d_ked]. destruct (index_str (z_ked z) (s! "d")) as [d| |]; [|split; [reflexivity|discriminate]..]. rewrite !bind_Ok.
  destruct (to_string d) as [q| |]; [|split; [reflexivity|discriminate]..]. rewrite !bind_Ok.
  destruct (said_of_qb64 q) as [m| |]; [|split; [reflexivity|discriminate]..]. rewrite !bind_Ok. cbn [with_saider with_content d_code d_saider fst].
  destruct (beq (d_code e) (m_code m)); cbn [negb]; (split; [reflexivity|]); [|discriminate]. intros s H. injection H as <-. reflexivity.
Qed.
Lemma pop_iff (c : change) (r : R sadder) : c = (fst c, outcome r) -> (forall s, r = Ok s -> fst c = s) ->
  (forall s, c = (s, Ok tt) <-> r = Ok s) /\ (forall x, snd c = Err x <-> r = Err x) /\ (snd c = Panic <-> r = Panic).
Proof.
  intros E H. rewrite E. cbn [snd]. split; [|split].
  - intros s. split.
    + intros X. destruct r; try discriminate. cbn [outcome] in X. injection X as X. f_equal. now rewrite <- X, (H _ eq_refl).
    + intros ->. now rewrite (H _ eq_refl).
  - intros x. destruct r; cbn [outcome]; split; congruence.
  - destruct r; cbn [outcome]; split; congruence.
Qed.

(*# C107_refilled_event_is_new
   Filling an existing event from bytes succeeds exactly when the constructor with the event's digest code accepts those bytes, and gives that event: nothing of
   what the event held before survives except its code. It fails with an error, or panics, exactly when the constructor does. The same for filling it from data.
##
Example C107_new_case : let old := Sd (s! "E") (s! "stale") (VInt 7) (s! "ACDC") (s! "CBOR") 99 (Ver 3 3) (Mt (s! "B") 5 []) in exists s,
  raw_into (fun _ => None) old (s! "{""v"":""KERI10JSON00004c_"",""d"":""EAAAAAAAAAAAAAAAAAAAAAAAAAAAAAAAAAAAAAAAAAAA""}-AAB") = (s, Ok tt) /\ d_size s = 76 /\ d_ident s = s! "KERI".
Proof. intros old. eexists. split; [vm_compute; reflexivity|]. split; reflexivity. Qed.
#*)
Lemma C107_new_l (canon : bytes -> option bytes) (e : sadder) (raw : bytes) (ked : value) (kind : option bytes) :
  let from_raw := sadder_new canon (Some (d_code e)) (Some raw) None None None in
  let from_ked := sadder_new canon (Some (d_code e)) None kind (Some ked) None in
  ((forall s, raw_into canon e raw = (s, Ok tt) <-> from_raw = Ok s) /\
   (forall x, snd (raw_into canon e raw) = Err x <-> from_raw = Err x) /\ (snd (raw_into canon e raw) = Panic <-> from_raw = Panic)) /\
  ((forall s, ked_into e ked kind = (s, Ok tt) <-> from_ked = Ok s) /\
   (forall x, snd (ked_into e ked kind) = Err x <-> from_ked = Err x) /\ (snd (ked_into e ked kind) = Panic <-> from_ked = Panic)).
Proof.
  intros from_raw from_ked. subst from_raw from_ked. rewrite new_raw, new_ked. cbn [or_else]. split.
  - destruct (raw_pop canon e raw) as (A & B). exact (pop_iff _ _ A B).
  - destruct (ked_pop e ked kind) as (A & B). exact (pop_iff _ _ A B).
Qed.

(*# C107_refused_change_refuted
   False as stated: a change that is refused with an error can leave the event with the new data under the SAID of the old ones; and an event refused for the code of
   its SAID is stored in full.
#*)
Lemma C107_refused_l :
  (exists raw1 raw2 e e' x, serder_new (fun _ => None) None (Some raw1) None None None = Ok e /\ raw_into (fun _ => None) e raw2 = (e', Err x) /\
     d_raw e' = raw2 /\ d_raw e <> raw2 /\ d_ked e' <> d_ked e /\ d_saider e' = d_saider e) /\
  (exists raw1 raw2 e e', serder_new (fun _ => None) None (Some raw1) None None None = Ok e /\ raw_into (fun _ => None) e raw2 = (e', Err EValidation) /\
     d_raw e' = raw2 /\ d_saider e' <> d_saider e /\ d_code e' <> m_code (d_saider e')).
Proof.
  split.
  - exists (s! "{""v"":""KERI10JSON00004c_"",""d"":""EAAAAAAAAAAAAAAAAAAAAAAAAAAAAAAAAAAAAAAAAAAA""}"), (s! "{""v"":""KERI10JSON000021_"",""d"":""x""}"). eexists. eexists. eexists.
    split; [vm_compute; reflexivity|]. split; [vm_compute; reflexivity|]. split; [reflexivity|]. split; [discriminate|]. split; [discriminate|]. reflexivity.
  - exists (s! "{""v"":""KERI10JSON00004c_"",""d"":""EAAAAAAAAAAAAAAAAAAAAAAAAAAAAAAAAAAAAAAAAAAA""}"), (s! "{""v"":""KERI10JSON00004c_"",""d"":""IAAAAAAAAAAAAAAAAAAAAAAAAAAAAAAAAAAAAAAAAAAA""}"). eexists. eexists.
    split; [vm_compute; reflexivity|]. split; [vm_compute; reflexivity|]. split; [reflexivity|]. split; discriminate.
Qed.

Lemma settle_shape e : (exists m t, settle e = (with_saider e m, if negb (beq (d_code e) (m_code m)) then Err EValidation else Ok tt) /\ field_of (d_ked e) (s! "d") (VStr t) /\ exfil t = Ok m) \/
  (fst (settle e) = e /\ snd (settle e) <> Ok tt).
Proof.
  unfold settle. destruct (index_str (d_ked e) (s! "d")) as [d| |] eqn:D; [|right; split; [reflexivity|discriminate]..]. rewrite !bind_Ok. apply index_field in D.
  destruct d; try (right; split; [reflexivity|discriminate]). cbn [to_string]. rewrite bind_Ok. destruct (said_of_qb64 s) as [m| |] eqn:S; [|right; split; [reflexivity|discriminate]..].
  left. exists m, s. split; [reflexivity|]. split; [exact D|]. apply said_text in S. apply S.
Qed.
(*# C107_refused_change_partial
   What holds: whatever the outcome of filling an event from bytes, its code stays; the event is either untouched, or its raw bytes, data, protocol, kind, size and
   version all are those of the new bytes, and its SAID is the old one or the one named in the new field d. It is untouched when the bytes announce no event, are
   shorter than announced or are not JSON. Missing: that it is untouched when the fields of the new data are refused.
##
Example C107_part_case : exists e, serder_new (fun _ => None) None (Some (s! "{""v"":""KERI10JSON00004c_"",""d"":""EAAAAAAAAAAAAAAAAAAAAAAAAAAAAAAAAAAAAAAAAAAA""}")) None None None = Ok e /\
  fst (raw_into (fun _ => None) e (s! "{""v"":""KERI10JSON000021_"",""d"":""x"",")) = e /\ fst (raw_into (fun _ => None) e (s! "{""v"":""KERI10JSON000021_"",""d"":""x""}")) <> e.
Proof. eexists. split; [vm_compute; reflexivity|]. split; [vm_compute; reflexivity|]. vm_compute. discriminate. Qed.
#*)
Lemma C107_part_l (canon : bytes -> option bytes) (e : sadder) (raw : bytes) :
  let e' := fst (raw_into canon e raw) in
  d_code e' = d_code e /\
  (e' = e \/
   exists proto n, announces raw proto n /\ n <= len raw /\ d_raw e' = take n raw /\ value_of_text canon (take n raw) = Ok (d_ked e') /\
     d_ident e' = proto /\ d_kind e' = s! "JSON" /\ d_size e' = n /\ d_version e' = Ver 1 0 /\
     (d_saider e' = d_saider e \/ exists t, field_of (d_ked e') (s! "d") (VStr t) /\ exfil t = Ok (d_saider e'))) /\
  ((forall proto n, announces raw proto n -> len raw < n \/ is_ok (value_of_text canon (take n raw)) = false) -> e' = e /\ snd (raw_into canon e raw) <> Ok tt).
Proof.
  intros e'. subst e'. unfold raw_into. destruct (inhale canon raw) as [(ked & i)| |] eqn:I; cbn [fst snd].
  2,3: split; [reflexivity|]; split; [now left|]; intros _; split; [reflexivity|discriminate].
  assert (announces raw (vi_ident i) (vi_size i) /\ vi_size i <= len raw /\ value_of_text canon (take (vi_size i) raw) = Ok ked /\ vi_kind i = s! "JSON" /\ vi_version i = Ver 1 0) as (A & N & V & K & VE).
  { unfold inhale in I. apply bind_ok in I as (i' & S & I). destruct (version_eqb (vi_version i') current_version) eqn:V; [|discriminate]. cbn [negb] in I. apply version_eqb_eq in V.
    apply bind_ok in I as (k & L & I). injection I as -> ->. destruct (sniff_ok _ _ S) as (p & m & t & _ & _ & _ & _ & _ & _ & _ & K & E). apply serials_json in K.
    assert (vi_kind i = s! "JSON") as KJ by (rewrite E; exact K). rewrite announces_sniff. split; [rewrite S; f_equal; destruct i; cbn in *; congruence|].
    unfold loads in L. cbn [or_else] in L. rewrite KJ, beq_refl in L. apply bind_ok in L as (own & SL & L). apply slice_bytes_ok in SL as (_ & N & ->). rewrite N.sub_0_r, drop_0 in L.
    apply bind_ok in L as (u & U & L). unfold from_utf8 in U. destruct (utf8 (take (vi_size i) raw)); [|discriminate]. injection U as <-. auto. }
  rewrite slice_bytes_in by lia. rewrite N.sub_0_r, drop_0. set (e1 := with_content _ _ _ _ _ _ _).
  assert (d_code e1 = d_code e /\ d_raw e1 = take (vi_size i) raw /\ d_ked e1 = ked /\ d_ident e1 = vi_ident i /\ d_kind e1 = s! "JSON" /\ d_size e1 = vi_size i /\ d_version e1 = Ver 1 0 /\ d_saider e1 = d_saider e)
    as (E1 & E2 & E3 & E4 & E5 & E6 & E7 & E8) by (subst e1; cbn; auto 10).
  split; [|split].
  - destruct (settle_shape e1) as [(m & t & E & _)|(E & _)]; rewrite E; auto.
  - right. exists (vi_ident i), (vi_size i). split; [exact A|]. split; [exact N|]. destruct (settle_shape e1) as [(m & t & E & F & X)|(E & _)]; rewrite E; cbn [fst with_saider d_raw d_ked d_ident d_kind d_size d_version d_saider].
    + rewrite E3 in *. repeat (split; [assumption|]). right. eauto.
    + rewrite E3. repeat (split; [assumption|]). now left.
  - intros H. destruct (H _ _ A) as [X|X]; [lia|]. rewrite V in X. discriminate.
Qed.

(*# C107_kind_of_event_refuted
   False as stated: the protocol is checked only by the constructors. A key event filled in place from the bytes of a credential becomes an event the constructor
   of key events refuses.
#*)
Lemma C107_ident_l : exists raw1 raw2 e e', serder_new (fun _ => None) None (Some raw1) None None None = Ok e /\ raw_into (fun _ => None) e raw2 = (e', Ok tt) /\
  d_ident e' = s! "ACDC" /\ serder_new (fun _ => None) None (Some raw2) None None None = Err EValidation.
Proof.
  exists (s! "{""v"":""KERI10JSON00004c_"",""d"":""EAAAAAAAAAAAAAAAAAAAAAAAAAAAAAAAAAAAAAAAAAAA""}"), (s! "{""v"":""ACDC10JSON00004c_"",""d"":""EAAAAAAAAAAAAAAAAAAAAAAAAAAAAAAAAAAAAAAAAAAA""}"). eexists. eexists.
  split; [vm_compute; reflexivity|]. split; [vm_compute; reflexivity|]. split; [reflexivity|]. vm_compute. reflexivity.
Qed.

Lemma sizeify_fix m1 vs m2 kind z : ~ In (s! "v") (map fst m1) -> no_version_in (to_json (VObj m1)) -> sizeify (VObj (m1 ++ (s! "v", VStr vs) :: m2)) kind = Ok z ->
  sizeify (z_ked z) (Some (s! "JSON")) = Ok z.
Proof.
  intros N F H. apply no_version_find in F. destruct (sizeify_shape _ _ _ H) as (n1 & vs2 & n2 & proto & n & E & N' & V). assert (vs2 = vs) as ->.
  { injection E as E. apply (f_equal (assoc (s! "v"))) in E. rewrite !assoc_at in E by auto. injection E as E. auto. }
  rewrite (sizeify_spec _ _ _ _ _ _ _ _ N F V) in H. cbn [N.eqb Pos.eqb andb negb] in H.
  destruct (knd kind); [|discriminate]. cbn [negb] in H. destruct (utf8 (fore m1 (s! "v")) && utf8 (tail m2)) eqn:U; [|discriminate]. cbn [negb] in H.
  destruct (12 <? _) eqn:L; [discriminate|]. destruct (_ <? 2 ^ 24) eqn:L24; [|discriminate]. injection H as <-. unfold sized_of at 1. cbn [z_ked]. cbv zeta.
  assert (In proto idents) as IP by (apply idents_or; apply V). pose proof L24 as L24'. apply N.ltb_lt in L24'. pose proof (vtext_string proto _ IP L24') as V2.
  rewrite (sizeify_spec _ _ _ _ _ _ _ _ N F V2). cbn [N.eqb Pos.eqb andb negb]. change (knd (Some (s! "JSON"))) with true. cbn [negb]. rewrite U, L. cbn [negb]. rewrite L24. reflexivity.
Qed.
(*# C107_serialised_again
   Serialising an event again changes nothing: an event built from data, in which no text before v looks like a version string, is left exactly as it is. Asking
   for a kind other than JSON is refused and leaves any event as it is.
##
Example C107_again_case : exists s, serder_new (fun _ => None) None None None
    (Some (VObj [(s! "v", VStr (s! "KERI10JSON000000_")); (s! "d", VStr (s! "EAAAAAAAAAAAAAAAAAAAAAAAAAAAAAAAAAAAAAAAAAAA")); (s! "s", VStr (s! "0"))])) None = Ok s /\
  kind_into s (s! "JSON") = (s, Ok tt) /\ kind_into s (s! "CBOR") = (s, Err EValue).
Proof. eexists. split; [vm_compute; reflexivity|]. split; vm_compute; reflexivity. Qed.
#*)
Lemma C107_again_l :
  (forall (new : constructor) (canon : bytes -> option bytes) (code kind : option bytes) (m1 m2 : list (bytes * value)) (vs : bytes) (sad : option sadder) (s : sadder),
     In new constructors -> ~ In (s! "v") (map fst m1) -> no_version_in (to_json (VObj m1)) ->
     new canon code None kind (Some (VObj (m1 ++ (s! "v", VStr vs) :: m2))) sad = Ok s -> kind_into s (s! "JSON") = (s, Ok tt)) /\
  (forall (e : sadder) (kind : bytes), kind <> s! "JSON" -> fst (kind_into e kind) = e /\ is_err (snd (kind_into e kind)) = true).
Proof.
  split.
  - intros new canon code kind m1 m2 vs sad s I N F H. destruct (gated new I) as (ok & G). rewrite G, new_ked in H. destruct (populate_from_ked _ _ _) as [s'| |] eqn:P; [|discriminate|discriminate].
    destruct (ok (d_ident s')); [discriminate|]. injection H as ->. destruct (ked_ok _ _ _ _ P) as (z & t & sa & Z & FD & SA & CO & E).
    unfold kind_into. apply (proj1 (pop_iff _ _ (proj1 (ked_pop s (d_ked s) (Some (s! "JSON")))) (proj2 (ked_pop s (d_ked s) (Some (s! "JSON")))))).
    assert (d_ked s = z_ked z) as -> by (rewrite E; reflexivity). assert (d_code s = m_code sa) as -> by (rewrite E; auto).
    unfold populate_from_ked. rewrite (sizeify_fix _ _ _ _ _ N F Z), bind_Ok. apply index_field in FD. rewrite FD, bind_Ok. cbn [to_string]. rewrite bind_Ok, SA, bind_Ok, beq_refl. cbn [negb].
    rewrite CO. now rewrite <- E.
  - intros e kind K. unfold kind_into, ked_into. destruct (sizeify (d_ked e) (Some kind)) as [z| |] eqn:Z; [|split; reflexivity|destruct (sizeify_np _ _ Z)].
    exfalso. unfold sizeify in Z. apply bind_ok in Z as (m & _ & Z). destruct (contains_key _ m); [|discriminate]. cbn [negb] in Z. apply bind_ok in Z as (v & _ & Z). apply bind_ok in Z as (vs & _ & Z).
    apply bind_ok in Z as (r & _ & Z). destruct (version_eqb _ _); [|discriminate]. cbn [negb or_else] in Z. cbv zeta in Z.
    destruct (has_code serials kind) eqn:S; [|discriminate]. apply serials_json in S. contradiction.
Qed.

(*# C107_edited_event
   An event whose data have been replaced and that is then serialised again keeps the SAID named in its data: serialising does not compute a new one. It has the
   event's code, only the version string of the new data is rewritten, and if the SAID still is that of the event before, then the event verifies only when its data
   are the same as before, unless the digest function has a collision.
##
Example C107_edit_case : exists d o s e', saidify pretend (VObj [(s! "v", VStr (s! "KERI10JSON000000_")); (s! "d", VStr []); (s! "a", VInt 3)]) None None None [] = Ok (d, o) /\
  serder_new (fun _ => None) None None None (Some o) None = Ok s /\ said_verify pretend (d_saider s) (d_ked s) (Some true) (Some true) None None [] = Ok true /\
  kind_into (with_ked s (match d_ked s with VObj m => VObj (insert (s! "a") (VInt 4) m) | v => v end)) (s! "JSON") = (e', Ok tt) /\ d_saider e' = d_saider s /\ d_ked e' <> d_ked s.
Proof.
  eexists. eexists. eexists. eexists. split; [vm_compute; reflexivity|]. split; [vm_compute; reflexivity|]. split; [vm_compute; reflexivity|]. split; [vm_compute; reflexivity|].
  split; [vm_compute; reflexivity|]. vm_compute. discriminate.
Qed.
#*)
Lemma C107_edit_l (hash : bytes -> bytes -> bytes) (e e' : sadder) (ked : value) (kind : bytes) :
  kind_into (with_ked e ked) kind = (e', Ok tt) ->
  (exists m vs vs' t, ked = VObj m /\ field_of ked (s! "v") (VStr vs) /\ d_ked e' = VObj (insert (s! "v") (VStr vs') m) /\
     field_of ked (s! "d") (VStr t) /\ exfil t = Ok (d_saider e')) /\
  d_code e' = d_code e /\ m_code (d_saider e') = d_code e /\
  (sized_hash hash -> data (d_ked e) -> data ked -> d_saider e' = d_saider e ->
   said_verify hash (d_saider e) (d_ked e) (Some true) (Some true) None None [] = Ok true ->
   said_verify hash (d_saider e') (d_ked e') (Some true) (Some true) None None [] = Ok true -> d_ked e' = d_ked e \/ collision hash (d_code e)).
Proof.
  unfold kind_into. cbn [with_ked d_ked]. intros H. apply (proj1 (pop_iff _ _ (proj1 (ked_pop _ _ _)) (proj2 (ked_pop _ _ _)))) in H. cbn [with_ked d_code] in H.
  destruct (ked_ok _ _ _ _ H) as (z & t & sa & Z & FD & SA & CO & E). pose proof Z as Z'. destruct (sizeify_shape _ _ _ Z) as (m1 & vs0 & m2 & p0 & n0 & -> & _ & _).
  destruct (sizeify_ked _ _ _ Z) as (vs & proto & n & A & V & L & K & _). set (m := m1 ++ (s! "v", VStr vs0) :: m2) in *. clearbody m.
  assert (d_saider e' = sa) as ES by (rewrite E; reflexivity). assert (d_ked e' = z_ked z) as EK by (rewrite E; reflexivity). assert (d_code e' = d_code e) as EC by (rewrite E; reflexivity).
  rewrite ES, EK, EC. split.
  - exists m, vs, (vtext proto (as_u32 (len (to_json (VObj m))))), t. split; [reflexivity|]. split; [now apply field_assoc|]. split; [exact K|]. rewrite K in FD. apply field_assoc in FD.
    rewrite assoc_insert in FD. change (beq (s! "d") (s! "v")) with false in FD. change (beq (s! "v") (s! "d")) with false in FD. cbv iota in FD. split; [now apply field_assoc|].
    apply said_text in SA. apply SA.
  - split; [reflexivity|]. split; [exact CO|]. intros SH D D' S V1 V2. rewrite S in V2. rewrite <- CO, S. apply (same_said hash (d_saider e)); auto.
    rewrite K. apply data_insert; auto. apply data_str. assert (In proto idents) as IP by (apply idents_or; apply V). pose proof (vtext_string proto _ IP L) as VS.
    destruct (version_string_plain _ _ _ _ _ VS) as (_ & AS). now apply utf8_ascii.
Qed.
