(** Facts about the writing of attachments and the building of credentials, used by the theorems on issuing and revoking. *)
From Coq Require Import String.
From Coq Require Import NArith ZArith QArith Bool List Lia.
From Verif Require Import Base Util Tables Matter Indexer Counter Prims Json Tholder Common Saider Diger Sadder Signer Prefixer Pather Messaging Short Verify Ingest Events Issue.
From Verif Require Import Spec SpecPrims SpecJson SpecCommon SpecTholder SpecSaider SpecSadder SpecPrefixer SpecSigner SpecFlow SpecLog SpecIngest SpecCred SpecBuild SpecLife SpecIssue.
From Verif Require Import BaseFacts UtilFacts MatterFacts MatterText MatterThms CounterFacts PrimsFacts PrimsThms JsonFacts CommonFacts SadderFacts SaiderFacts SadderThms SaiderThms FieldThms PrefixerThms SignerThms FlowThms ShortThms TholderFacts TholderThms VerifyFacts VerifyThms LogThms IngestThms CredThms RoundThms MessagingThms MessageThms FollowFacts FollowThms LifeThms.
Import ListNotations.
Open Scope N_scope.

(** ** Credentials built from data *)
Lemma sizeify_json v z : sizeify v None = Ok z -> sizeify v (Some (s! "JSON")) = Ok z.
Proof.
  unfold sizeify. intros H. bok H m M. rewrite M, bind_Ok. destruct (negb _); [discriminate|]. bok H x X. rewrite X, bind_Ok. bok H vs V. rewrite V, bind_Ok. bok H r RR. rewrite RR, bind_Ok.
  destruct (negb _); [discriminate|]. cbn [or_else] in *. assert (vi_kind r = s! "JSON") as <-; [|exact H]. destruct (negb _); [discriminate|]. bok H raw DU. clear H. unfold dumps in DU. cbn [or_else] in DU.
  destruct (beq (vi_kind r) (s! "JSON")) eqn:B; [now apply beq_eq in B|discriminate DU].
Qed.
Lemma derive_json hash m code label ig r : In (s! "v") (map fst m) -> said_derive hash (VObj m) code None label ig = Ok r -> said_derive hash (VObj m) code (Some (s! "JSON")) label ig = Ok r.
Proof.
  intros I H. unfold said_derive in *. cbv zeta in *. bok H u U. rewrite U, bind_Ok. bok H z ZS. rewrite ZS, bind_Ok. bok H d D. rewrite D, bind_Ok. bok H s SS. rewrite SS, bind_Ok. bok H mm MM. rewrite MM, bind_Ok.
  assert (contains_key (s! "v") mm = true) as C.
  { cbn [set_str] in SS. injection SS as <-. cbn [to_map] in MM. injection MM as <-. rewrite contains_insert. apply contains_in in I. rewrite I. apply orb_true_r. }
  rewrite C in *. bok H ks KS. bok KS zz ZZ. injection KS as <-. rewrite (sizeify_json _ _ ZZ), !bind_Ok. exact H.
Qed.
Lemma cresized canon vs m e : creder_with_ked canon (VObj ((s! "v", VStr vs) :: m)) None None = Ok e ->
  exists proto n t, let n' := as_u32 (len (to_json (VObj ((s! "v", VStr vs) :: m)))) in
    version_string vs proto 1 0 n /\ d_ked e = VObj ((s! "v", VStr (vtext proto n')) :: m) /\ n' < 2 ^ 24 /\
    field_of (d_ked e) (s! "d") (VStr t) /\ said_of_qb64 t = Ok (d_saider e) /\ m_code (d_saider e) = s! "E".
Proof.
  unfold creder_with_ked, creder_new. rewrite new_ked. intros H. apply bind_ok in H as (e' & P & H).
  assert (e' = e) as -> by (destruct (negb _) in H; [discriminate H|injection H as H; exact H]). clear H.
  destruct (ked_ok _ _ _ _ P) as (z & t & sa & Z & F & SA & CO & E). destruct (sizeify_ked _ _ _ Z) as (vs0 & proto & n & A & V & L & K & _).
  cbn in A. injection A as <-. exists proto, n, t. cbv zeta. rewrite E. cbn [d_ked d_saider]. rewrite K in F |- *. auto 8.
Qed.
Lemma cmade_said canon hash vs m r e : sized_hash hash -> saidify hash (VObj ((s! "v", VStr vs) :: m)) None None None [] = Ok r -> creder_with_ked canon (snd r) None None = Ok e ->
  exists vs' o, d_ked e = snd r /\ snd r = VObj ((s! "v", VStr vs') :: o) /\ d_saider e = fst r /\ (forall k, k <> s! "d" -> k <> s! "v" -> get k ((s! "v", VStr vs') :: o) = get k m) /\
    said_verify hash (d_saider e) (d_ked e) (Some false) (Some true) None None [] = Ok true /\ map fst o = map fst m.
Proof.
  destruct r as (d & out). intros SH S H. destruct (C101_output_l hash _ None None None [] d out SH S) as (o & t & -> & KO & CD & ID & GD & _ & GO & GV). cbn [fst snd] in *.
  destruct (keys_order _ _ _ KO) as (x & o' & -> & KO'). destruct (GV (VStr vs)) as (vs0 & proto & n0 & vs' & E & V0 & GV' & V'); [reflexivity|]. injection E as <-. injection GV' as ->.
  destruct (cresized _ _ _ _ H) as (proto' & n & t' & V & K & L & F & SD & C).
  assert (proto' = proto) as -> by exact (version_proto _ _ _ _ _ V V').
  assert (In proto idents) as IP by (apply idents_or; apply V).
  assert (vtext proto (as_u32 (len (to_json (VObj ((s! "v", VStr vs') :: o'))))) = vs') as EV. { eapply version_unique; [apply vtext_string; auto|exact V']. }
  rewrite EV in K.
  assert (exfil t = Ok d) as XT.
  { change (saidify hash (VObj ((s! "v", VStr vs) :: m)) (Some (s! "E")) None (Some (s! "d")) [] = Ok (d, VObj ((s! "v", VStr vs') :: o'))) in S.
    destruct (saidify_ok _ _ _ _ _ _ _ _ S) as (m' & md & k' & ser & q & _ & _ & HC & _ & _ & _ & M & _ & Q & _). rewrite ID in Q. injection Q as <-.
    destruct (FieldThms.said_text _ _ _ _ _ SH HC M ID) as (_ & _ & X). exact X. }
  assert (t' = t) as ->. { rewrite K in F. apply field_assoc in F. rewrite <- get_assoc in F. cbn [or_else fst] in GD. rewrite GD in F. now injection F. }
  apply SadderFacts.said_text in SD as (SD & _). assert (d_saider e = d) as ED by congruence.
  exists vs', o'. split; auto. split; auto. split; auto. split.
  { intros k N1 N2. rewrite GO by auto. unfold get. cbn [find fst]. destruct (beq (s! "v") k) eqn:B; [apply beq_eq in B; congruence|reflexivity]. }
  split; auto. rewrite ED, K. exact (C58a_l hash _ _ None None None [] _ _ _ S).
Qed.
Lemma cmade canon hash vs m r e : sized_hash hash -> NoDup (map fst ((s! "v", VStr vs) :: m)) -> In (s! "d") (map fst m) ->
  saidify hash (VObj ((s! "v", VStr vs) :: m)) None None None [] = Ok r -> creder_with_ked canon (snd r) None None = Ok e ->
  exists vs' t, d_ked e = VObj ((s! "v", VStr vs') :: insert (s! "d") (VStr t) m) /\ sad_said e = Ok t /\ exfil t = Ok (d_saider e) /\ m_code (d_saider e) = s! "E" /\
    said_verify hash (d_saider e) (d_ked e) (Some false) (Some true) None None [] = Ok true.
Proof.
  intros SH ND I S H. pose proof H as H'. destruct (cmade_said _ _ _ _ _ _ SH S H) as (vs' & o & K & KR & SD & G & V & KO). rewrite KR in H'.
  destruct (cresized _ _ _ _ H') as (proto & n & t & _ & K' & _ & F & SQ & C). exists vs', t.
  destruct r as (d & out). cbn [fst snd] in *. rewrite KR in S, K. destruct (C101_output_l hash _ None None None [] d _ SH S) as (o' & t' & E & _ & CD & ID & GD & _ & _ & _). injection E as <-.
  assert (t = t') as ->. { rewrite K in F. apply field_assoc in F. rewrite <- get_assoc in F. cbn [or_else fst] in GD. rewrite GD in F. now injection F. }
  assert (o = insert (s! "d") (VStr t') m) as EO.
  { inversion ND as [|? ? N0 N1]; subst. apply same_fields; auto.
    intros k NK. destruct (bytes_eq_dec k (s! "v")) as [->|NV].
    { assert (get (s! "v") o = None /\ get (s! "v") m = None) as (-> & ->); [|reflexivity]. split; rewrite get_assoc; apply assoc_none; [rewrite KO|]; exact N0. }
    rewrite <- (G k NK NV), get_cons. destruct (beq (s! "v") k) eqn:B; [apply beq_eq in B; congruence|reflexivity]. }
  rewrite K, EO in *. apply SadderFacts.said_text in SQ as (X & _). repeat split; auto.
  - unfold sad_said. rewrite SD. exact ID.
Qed.
Definition cassembled canon e : Prop := exists vs m, creder_with_ked canon (VObj ((s! "v", VStr vs) :: m)) None None = Ok e.
Lemma cback canon e : cassembled canon e -> data (d_ked e) -> nests 127 (d_ked e) -> len (d_raw e) < 2 ^ 32 -> creder_with_raw canon (d_raw e) = Ok e.
Proof.
  intros (vs & m & H) D NE L. destruct (cresized _ _ _ _ H) as (proto & n & t & V & K & _). cbv zeta in K. rewrite K in D, NE.
  assert (data (VStr vs)) as DV by (constructor; destruct (version_string_plain _ _ _ _ _ V) as (_ & A); now apply utf8_ascii).
  destruct (C54_l creder_new canon None None None [] m vs [] None None None e) as (G & _); auto.
  - cbn. auto.
  - intros a b c E VL. destruct (like_char _ VL) as (LV & _). apply (f_equal len) in E. rewrite !len_app, LV in E. change (len (to_json (VObj []))) with 2 in E. lia.
  - cbn [app]. inversion D as [| | | | |m' ND U FD]; subst. cbn [map fst snd] in *. inversion FD; subst. constructor; cbn [map fst snd]; auto.
  - cbn [app]. inversion NE as [| | | | | |n' m' FN]; subst. cbn [map snd] in *. inversion FN; subst. repeat constructor; auto.
  - rewrite app_nil_r in G. exact G.
Qed.
Lemma csaidified canon hash vs m r e : sized_hash hash -> saidify hash (VObj ((s! "v", VStr vs) :: m)) None None None [] = Ok r -> creder_with_ked canon (snd r) None None = Ok e -> cassembled canon e.
Proof. intros SH S H. destruct (cmade_said _ _ _ _ _ _ SH S H) as (vs' & o & _ & E & _). rewrite E in H. exists vs', o. exact H. Qed.
Lemma verify_json hash d m p v l : In (s! "v") (map fst m) -> said_verify hash d (VObj m) p v None l [] = Ok true -> said_verify hash d (VObj m) p v (Some (s! "JSON")) l [] = Ok true.
Proof.
  intros I H. unfold said_verify in *. cbv zeta in *. destruct (said_derive hash (VObj m) (Some (m_code d)) None (Some (or_else l (s! "d"))) []) as [r| |] eqn:D; [|discriminate H|discriminate H].
  rewrite (derive_json _ _ _ _ _ _ I D). exact H.
Qed.

(** ** How attachments are written *)
Definition codes_used : list bytes := [s! "-A"; s! "-G"; s! "-J"; s! "-F"; s! "-V"].
Lemma counts code n c t : In code codes_used -> counter_of_code_count code n = Ok c -> cinfil c = Ok t -> counted code n t /\ n < 4096.
Proof.
  intros I C T. assert (counter_of_code_count code n = if 4096 <=? n then Err EInvalidVarIndex else Ok (Ct code n)) as E.
  { cbn in I. repeat destruct I as [<-|I]; try contradiction; (erewrite cconstruct; [|reflexivity]); reflexivity. }
  rewrite E in C. destruct (N.leb_spec 4096 n); [discriminate|]. injection C as <-. split; auto.
  assert (exists z, cwf (Ct code n) z /\ ss z = 2) as (z & W & SZ).
  { cbn in I. repeat destruct I as [<-|I]; try contradiction; (eexists; split; [split; [reflexivity|assumption]|reflexivity]). }
  rewrite (cinfil_wf _ _ W) in T. injection T as <-. unfold ctext. rewrite SZ. cbn [c_code c_count]. exists (b64_digits 2 n). split; [now rewrite len_b64_digits|]. split; [|reflexivity].
  rewrite number_b64val, b64val_digits. f_equal. apply N.mod_small. exact H.
Qed.
Lemma signatures_written sigs t : headed (s! "-A") sigs (siger_texts sigs) = Ok t -> len sigs < 2 ^ 32 -> signatures (map fst sigs) t.
Proof.
  unfold headed. intros H L. assert (as_u32 (len sigs) = len sigs) as EL by (unfold as_u32; apply N.mod_small; exact L). rewrite EL in H. bok H c C. bok H h HH. bok H ts T. injection H as <-.
  destruct (counts (s! "-A") _ _ _ (or_introl eq_refl) C HH) as (CT & _). apply texts_shown in T as (us & F & ->). exists h, us. split; [now rewrite len_map|]. split; [|reflexivity].
  clear - F. induction F as [|p u l us P F IH]; cbn [map]; constructor; auto.
Qed.
Lemma signed_written e sigs text : signed_message e sigs = Ok text -> len sigs < 2 ^ 32 -> len text < 2 ^ 32 -> exists t, text = d_raw e ++ t /\ written (GQuadlets [GSigs (map fst sigs)]) t.
Proof.
  unfold signed_message, endorse_serder, messagize_serder. cbn [is_none andb or_else]. intros H L LT. bok H en EN. bok EN a A. rewrite bind_Ok in A. bok A g G. injection A as <-. rewrite !bind_Ok in EN. injection EN as <-.
  rewrite !app_nil_r in *. bok H msg M. unfold from_utf8 in M. destruct (utf8 (d_raw e)); [|discriminate]. injection M as <-. bok H gl GL. injection H as <-.
  destruct (negb _) eqn:M4 in GL; [discriminate|]. apply negb_false_iff, N.eqb_eq in M4. bok GL c C.
  assert (as_u32 (len g / 4) = len g / 4) as EG. { unfold as_u32. apply N.mod_small. rewrite !len_app in LT. change (2 ^ 32) with 4294967296 in LT. apply N.div_lt_upper_bound; lia. }
  rewrite EG in C. destruct (counts (s! "-V") _ _ _ ltac:(cbn; auto 8) C GL) as (CT & _). exists (gl ++ g). split; [now rewrite app_assoc|].
  apply (written_long _ _ (len g / 4)); auto. { constructor. now apply signatures_written. } pose proof (N.div_mod (len g) 4). lia.
Qed.
Lemma place_written event n anchor m text : anchored_text event n anchor = Ok text -> n < 2 ^ 32 -> infil m = Ok anchor -> exists sq t, text = event ++ t /\ written (GSources [(sq, m)]) t /\ seqner_sn sq = Ok n.
Proof.
  unfold anchored_text, seqner_with_sn. intros H L M. bok H c C. bok H sq SQ. bok H ct CT. bok H qt QT. injection H as <-.
  assert (n <= u128_max) as LE by (unfold u128_max; change (2 ^ 32) with 4294967296 in L; lia). destruct (seqner_new_spec n LE) as (E & _ & SN). rewrite E in SQ. injection SQ as <-.
  destruct (counts (s! "-G") _ _ _ ltac:(cbn; auto 8) C CT) as (CC & _). eexists _, _. split; [reflexivity|]. split; [|exact SN]. constructor; auto.
Qed.
Lemma path_written pre sq said sigs proof c text p sd : ratify_creder pre sq said sigs = Ok proof -> messagize_creder c proof = Ok text -> infil p = Ok pre -> infil sd = Ok said -> len sigs < 2 ^ 32 -> len text < 2 ^ 32 ->
  exists pa t, text = d_raw c ++ t /\ written (GQuadlets [GPaths [Sps pa p sq sd (map fst sigs)]]) t /\ bext_of pa = Ok (s! "-").
Proof.
  unfold ratify_creder, messagize_creder. intros H M IP SD L LT. bok H cj CJ. bok H pa PA. bok H h HH. bok H pt PT. bok H cf CF. bok H f FF. bok H qt QT. bok H g G. injection H as <-.
  destruct (counts (s! "-J") _ _ _ ltac:(cbn; auto 8) CJ HH) as (CC & _). destruct (counts (s! "-F") _ _ _ ltac:(cbn; auto 8) CF FF) as (CC2 & _).
  set (proof := h ++ pt ++ f ++ pre ++ qt ++ said ++ g) in *. bok M msg U. unfold from_utf8 in U. destruct (utf8 (d_raw c)); [|discriminate]. injection U as <-. destruct (negb _) eqn:M4 in M; [discriminate|].
  apply negb_false_iff, N.eqb_eq in M4. bok M cv CV. bok M gl GL. injection M as <-.
  assert (as_u32 (len proof) = len proof) as EG. { unfold as_u32. apply N.mod_small. rewrite !len_app in LT. change (2 ^ 32) with 4294967296 in LT. change 4294967296 with (2 ^ 32). change (2 ^ 32) with 4294967296. lia. }
  rewrite EG in CV. destruct (counts (s! "-V") _ _ _ ltac:(cbn; auto 8) CV GL) as (CT & _). exists pa, (gl ++ proof). split; [reflexivity|]. split.
  - apply (written_long _ _ (len proof / 4)); auto. { constructor; auto. now apply signatures_written. } pose proof (N.div_mod (len proof) 4). lia.
  - assert (pather_with_path (VArr []) = Ok pa) as E by exact PA. vm_compute in E. injection E as <-. vm_compute. reflexivity.
Qed.

(** ** Acceptance *)
Lemma anchor_intro canon hash cr mo f st owner sq sd e seen n text ae a pre s said : seqner_sn sq = Ok n -> n < 2 ^ 32 -> get_key_event st owner n = Ok text -> serder_with_raw canon text = Ok ae ->
  sad_said ae = Ok a -> infil sd = Ok a -> field_of (d_ked ae) (s! "a") (one_seal pre s said) -> serder_pre e = Ok pre -> text_at (d_ked e) (s! "s") = Ok s -> sad_said e = Ok said ->
  verify_anchor canon hash cr mo f st owner sq sd e (Some false) seen = Ok (true, seen).
Proof.
  intros SQ L G R A SD F P T D. unfold verify_anchor. rewrite SQ, bind_Ok. unfold as_u32. rewrite N.mod_small by exact L. rewrite G, bind_Ok, R, bind_Ok, A, bind_Ok, SD, bind_Ok, beq_refl. cbn [negb].
  apply index_field in F. rewrite F, bind_Ok. unfold one_seal. cbn [to_vec]. rewrite bind_Ok.
  set (seal := VObj _). assert (text_at seal (s! "i") = Ok pre /\ text_at seal (s! "s") = Ok s /\ text_at seal (s! "d") = Ok said) as (-> & -> & ->) by (repeat split; reflexivity).
  cbn [or_else andb]. rewrite !bind_Ok, T, bind_Ok, beq_refl. cbn [negb]. rewrite P, bind_Ok, beq_refl. cbn [negb]. rewrite D, bind_Ok, beq_refl. reflexivity.
Qed.
Lemma create_shape canon hash now salts schema issuer data recipient private status source rules c : sized_hash hash ->
  create canon hash now salts schema issuer data recipient private None (Some status) source rules None None = Ok c ->
  exists vs m t, d_ked c = VObj ((s! "v", VStr vs) :: m) /\ assoc (s! "ri") m = Some (VStr status) /\ assoc (s! "s") m = Some (VStr schema) /\ assoc (s! "i") m = Some (VStr issuer) /\ assoc (s! "e") m = source /\
    sad_said c = Ok t /\ exfil t = Ok (d_saider c) /\ m_code (d_saider c) = s! "E" /\ said_verify hash (d_saider c) (d_ked c) (Some false) (Some true) (Some (s! "JSON")) None [] = Ok true /\ cassembled canon c.
Proof.
  intros SH H. unfold create in H. cbv zeta in H. bok H vs V. bok H vc VC. bok H sb SB. bok H sb1 SB1. bok H dm DM. bok H sb2 SB2. bok H sb3 SB3.
  bok H v1 V1. bok H v2 V2. bok H v3 V3. bok H v4 V4. bok H v5 V5. bok H v6 V6. bok H sad SA. bok H v7 V7. bok H r SS.
  assert (exists m, v7 = VObj ((s! "v", VStr vs) :: m) /\ NoDup (map fst ((s! "v", VStr vs) :: m)) /\ In (s! "d") (map fst m) /\ assoc (s! "ri") (insert (s! "d") (VStr []) m) = Some (VStr status) /\ assoc (s! "s") m = Some (VStr schema) /\ assoc (s! "i") m = Some (VStr issuer) /\
    assoc (s! "e") m = source /\ assoc (s! "ri") m = Some (VStr status)) as (m & -> & ND & ID & _ & AS & AI & AE & AR).
  { destruct (or_else private false); injection VC as <-; injection V1 as <-; injection V2 as <-; injection V3 as <-; injection V4 as <-; (destruct source as [src|]; injection V5 as <-); (destruct rules as [ru|]; injection V6 as <-); injection V7 as <-;
      (eexists; split; [reflexivity|]; split; [apply different; vm_compute; reflexivity|]; split; [cbn; auto|]; repeat split; reflexivity). }
  destruct (cmade _ _ _ _ _ _ SH ND ID SS H) as (vs' & t & K & SD & X & C & SV). exists vs', (insert (s! "d") (VStr t) m), t.
  assert (forall k, k <> s! "d" -> assoc k (insert (s! "d") (VStr t) m) = assoc k m) as AO by (intros k NK; rewrite JsonFacts.assoc_insert; destruct (beq (s! "d") k) eqn:B; [apply beq_eq in B; congruence|reflexivity]).
  rewrite !AO by discriminate. split; auto. repeat (split; [assumption|]). split; [|eapply csaidified; eauto]. rewrite K in *. apply verify_json; auto. cbn. auto.
Qed.

(** ** Registry events that are built *)
Definition registry_event (canon : bytes -> option bytes) (e : sadder) (t : bytes) : Prop :=
  sad_said e = Ok t /\ exfil t = Ok (d_saider e) /\ m_code (d_saider e) = s! "E" /\ assembled canon e.
Lemma issue_shape canon hash now nonce said ri own text : sized_hash hash -> credential_issue canon hash now nonce said ri = Ok (own, text) -> exists e vs, text = d_raw e /\ utf8 (d_raw e) = true /\ registry_event canon e own /\
  said_verify hash (d_saider e) (d_ked e) (Some false) (Some true) None None [] = Ok true /\
  d_ked e = VObj [(s! "v", VStr vs); (s! "t", VStr (s! "iss")); (s! "d", VStr own); (s! "i", VStr said); (s! "s", VStr (s! "0")); (s! "ri", VStr ri); (s! "dt", VStr now); (s! "n", VStr nonce)].
Proof.
  intros SH H. unfold credential_issue in H. cbv zeta in H. bok H vs V. bok H r SS. bok H e E. bok H o OO. bok H tx T. injection H as <- <-.
  destruct (fun nd i => made canon hash _ _ _ _ SH nd i SS E) as (vs' & t & K & SD & X & C & SV). { apply different. vm_compute. reflexivity. } { vm_compute. auto. }
  rewrite SD in OO. injection OO as <-. unfold from_utf8 in T. destruct (utf8 (d_raw e)) eqn:U; [|discriminate]. injection T as <-. exists e, vs'. split; auto. split; auto. split; [|split; [exact SV|exact K]].
  split; auto. split; auto. split; auto. eapply saidified; eauto.
Qed.
Lemma revoke_shape canon hash now nonce said ri prior own text : sized_hash hash -> credential_revoke canon hash now nonce said ri prior = Ok (own, text) -> exists e vs, text = d_raw e /\ utf8 (d_raw e) = true /\ registry_event canon e own /\
  said_verify hash (d_saider e) (d_ked e) (Some false) (Some true) None None [] = Ok true /\
  d_ked e = VObj [(s! "v", VStr vs); (s! "t", VStr (s! "rev")); (s! "d", VStr own); (s! "i", VStr said); (s! "s", VStr (s! "1")); (s! "ri", VStr ri); (s! "p", VStr prior); (s! "dt", VStr now); (s! "n", VStr nonce)].
Proof.
  intros SH H. unfold credential_revoke in H. cbv zeta in H. bok H vs V. bok H r SS. bok H e E. bok H o OO. bok H tx T. injection H as <- <-.
  destruct (fun nd i => made canon hash _ _ _ _ SH nd i SS E) as (vs' & t & K & SD & X & C & SV). { apply different. vm_compute. reflexivity. } { vm_compute. auto. }
  rewrite SD in OO. injection OO as <-. unfold from_utf8 in T. destruct (utf8 (d_raw e)) eqn:U; [|discriminate]. injection T as <-. exists e, vs'. split; auto. split; auto. split; [|split; [exact SV|exact K]].
  split; auto. split; auto. split; auto. eapply saidified; eauto.
Qed.
Lemma registry_shape canon hash issuer pre text : sized_hash hash -> registry_incept canon hash issuer = Ok (pre, text) -> exists e vs p, text = d_raw e /\ utf8 (d_raw e) = true /\ registry_event canon e pre /\
  prefixer_with_qb64 hash pre = Ok p /\ prefixer_verify hash p (d_ked e) (Some true) = Ok true /\
  d_ked e = VObj [(s! "v", VStr vs); (s! "t", VStr (s! "vcp")); (s! "d", VStr pre); (s! "i", VStr pre); (s! "ii", VStr issuer); (s! "s", VStr (s! "0")); (s! "c", VArr [VStr (s! "NB")]); (s! "bt", VStr (s! "0")); (s! "b", VArr [])].
Proof.
  intros SH H. unfold registry_incept in H. cbv zeta in H. bok H vs V. bok H p PK. unfold prefixer_with_ked in PK. bok H t T. bok H ked1 K1. injection K1 as <-. bok H ked2 K2. injection K2 as <-. bok H e E. bok H tx TX. injection H as <- <-.
  assert (m_code p = s! "E") as CP. { destruct (C62_asked_l _ _ _ _ _ PK) as (A & _). now apply A. }
  destruct (resized _ _ _ _ E) as (proto & n & t' & VS & K & L & F & SD & C).
  assert (wf_matter p) as W by exact (prefix_wf _ _ _ _ _ PK). destruct (wf_round _ W) as (t0 & b0 & T0 & _ & X0 & _). assert (t0 = t) as -> by congruence.
  assert (In proto idents) as IP by (apply idents_or; apply VS).
  destruct (C62b_l hash) with (4 := PK) (2 := VS) (3 := vtext_string _ _ IP L) (said := VStr t) (prefixed := Some true) as (pre & I1 & PV).
  { apply different. vm_compute. reflexivity. } { rewrite CP. vm_compute. auto 20. }
  assert (pre = t) as -> by congruence. cbn [insert] in K.
  assert (t' = t) as ->. { rewrite K in F. apply field_assoc in F. vm_compute in F. congruence. }
  apply SadderFacts.said_text in SD as (SD & _). assert (d_saider e = p) as ED by congruence.
  unfold from_utf8 in TX. destruct (utf8 (d_raw e)) eqn:U; [|discriminate]. injection TX as <-. eexists e, _, p. split; auto. split; auto. split.
  { split; [unfold sad_said; now rewrite ED|]. split; auto. split; auto. cbn [insert] in E. eexists _, _. exact E. }
  split; [exact X0|]. split; [|exact K]. rewrite K. exact PV.
Qed.

(** ** Signatures of a key set *)
Lemma signed_indices cr hash rng ser gs : correct cr -> Forall (a_signer cr) gs -> forall i sigs n, sign_each hash cr rng ser None gs i = Ok (sigs, n) -> map i_index (map fst sigs) = upto i (length gs).
Proof.
  intros CR AS. induction AS as [|g gs SG AS IH]; intros i sigs n H; cbn [sign_each] in H; [injection H as <- <-; reflexivity|].
  rewrite bind_Ok in H. bok H x X. bok H nx NX. bok H r RR. injection H as <- <-. destruct x as (x, v). destruct r as (more, n'). cbn [fst snd] in *.
  destruct (answer _ _ _ _ _ _ _ _ _ CR SG X) as (IX & _). unfold u32_add in NX. destruct (_ <=? _); [|discriminate]. injection NX as <-. cbn [map fst length upto]. rewrite (IH _ _ _ RR), IX. reflexivity.
Qed.
Lemma keyset_indices cr hash rng k ser keys sigs : correct cr -> k_offset k = 0 -> ks_verfers_qb64 cr k = Ok keys -> ks_sign hash cr rng k ser None = Ok sigs -> map i_index (map fst sigs) = upto 0 (length keys) /\ len sigs <= 4096.
Proof.
  intros CR O V SG. destruct (keyset_signs _ _ _ _ _ _ _ CR O V SG) as (_ & _ & _ & LK & _).
  assert (map i_index (map fst sigs) = upto 0 (length keys)) as E.
  { unfold ks_verfers_qb64, ks_verfers in V. bok V vs G. bok G gs GS. injection G as <-. apply prints_each in V. unfold ks_sign in SG. rewrite GS, bind_Ok in SG. bok SG r RR. injection SG as <-.
    destruct (signers_made _ _ _ _ GS) as (AS & _). rewrite O in RR. change (as_u32 0) with 0 in RR. destruct r as (sg, n). cbn [fst]. rewrite (signed_indices _ _ _ _ _ CR AS _ _ _ RR). f_equal. apply length_pair in V. now rewrite map_length in V. }
  split; auto. apply (f_equal len) in E. rewrite !len_map, upto_len in E. unfold len in *. lia.
Qed.
Lemma upto_NoDup n : forall i, NoDup (upto i n).
Proof. induction n as [|n IH]; intros i; cbn [upto]; constructor; auto. rewrite upto_in. lia. Qed.
Lemma distinct_same l : forall acc, NoDup (acc ++ l) -> distinct acc l = acc ++ l.
Proof.
  induction l as [|x l IH]; intros acc ND; cbn [distinct]; [now rewrite app_nil_r|]. destruct (existsb (sig_eqb x) acc) eqn:E.
  - exfalso. apply existsb_exists in E as (y & I & E). apply sig_eqb_eq in E. subst y. apply NoDup_remove_2 in ND. apply ND, in_or_app. auto.
  - rewrite IH by (now rewrite <- app_assoc). now rewrite <- app_assoc.
Qed.
Lemma last_nowhere keep l : (forall e, last_of keep l <> Ok e) -> forall i, last_place keep l i = None.
Proof.
  induction l as [|x l IH]; intros H i; cbn [last_of last_place] in *; [reflexivity|]. destruct (last_of keep l) as [y| |]; [now elim (H y)| |]; (rewrite IH by discriminate; destruct (keep x); [now elim (H x)|reflexivity]).
Qed.
Lemma last_placed keep l : forall e i, last_of keep l = Ok e -> exists j, last_place keep l i = Some (e, i + N.of_nat j) /\ nth_error l j = Some e.
Proof.
  induction l as [|x l IH]; intros e i H; cbn [last_of last_place] in *; [discriminate|]. destruct (last_of keep l) as [y| |] eqn:L.
  - injection H as ->. destruct (IH e (i + 1) eq_refl) as (j & P & NT). rewrite P. exists (S j). split; [f_equal; f_equal; lia|exact NT].
  - rewrite last_nowhere by (rewrite L; discriminate). destruct (keep x); [|discriminate]. injection H as ->. exists 0%nat. split; [f_equal; f_equal; lia|reflexivity].
  - rewrite last_nowhere by (rewrite L; discriminate). destruct (keep x); [|discriminate]. injection H as ->. exists 0%nat. split; [f_equal; f_equal; lia|reflexivity].
Qed.

(** ** The next interaction of an identifier *)
Lemma controls_last canon l pre n pe dig : len (l_kel l pre) = n + 1 -> logged canon (view canon l) pre n pe dig ->
  exists text, last_of (fun _ => true) (l_kel l pre) = Ok text /\ serder_with_raw canon text = Ok pe /\ sad_said pe = Ok dig.
Proof.
  intros L (text & G & R & S). exists text. split; auto. cbn [view get_key_event] in G. unfold at_sn in G. destruct (nth_error (l_kel l pre) (N.to_nat n)) as [x|] eqn:NT; [|discriminate]. injection G as ->.
  apply nth_error_split in NT as (a & b & E & LA). rewrite E in *. assert (b = []) as -> by (rewrite len_app, len_cons in L; destruct b; [reflexivity|]; unfold len in *; cbn [length] in L; lia). now rewrite last_of_snoc.
Qed.
Lemma controls_kept canon hash cr l pre k e text said ilk : controls canon hash cr l pre k -> utf8 text = true ->
  serder_with_raw canon (d_raw e) = Ok e -> sad_said e = Ok said -> text_at (d_ked e) (s! "t") = Ok ilk -> ~ In ilk establishing -> controls canon hash cr (insert_key_event l pre (d_raw e ++ text)) pre k.
Proof.
  intros (PX & O & n & pe & dig & ee & keys & LN & LG & (tx & GL & ES) & KS & SK) TX R S T I. assert (serder_with_raw canon (d_raw e ++ text) = Ok e) as RD by (apply (read_on canon (d_raw e)); auto).
  assert (l_kel (insert_key_event l pre (d_raw e ++ text)) pre = l_kel l pre ++ [d_raw e ++ text]) as LK by (cbn; unfold added; now rewrite beq_refl).
  split; auto. split; auto. exists (n + 1), e, said, ee, keys. split; [rewrite LK, len_app, LN; reflexivity|]. split; [|split; [|auto]].
  - exists (d_raw e ++ text). cbn [view get_key_event]. rewrite LK. split; auto. now apply at_last.
  - exists tx. split; auto. cbn [view get_latest_establishment_event_as_of_sn] in *. rewrite LK. rewrite firstn_all2 by (rewrite app_length; cbn; unfold len in LN; lia). rewrite last_of_snoc.
    unfold establishes at 1. rewrite RD. assert (serder_est e = Ok false) as ->.
    { destruct (proj2 (est_field e false)); auto. exists ilk. split; [now apply type_of|]. split; [discriminate|contradiction]. }
    rewrite firstn_all2 in GL by (unfold len in LN; lia). exact GL.
Qed.
Lemma interaction_taken canon hash cr rng l pre k dig n data s text : correct cr -> sized_hash hash -> controls canon hash cr l pre k -> len (l_kel l pre) = n -> n < 2 ^ 32 ->
  (let* event := last_of (fun _ => true) (l_kel l pre) in said_in canon event) = Ok dig -> do_interact hash cr canon rng k pre dig n data = Ok (s, text) -> len text < 2 ^ 32 ->
  exists e sigs t, text = d_raw e ++ t /\ written (GQuadlets [GSigs sigs]) t /\ sad_said e = Ok s /\ exfil s = Ok (d_saider e) /\ field_of (d_ked e) (s! "a") data /\ serder_pre e = Ok pre /\ text_at (d_ked e) (s! "t") = Ok (s! "ixn") /\
    (readable e -> serder_with_raw canon (d_raw e) = Ok e /\
      (utf8 t = true -> controls canon hash cr (insert_key_event l pre (d_raw e ++ t)) pre k) /\
      forall mo gt sc age seen fuel deep verify t', gt (GQuadlets [GSigs sigs]) = Ok t' -> deep <> Some true -> verify <> Some false ->
        ingest_loop canon hash cr mo gt sc age seen (S fuel) deep verify l [] [MPayload (d_raw e); MGroup (GQuadlets [GSigs sigs])] = (insert_key_event l pre (d_raw e ++ t'), Ok tt)).
Proof.
  intros CR SH CT LN B LD H LT. pose proof CT as ((p & PX & PI) & O & n0 & pe & dig' & ee & keys & L0 & LG & ES & KS & SK). assert (n0 = n - 1 /\ 1 <= n) as (-> & N1) by lia.
  destruct (controls_last canon l pre _ _ _ L0 LG) as (lt & E1 & E2 & E3). rewrite E1, bind_Ok in LD. unfold said_in in LD. rewrite E2, bind_Ok, E3 in LD. injection LD as ->.
  unfold do_interact in H. bok H e E. bok H sg SG. bok H ev EV. bok H sd SD. injection H as -> ->. destruct (keyset_indices _ _ _ _ _ _ _ CR O KS SG) as (_ & LS).
  assert (len sg < 2 ^ 32) as LS' by (change (2 ^ 32) with 4294967296; lia). destruct (signed_written _ _ _ EV LS' LT) as (t & -> & W). exists e, (map fst sg), t.
  destruct (interact_shape _ _ _ _ _ _ _ _ _ SH E) as (vs & snr & snh & t0 & _ & _ & _ & K & SD0 & XT & _ & _). rewrite SD in SD0. injection SD0 as <-. cbn [or_else] in K.
  assert (serder_pre e = Ok pre) as SP by (unfold serder_pre; rewrite K; reflexivity). assert (text_at (d_ked e) (s! "t") = Ok (s! "ixn")) as TY by (unfold text_at; rewrite K; reflexivity).
  split; auto. split; auto. split; auto. split; auto. split; [rewrite K; apply field_assoc; reflexivity|]. split; auto. split; auto. intros (DA & NE & LE).
  assert (assembled canon e) as AE. { unfold interact in E. cbv zeta in E. bok E vs0 V0. bok E a1 A1. bok E a2 A2. destruct (_ <? _); [discriminate|]. bok E a3 A3. bok E r SS. eapply saidified; eauto. }
  pose proof (back _ _ AE DA NE LE) as RD. split; auto. split. { intros U. eapply controls_kept; eauto. cbn. intuition discriminate. }
  intros mo gt sc age seen fuel deep verify t' GT ND NV. eapply (take_in canon hash cr mo gt sc age seen (S fuel) deep verify l e (map fst sg) pre s (s! "ixn")); eauto; [cbn; auto|].
  eapply C139_l; eauto. cbn [view count_key_events]. now rewrite LN.
Qed.

(** ** Registry events *)
Lemma take_tel canon hash cr mo gt sc age seen fuel deep verify l e couple pre said ilk text :
  serder_with_raw canon (d_raw e) = Ok e -> sad_said e = Ok said -> serder_pre e = Ok pre -> text_at (d_ked e) (s! "t") = Ok ilk -> In ilk [s! "vcp"; s! "iss"; s! "rev"] -> verify <> Some false ->
  gt (GSources [couple]) = Ok text -> verify_transaction_event canon hash cr mo fuel (view canon l) e [couple] deep [said] = Ok (false, [said]) ->
  ingest_loop canon hash cr mo gt sc age seen fuel deep verify l [] [MPayload (d_raw e); MGroup (GSources [couple])] = (insert_transaction_event l pre (d_raw e ++ text), Ok tt).
Proof.
  intros R S P T I NV G V. destruct (read_facts _ _ R) as (U & n & SN). cbn [ingest_loop]. unfold ingest_one. rewrite SN, bind_Ok. cbn [vi_ident]. change (beq (s! "KERI") (s! "KERI")) with true. cbv iota zeta.
  rewrite R, bind_Ok, S, bind_Ok, bind_Ok, T, bind_Ok. assert (has_code [s! "icp"; s! "rot"; s! "ixn"] ilk = false) as -> by (cbn in I; repeat destruct I as [<-|I]; try contradiction; reflexivity).
  apply has_code_In in I. rewrite I. unfold there. assert (or_else verify true = true) as -> by (destruct verify as [[|]|]; auto; congruence). cbn [has_code existsb negb andb].
  rewrite V, bind_Ok. cbn [fst negb snd]. unfold from_utf8. rewrite U, bind_Ok, P, bind_Ok, G, bind_Ok. reflexivity.
Qed.
Lemma prefix_text hash t m : exfil t = Ok m -> prefixer_with_qb64 hash t = Ok m.
Proof. intros H. exact H. Qed.
Lemma issue_taken canon hash cr mo f st e vs own said ri now nonce sq sd seen n text ae a owner reg rtext :
  d_ked e = VObj [(s! "v", VStr vs); (s! "t", VStr (s! "iss")); (s! "d", VStr own); (s! "i", VStr said); (s! "s", VStr (s! "0")); (s! "ri", VStr ri); (s! "dt", VStr now); (s! "n", VStr nonce)] ->
  sad_said e = Ok own -> said_verify hash (d_saider e) (d_ked e) (Some false) (Some true) None None [] = Ok true -> (exists p, prefixer_with_qb64 hash said = Ok p) ->
  count_transaction_events st said = Ok 0 -> get_transaction_event st ri 0 = Ok rtext -> serder_with_raw canon rtext = Ok reg -> field_of (d_ked reg) (s! "ii") (VStr owner) ->
  seqner_sn sq = Ok n -> n < 2 ^ 32 -> get_key_event st owner n = Ok text -> serder_with_raw canon text = Ok ae -> sad_said ae = Ok a -> infil sd = Ok a -> field_of (d_ked ae) (s! "a") (one_seal said (s! "0") own) ->
  verify_transaction_event canon hash cr mo (S f) st e [(sq, sd)] (Some false) seen = Ok (false, seen).
Proof.
  intros K SD SV (p & PX) CT GT RR FO SQ B GK RK SA IS FA. cbn [verify_transaction_event].
  assert (serder_pre e = Ok said) as SP by (unfold serder_pre; rewrite K; reflexivity). rewrite SP, bind_Ok, PX, bind_Ok.
  assert (serder_sn e = Ok 0) as -> by (unfold serder_sn, serder_sner; rewrite K; vm_compute; reflexivity). rewrite bind_Ok.
  assert (text_at (d_ked e) (s! "t") = Ok (s! "iss")) as -> by (unfold text_at; rewrite K; reflexivity). rewrite bind_Ok, SD, bind_Ok.
  assert (registry_of (s! "iss") e = Ok ri) as -> by (unfold registry_of, text_at; rewrite K; reflexivity). rewrite bind_Ok. change (transaction_labels (s! "iss")) with (Ok iss_labels). rewrite bind_Ok.
  assert (verify_ked_labels (d_ked e) iss_labels = Ok true) as -> by (rewrite K; reflexivity). rewrite bind_Ok. cbn [negb]. rewrite CT, bind_Ok.
  assert (anchoring canon hash st e p (s! "iss") ri = Ok owner) as ->.
  { unfold anchoring. change (beq (s! "iss") (s! "vcp")) with false. change (beq (s! "iss") (s! "iss")) with true. cbv iota. cbn [orb]. rewrite SV, bind_Ok. cbn [negb]. rewrite GT, bind_Ok, RR, bind_Ok. unfold text_at. apply index_field in FO. now rewrite FO. }
  rewrite bind_Ok. rewrite (anchor_intro canon hash cr mo f st owner sq sd e seen n text ae a said (s! "0") own) by (assumption || (unfold text_at; rewrite K; reflexivity)).
  rewrite bind_Ok. reflexivity.
Qed.
Lemma revoke_taken canon hash cr mo f st e vs own said ri prior now nonce sq sd seen n text ae a owner reg rtext pe ptext :
  d_ked e = VObj [(s! "v", VStr vs); (s! "t", VStr (s! "rev")); (s! "d", VStr own); (s! "i", VStr said); (s! "s", VStr (s! "1")); (s! "ri", VStr ri); (s! "p", VStr prior); (s! "dt", VStr now); (s! "n", VStr nonce)] ->
  sad_said e = Ok own -> said_verify hash (d_saider e) (d_ked e) (Some false) (Some true) None None [] = Ok true -> (exists p, prefixer_with_qb64 hash said = Ok p) ->
  count_transaction_events st said = Ok 1 -> get_transaction_event st said 0 = Ok ptext -> serder_with_raw canon ptext = Ok pe -> sad_said pe = Ok prior ->
  get_transaction_event st ri 0 = Ok rtext -> serder_with_raw canon rtext = Ok reg -> field_of (d_ked reg) (s! "ii") (VStr owner) ->
  seqner_sn sq = Ok n -> n < 2 ^ 32 -> get_key_event st owner n = Ok text -> serder_with_raw canon text = Ok ae -> sad_said ae = Ok a -> infil sd = Ok a -> field_of (d_ked ae) (s! "a") (one_seal said (s! "1") own) ->
  verify_transaction_event canon hash cr mo (S f) st e [(sq, sd)] (Some false) seen = Ok (false, seen).
Proof.
  intros K SD SV (p & PX) CT GP PR PS GT RR FO SQ B GK RK SA IS FA. cbn [verify_transaction_event].
  assert (serder_pre e = Ok said) as SP by (unfold serder_pre; rewrite K; reflexivity). rewrite SP, bind_Ok, PX, bind_Ok.
  assert (serder_sn e = Ok 1) as -> by (unfold serder_sn, serder_sner; rewrite K; vm_compute; reflexivity). rewrite bind_Ok.
  assert (text_at (d_ked e) (s! "t") = Ok (s! "rev")) as -> by (unfold text_at; rewrite K; reflexivity). rewrite bind_Ok, SD, bind_Ok.
  assert (registry_of (s! "rev") e = Ok ri) as -> by (unfold registry_of, text_at; rewrite K; reflexivity). rewrite bind_Ok. change (transaction_labels (s! "rev")) with (Ok rev_labels). rewrite bind_Ok.
  assert (verify_ked_labels (d_ked e) rev_labels = Ok true) as -> by (rewrite K; reflexivity). rewrite bind_Ok. cbn [negb]. rewrite CT, bind_Ok.
  assert (anchoring canon hash st e p (s! "rev") ri = Ok owner) as ->.
  { unfold anchoring. change (beq (s! "rev") (s! "vcp")) with false. change (beq (s! "rev") (s! "iss")) with false. change (beq (s! "rev") (s! "rev")) with true. cbv iota. cbn [orb]. rewrite SV, bind_Ok. cbn [negb]. rewrite GT, bind_Ok, RR, bind_Ok. unfold text_at. apply index_field in FO. now rewrite FO. }
  rewrite bind_Ok. rewrite (anchor_intro canon hash cr mo f st owner sq sd e seen n text ae a said (s! "1") own) by (assumption || (unfold text_at; rewrite K; reflexivity)).
  rewrite bind_Ok. cbn [fst snd negb]. change (beq (s! "rev") (s! "vcp") || beq (s! "rev") (s! "iss")) with false. change (1 <? 1) with false. cbv iota. change (before 1) with (Ok 0). rewrite bind_Ok, GP, bind_Ok, PR, bind_Ok, PS, bind_Ok.
  cbn [or_else andb]. rewrite bind_Ok. assert (text_at (d_ked e) (s! "p") = Ok prior) as -> by (unfold text_at; rewrite K; reflexivity). rewrite bind_Ok, beq_refl. reflexivity.
Qed.
Lemma registry_taken canon hash cr mo f st e vs pre owner p sq sd seen n text ae a :
  d_ked e = VObj [(s! "v", VStr vs); (s! "t", VStr (s! "vcp")); (s! "d", VStr pre); (s! "i", VStr pre); (s! "ii", VStr owner); (s! "s", VStr (s! "0")); (s! "c", VArr [VStr (s! "NB")]); (s! "bt", VStr (s! "0")); (s! "b", VArr [])] ->
  sad_said e = Ok pre -> prefixer_with_qb64 hash pre = Ok p -> prefixer_verify hash p (d_ked e) (Some true) = Ok true -> count_transaction_events st pre = Ok 0 ->
  seqner_sn sq = Ok n -> n < 2 ^ 32 -> get_key_event st owner n = Ok text -> serder_with_raw canon text = Ok ae -> sad_said ae = Ok a -> infil sd = Ok a -> field_of (d_ked ae) (s! "a") (one_seal pre (s! "0") pre) ->
  verify_transaction_event canon hash cr mo (S f) st e [(sq, sd)] (Some false) seen = Ok (false, seen).
Proof.
  intros K SD PX PV CT SQ B GK RK SA IS FA. cbn [verify_transaction_event].
  assert (serder_pre e = Ok pre) as SP by (unfold serder_pre; rewrite K; reflexivity). rewrite SP, bind_Ok, PX, bind_Ok.
  assert (serder_sn e = Ok 0) as -> by (unfold serder_sn, serder_sner; rewrite K; vm_compute; reflexivity). rewrite bind_Ok.
  assert (text_at (d_ked e) (s! "t") = Ok (s! "vcp")) as -> by (unfold text_at; rewrite K; reflexivity). rewrite bind_Ok, SD, bind_Ok.
  assert (registry_of (s! "vcp") e = Ok pre) as -> by (unfold registry_of; exact SP). rewrite bind_Ok. change (transaction_labels (s! "vcp")) with (Ok vcp_labels). rewrite bind_Ok.
  assert (verify_ked_labels (d_ked e) vcp_labels = Ok true) as -> by (rewrite K; reflexivity). rewrite bind_Ok. cbn [negb]. rewrite CT, bind_Ok.
  assert (anchoring canon hash st e p (s! "vcp") pre = Ok owner) as ->.
  { unfold anchoring. change (beq (s! "vcp") (s! "vcp")) with true. cbv iota. rewrite PV, bind_Ok. cbn [negb]. unfold text_at. rewrite K. reflexivity. }
  rewrite bind_Ok. rewrite (anchor_intro canon hash cr mo f st owner sq sd e seen n text ae a pre (s! "0") pre) by (assumption || (unfold text_at; rewrite K; reflexivity)).
  rewrite bind_Ok. reflexivity.
Qed.

(** ** Credentials *)
Lemma cread_utf8 canon text c : creder_with_raw canon text = Ok c -> utf8 (d_raw c) = true.
Proof.
  unfold creder_with_raw, creder_new. rewrite new_raw. intros H. destruct (populate_from_raw _ _ _) as [x| |] eqn:P; try discriminate. rewrite bind_Ok in H. destruct (negb _) eqn:N; [discriminate|]. injection H as ->.
  destruct (raw_ok _ _ _ _ P) as (proto & n & t & sa & A & L & U & V & F & SA & CO & E). rewrite E. exact U.
Qed.
Lemma cread_facts canon e : creder_with_raw canon (d_raw e) = Ok e -> utf8 (d_raw e) = true /\ exists n, sniff (d_raw e) = Ok (Vi (s! "ACDC") (s! "JSON") (Ver 1 0) n).
Proof.
  unfold creder_with_raw, creder_new. rewrite new_raw. intros H. destruct (populate_from_raw _ _ _) as [x| |] eqn:P; try discriminate. rewrite bind_Ok in H. destruct (negb _) eqn:N; [discriminate|]. injection H as ->.
  destruct (raw_ok _ _ _ _ P) as (proto & n & t & sa & A & L & U & V & F & SA & CO & E).
  assert (d_raw e = take n (d_raw e) /\ d_ident e = proto) as (E1 & E2) by (split; rewrite E at 1; reflexivity). rewrite E2 in N. apply negb_false_iff, beq_eq in N. subst proto.
  split; [now rewrite E1|]. exists n. now apply announces_sniff.
Qed.
Lemma those_filter f (P : bytes -> Prop) l k : (forall x, f x = true <-> P x) -> those P l k -> filter f l = k.
Proof.
  intros E H. induction H as [|x l k Q H IH|x l k Q H IH]; cbn [filter]; [reflexivity| |]; (destruct (f x) eqn:F; [|try (apply E in Q; congruence); congruence]); [congruence|]. apply E in F. contradiction.
Qed.
Lemma texts_intro ts : Verify.texts (map VStr ts) = Ok ts.
Proof. induction ts as [|t ts IH]; [reflexivity|]. cbn [map Verify.texts to_string]. now rewrite IH. Qed.
Lemma node_intro canon sc l issuer node c : edge_fits canon sc l issuer node -> field_of (d_ked c) (s! "i") (VStr issuer) -> exists x, check_node canon sc (view canon l) c node = Ok x.
Proof.
  intros (said & e & ops & subject & LD & (text & GA & RD) & SC & OP & NN & FS & D) FI. unfold check_node.
  assert (exists m, node = VObj m) as (m & ->) by (destruct LD as (a & b & -> & _); eauto). cbn [to_map]. rewrite bind_Ok. assert (forall k x, field_of (VObj m) k x <-> assoc k m = Some x) as F by (intros k x; apply field_assoc).
  apply F in LD. unfold entry at 1. rewrite LD, bind_Ok. cbn [to_string]. rewrite bind_Ok, GA, bind_Ok, RD, bind_Ok.
  assert ((match assoc (s! "s") m with Some v => let* node_schema := to_string v in let* text0 := from_utf8 (d_raw e) in sc node_schema text0 | None => Ok true end) = Ok true) as ->.
  { destruct SC as [LK|(schema & S & SV)].
    - destruct (assoc (s! "s") m) as [v|] eqn:A; [|reflexivity]. apply F in A. now elim (LK v).
    - apply F in S. rewrite S. cbn [to_string]. rewrite bind_Ok. unfold from_utf8. rewrite (cread_utf8 _ _ _ RD), bind_Ok. exact SV. }
  rewrite bind_Ok. cbn [negb].
  assert (operators_of m = Ok (filter (has_code [s! "I2I"; s! "NI2I"; s! "DI2I"]) ops)) as ->.
  { unfold operators_of. assert ((match assoc (s! "o") m with None => Ok [] | Some v => match to_string v with Ok t => Ok [t] | _ => let* l := to_vec v in Verify.texts l end end) = Ok ops) as ->.
    { destruct OP as [(LK & ->)|[(t & T & ->)|A]].
      - destruct (assoc (s! "o") m) as [v|] eqn:A; [|reflexivity]. apply F in A. now elim (LK v).
      - apply F in T. now rewrite T.
      - apply F in A. rewrite A. cbn [to_string to_vec]. rewrite bind_Ok. apply texts_intro. }
    rewrite bind_Ok. destruct (has_code ops (s! "NOT")) eqn:HN; [apply has_code_In in HN; contradiction|reflexivity]. }
  rewrite bind_Ok. unfold creder_subject. apply index_field in FS. rewrite FS, bind_Ok. cbn [to_map]. rewrite bind_Ok.
  assert (forall k, those unary ops k -> filter (has_code [s! "I2I"; s! "NI2I"; s! "DI2I"]) ops = k) as TF by (intros k; apply those_filter; intros x; apply has_code_In).
  assert (forall x, field_of (VObj subject) (s! "i") x <-> assoc (s! "i") subject = Some x) as FS' by (intros x; apply field_assoc).
  destruct D as [(II & HI)|NI].
  - assert (operator_of (filter (has_code [s! "I2I"; s! "NI2I"; s! "DI2I"]) ops) subject = Ok (s! "I2I")) as ->.
    { destruct II as [T|(T & x & X)]; rewrite (TF _ T); [reflexivity|]. unfold operator_of, contains_key. apply FS' in X. rewrite X. reflexivity. }
    rewrite bind_Ok, beq_refl. unfold entry. apply FS' in HI. rewrite HI, bind_Ok. cbn [to_string]. rewrite bind_Ok. unfold creder_issuer. apply index_field in FI. rewrite FI, bind_Ok. cbn [to_string]. rewrite bind_Ok, beq_refl. cbn [negb]. eauto.
  - assert (operator_of (filter (has_code [s! "I2I"; s! "NI2I"; s! "DI2I"]) ops) subject = Ok (s! "NI2I")) as ->.
    { destruct NI as [T|(T & X)]; rewrite (TF _ T); [reflexivity|]. unfold operator_of, contains_key. destruct (assoc (s! "i") subject) as [x|] eqn:A; [elim (X x); now apply FS'|reflexivity]. }
    rewrite bind_Ok. change (beq (s! "NI2I") (s! "I2I")) with false. rewrite beq_refl. eauto.
Qed.
Lemma nodes_intro canon hash cr mo sc age f l issuer c : field_of (d_ked c) (s! "i") (VStr issuer) -> forall m seen, (forall label node, In (label, node) m -> label <> s! "d" -> label <> s! "o" -> edge_fits canon sc l issuer node) ->
  nodes_of canon hash cr mo sc age f (view canon l) c (Some false) m seen = Ok seen.
Proof.
  intros FI. induction m as [|(label, node) m IH]; intros seen H; [reflexivity|]. cbn [nodes_of]. change (nodes_of canon hash cr mo sc age f (view canon l) c (Some false)) with (nodes_of canon hash cr mo sc age f (view canon l) c (Some false)) in IH.
  destruct (has_code [s! "d"; s! "o"] label) eqn:HC; [apply IH; intros; eapply H; eauto; now right|].
  assert (label <> s! "d" /\ label <> s! "o") as (N1 & N2). { split; intros ->; discriminate HC. }
  destruct (node_intro canon sc l issuer node c (H label node (or_introl eq_refl) N1 N2) FI) as (((x & y) & z) & ->). rewrite bind_Ok. cbn [or_else andb]. rewrite bind_Ok. apply IH. intros. eapply H; eauto. now right.
Qed.
Lemma edges_intro canon hash cr mo sc age f l issuer c prov edges : field_of (d_ked c) (s! "i") (VStr issuer) -> creder_chains c = Ok prov -> Forall (fun x => exists m, x = VObj m) edges ->
  match prov with VObj _ => edges = [prov] | VArr l => edges = l | _ => False end -> (forall node, edge (d_ked c) node -> edge_fits canon sc l issuer node) ->
  forall seen, edges_of canon hash cr mo sc age f (view canon l) c (Some false) edges seen = Ok seen.
Proof.
  intros FI P FM E H seen. assert (forall es, In (VObj es) edges -> forall label node, In (label, node) es -> label <> s! "d" -> label <> s! "o" -> edge_fits canon sc l issuer node) as G.
  { intros es I label node J N1 N2. apply H, (edges_in _ _ P). exists label, es. split; auto. split; auto. split; auto. destruct prov as [| | | | |ps|ps]; try contradiction; subst edges; [right; eauto|]. destruct I as [<-|[]]. now left. }
  clear E H P. revert seen G. induction FM as [|x edges (m & ->) FM IH]; intros seen G; [reflexivity|]. cbn [edges_of to_map]. rewrite bind_Ok.
  rewrite (nodes_intro canon hash cr mo sc age f l issuer c FI m seen) by (intros; eapply (G m); eauto; now left). rewrite bind_Ok. apply IH. intros; eapply G; eauto. now right.
Qed.
Lemma take_acdc canon hash cr mo gt sc age seen fuel deep verify l c gs said text :
  creder_with_raw canon (d_raw c) = Ok c -> sad_said c = Ok said -> verify <> Some false ->
  gt (GQuadlets gs) = Ok text -> verify_acdc canon hash cr mo sc age fuel (view canon l) c gs deep [said] = Ok (false, [said]) ->
  ingest_loop canon hash cr mo gt sc age seen fuel deep verify l [] [MPayload (d_raw c); MGroup (GQuadlets gs)] = (insert_acdc l (d_raw c ++ text), Ok tt).
Proof.
  intros R S NV G V. destruct (cread_facts _ _ R) as (U & n & SN). cbn [ingest_loop]. unfold ingest_one. rewrite SN, bind_Ok. cbn [vi_ident]. change (beq (s! "ACDC") (s! "KERI")) with false. change (beq (s! "ACDC") (s! "ACDC")) with true. cbv iota zeta.
  rewrite R, bind_Ok, S, bind_Ok, bind_Ok. unfold there. assert (or_else verify true = true) as -> by (destruct verify as [[|]|]; auto; congruence). cbn [has_code existsb negb andb].
  rewrite V, bind_Ok. cbn [fst negb snd]. unfold from_utf8. rewrite U, bind_Ok, G, bind_Ok. reflexivity.
Qed.
Lemma path_intro canon hash cr mo f st c g seen pre n text e said vs t : correct cr -> bext_of (sp_pather g) = Ok (s! "-") -> infil (sp_prefixer g) = Ok pre -> seqner_sn (sp_seqner g) = Ok n -> n < 2 ^ 32 ->
  get_key_event st pre n = Ok text -> serder_with_raw canon text = Ok e -> sad_said e = Ok said -> infil (sp_saider g) = Ok said -> signing_keys canon e = Ok (vs, t) -> NoDup (sp_sigers g) ->
  forall k, check_groups cr vs (d_raw c) [GSigs (sp_sigers g)] = Ok (map (fun i => (i, i)) (upto 0 k)) -> satisfy t (upto 0 k) = Ok true ->
  check_path_groups canon hash cr mo f st c (Some false) [GPaths [g]] false seen = Ok (true, seen).
Proof.
  intros CR B P SQ LN G R S SD SK ND k CG SA. cbn [check_path_groups check_path_sigs]. unfold check_path_sig. rewrite B, bind_Ok, beq_refl. cbn [negb]. rewrite P, bind_Ok, SQ, bind_Ok. unfold as_u32. rewrite N.mod_small by exact LN.
  rewrite G, bind_Ok, R, bind_Ok, S, bind_Ok, SD, bind_Ok, beq_refl. cbn [negb or_else andb]. rewrite bind_Ok. unfold signing_keys in SK. bok SK th TH. destruct th as [th|]; [|discriminate]. bok SK vf VF. injection SK as -> ->.
  rewrite VF, bind_Ok. rewrite (distinct_same _ []) by exact ND. cbn [app]. cbn [check_groups] in CG. bok CG x X. rewrite bind_Ok, app_nil_r in CG. injection CG as ->. rewrite X, bind_Ok, TH, bind_Ok. rewrite map_map, map_id, SA. reflexivity.
Qed.
