(** Property C150, exactly: which schemas read back from their own text. *)
From Coq Require Import String.
From Coq Require Import NArith ZArith Bool List Lia.
From Verif Require Import Base Util Tables Matter Indexer Prims Json Common Saider Sadder Signer Verify Ingest Schemer.
From Verif Require Import Spec SpecPrims SpecJson SpecCommon SpecSaider SpecSadder SpecSigner SpecLog SpecCred SpecSchemer World SchemerCases.
From Verif Require Import BaseFacts MatterFacts MatterText PrimsFacts PrimsThms JsonFacts JsonThms CommonFacts SadderFacts SaiderFacts SaiderThms SadderThms FieldThms PrettyThms SignerThms VerifyFacts VerifyThms CredThms IngestThms MatterThms JsonThms LifeThms FollowFacts SchemerThms.
Import ListNotations.
Open Scope N_scope.

(** With or without the kind. *)
Lemma sizeify_kind m z : sizeify (VObj m) None = Ok z -> sizeify (VObj m) (Some (s! "JSON")) = Ok z.
Proof.
  intros H. destruct (sizeify_ked _ _ _ H) as (vs & proto & n & A & V & _). rewrite <- H. unfold sizeify. cbn [to_map index_str bind]. unfold contains_key. rewrite A. cbn [bind negb to_string].
  assert (deversify vs = Ok (Vi proto (s! "JSON") (Ver 1 0) n)) as D by (apply deversify_ok; split; auto). rewrite D, !bind_Ok. reflexivity.
Qed.
(** An identifier that is right but for the version string. *)
Lemma verify_version hash s m md kind' ser s' q vs vt kind : has_code said_codes (m_code s) = true -> prepared m (m_code s) kind id md kind' ->
  said_serialize (VObj md) kind' = Ok ser -> matter_of_code_raw (m_code s) (hash (m_code s) ser) = Ok s' -> infil s = Ok q -> infil s' = Ok q ->
  assoc (s! "v") m = Some (VStr vs) -> assoc (s! "v") md = Some (VStr vt) -> vs <> vt -> said_verify hash s (VObj m) (Some true) None kind (Some id) [] = Ok false.
Proof.
  intros HC P S M I I' A A' NE. unfold said_verify. cbn [or_else]. rewrite (derive_intro hash _ _ _ _ [] _ _ _ HC P S). unfold said_new. unfold validate. rewrite HC, bind_Ok, bind_Ok. cbn [fst snd matter_new].
  rewrite M, I, I', !bind_Ok, beq_refl. cbn [negb to_map index_str]. rewrite !bind_Ok. unfold contains_key. rewrite A, A'. cbn [bind to_string]. destruct (beq vs vt) eqn:E; [apply beq_eq in E; congruence|]. reflexivity.
Qed.

(*# C150_own_schema_reads_back_exactly
   A schema made from a value, which nests at most 127 deep and has a text shorter than 2^32 bytes, reads back from its own text exactly if its field v, where it has one, is the version string that the library makes for
   the size of this text. It then gives the same schema and leaves the caches as they are; otherwise it is refused.
##
Example C150_exactly_case : data schema_v /\ nests 127 (sm_sed (fst made_v)) /\ schemer_new no_floats mix any_schema [] None (Some schema_v) None None = Ok made_v /\ len (sm_raw (fst made_v)) < 2 ^ 32.
Proof.
  split; [apply data_checked; vm_compute; reflexivity|]. split; [apply nests_checked; vm_compute; reflexivity|]. split; [exact made_v_ok|vm_compute; reflexivity].
Qed.
Definition sized_schema : value := VObj [(s! "v", VStr (s! "ACDC10JSON00005e_")); (s! "$id", VStr []); (s! "type", VStr (s! "object"))].
Example C150_sized_case : data sized_schema /\ exists x c vs, schemer_new no_floats mix any_schema [] None (Some sized_schema) None None = Ok (x, c) /\
  get (s! "v") (match sized_schema with VObj m => m | _ => [] end) = Some (VStr vs) /\ versify (Some (s! "ACDC")) None None (Some (len (sm_raw x))) = Ok vs /\
  schemer_new no_floats mix any_schema c (Some (sm_raw x)) None None None = Ok (x, c).
Proof.
  split; [apply data_checked; vm_compute; reflexivity|]. eexists. eexists. eexists. split; [vm_compute; reflexivity|]. split; [vm_compute; reflexivity|]. split; vm_compute; reflexivity.
Qed.
#*)
Lemma C150_exactly_l (canon : bytes -> option bytes) (hash : bytes -> bytes -> bytes) (compiles : bytes -> jval -> bool) (c c' : compiled) (m : list (bytes * value)) (kind code kind2 code2 : option bytes) (x : schemer) :
  sized_hash hash -> data (VObj m) -> nests 127 (sm_sed x) -> schemer_new canon hash compiles c None (Some (VObj m)) kind code = Ok (x, c') -> len (sm_raw x) < 2 ^ 32 ->
  (schemer_new canon hash compiles c' (Some (sm_raw x)) None kind2 code2 = Ok (x, c') <->
   forall v, get (s! "v") m = Some v -> exists proto vs, v = VStr vs /\ versify (Some proto) None None (Some (len (sm_raw x))) = Ok vs) /\
  (schemer_new canon hash compiles c' (Some (sm_raw x)) None kind2 code2 = Ok (x, c') \/ schemer_new canon hash compiles c' (Some (sm_raw x)) None kind2 code2 = Err EValidation).
Proof.
  intros SH D N H LR. destruct (contains_key (s! "v") m) eqn:CV.
  2: { assert (~ In (s! "v") (map fst m)) as NV by (rewrite <- key_in, CV; discriminate). pose proof (C150_l canon hash compiles c c' m kind code kind2 code2 x SH D NV N H) as R. split; [|auto]. split; [|auto].
    intros _ v G. rewrite get_assoc in G. unfold contains_key in CV. rewrite G in CV. discriminate. }
  assert (fresh_sed None (Some (VObj m))) as F by (intros v _ [= <-]; exact D).
  destruct (made canon hash compiles SH _ _ _ _ _ _ _ F H) as (key & m' & SE & ND & A & K & ID & KI & RN & CC). destruct (RN eq_refl) as (RW & DM). rewrite SE in N.
  assert (assoc key c' <> None) as AC by (destruct CC as [(AC & ->)|(_ & j & _ & _ & _ & ->)]; auto; cbn [assoc]; rewrite beq_refl; discriminate).
  assert (exists md k' ser, m' = insert id (VStr key) m /\ sm_saider x = Mt (or_else code (s! "E")) 0 (m_raw (sm_saider x)) /\ has_code said_codes (or_else code (s! "E")) = true /\ from_utf8 (sm_raw x) = Ok (sm_raw x) /\ exfil key = Ok (sm_saider x) /\
    len key = said_fs (or_else code (s! "E")) /\ forallb plain key = true /\ prepared m (or_else code (s! "E")) None id md k' /\ said_serialize (VObj md) k' = Ok ser /\ m_raw (sm_saider x) = hash (or_else code (s! "E")) ser) as (md & k' & ser & EM & ES & HC & U & X & LK & PK & P & S & ER).
  { clear CC AC. unfold schemer_new in H. bok H y Y. bok H key' K'. bok H text T. bok H c1 C. injection H as -> <-. pose proof (utf8_from _ _ T). subst text. unfold schema_exhale in Y. bok Y z Zz. destruct z as (((raw, sed'), kind'), saider). injection Y as <-.
    cbn [sm_raw sm_sed sm_saider sm_kind] in *. destruct (beq (or_else kind (s! "JSON")) (s! "JSON")) eqn:EK; [|discriminate]. cbn [negb] in Zz. bok Zz sd SN. bok Zz q Q2. bok Zz sd' SS. injection Zz as <- <- <- <-.
    cbn [set_str] in SS. injection SS as <-. rewrite K in Q2. injection Q2 as <-. injection SE as <-.
    unfold said_new in SN. cbn [or_else to_map] in SN. rewrite bind_Ok in SN. fold id in SN. destruct (contains_key id m); [|discriminate]. cbn [negb] in SN. rewrite bind_Ok in SN.
    bok SN cr CR. bok CR u UU. bok CR d DD. injection CR as <-. destruct d as (rw, dsad). cbn [fst snd matter_new] in SN.
    destruct (derive_ok _ _ _ _ _ _ _ _ DD) as (HC & m1 & md & k' & ser & E & -> & P & S & ->). injection E as <-. cbn [strip fold_left] in S.
    destruct (said_built hash _ ser SH HC) as (B & W). rewrite B in SN. injection SN as <-. destruct (wf_round _ W) as (t & b & TT & _ & XX & _). rewrite TT in K. injection K as ->.
    destruct (said_text hash _ ser _ _ SH HC B TT) as (PQ & LQ & _). exists md, k', ser. auto 20. }
  assert (prepared m' (m_code (sm_saider x)) (Some (s! "JSON")) id md (Some (s! "JSON")) /\ exists vs proto n vt, assoc (s! "v") m' = Some (VStr vs) /\ assoc (s! "v") md = Some (VStr vt) /\ get (s! "v") m = Some (VStr vs) /\
    version_string vs proto 1 0 n /\ vt = vtext proto (len (sm_raw x)) /\ len (sm_raw x) < 2 ^ 24 /\ k' = Some (s! "JSON")) as (P' & vs & proto & n & vt & V1 & V2 & V3 & V4 & V5 & V6 & V7).
  { destruct P as [(CN & _)|(_ & z & Z & ZK & ->)]; [rewrite contains_insert, CV, orb_true_r in CN; discriminate|]. destruct (sizeify_ked _ _ _ Z) as (vs & proto & n & VA & V & L & K' & KJ). rewrite assoc_insert in VA. change (beq id (s! "v")) with false in VA.
    assert (len (to_json (VObj (insert id (dummy (or_else code (s! "E"))) m))) = len (sm_raw x)) as LL.
    { rewrite RW. rewrite <- (insert_insert id (VStr key) (dummy (or_else code (s! "E"))) m), <- EM. unfold dummy. apply json_len_k with (t := key); auto; [apply dummy_plain|]. rewrite len_repeat, LK. lia. }
    rewrite LL in *. assert (as_u32 (len (sm_raw x)) = len (sm_raw x)) as EL by (unfold as_u32; apply N.mod_small; exact LR). rewrite EL in *. rewrite K' in ZK. injection ZK as <-. rewrite KJ.
    split.
    - right. rewrite ES. cbn [m_code]. rewrite EM, insert_insert. split; [rewrite contains_insert, CV; apply orb_true_r|]. exists z. split; [now apply sizeify_kind|]. split; [exact K'|now rewrite KJ].
    - exists vs, proto, n. eexists. split; [rewrite EM, assoc_insert; change (beq id (s! "v")) with false; exact VA|]. split; [rewrite assoc_insert, beq_refl; reflexivity|]. split; [now rewrite get_assoc|]. auto. }
  assert (matter_of_code_raw (m_code (sm_saider x)) (hash (m_code (sm_saider x)) ser) = Ok (sm_saider x)) as MB by (rewrite ES; cbn [m_code]; rewrite ER; apply (said_built hash _ _ SH HC)).
  assert (In proto idents) as IP by (apply idents_or; apply V4). assert (versify (Some proto) None None (Some (len (sm_raw x))) = Ok vt) as VV by (rewrite V5; exact (versify_eq proto 1 0 (len (sm_raw x)) IP)).
  assert (HC' := HC). replace (or_else code (s! "E")) with (m_code (sm_saider x)) in HC' by (rewrite ES; reflexivity). rewrite V7 in S.
  assert ((forall v, get (s! "v") m = Some v -> exists proto vs, v = VStr vs /\ versify (Some proto) None None (Some (len (sm_raw x))) = Ok vs) <-> vs = vt) as EV.
  { split; [|intros -> v G; rewrite V3 in G; injection G as <-; eauto]. intros G. destruct (G _ V3) as (p & vs2 & E & G2). injection E as <-. assert (In p idents) as IP2.
    { unfold versify in G2. cbn [or_else] in G2. destruct (has_code idents p) eqn:HI; [now apply has_code_in|discriminate]. }
    pose proof (versify_eq p 1 0 (len (sm_raw x)) IP2) as G3. change (versify (Some p) (Some (Ver 1 0)) (Some (s! "JSON")) (Some (len (sm_raw x)))) with (versify (Some p) None None (Some (len (sm_raw x)))) in G3. rewrite G2 in G3. injection G3 as G3. change (vs = vtext p (len (sm_raw x))) in G3.
    pose proof (vtext_string p _ IP2 V6) as W2. rewrite <- G3 in W2. pose proof (version_proto _ _ _ _ _ V4 W2). subst p. congruence. }
  assert (schemer_new canon hash compiles c' (Some (sm_raw x)) None kind2 code2 = (let* ok := said_verify hash (sm_saider x) (VObj m') (Some true) None (Some (s! "JSON")) (Some id) [] in if ok then Ok (x, c') else Err EValidation)) as ->.
  { unfold schemer_new, schema_inhale. rewrite RW, (proj1 (proj1 (C103_own_l canon (VObj m') DM)) N), bind_Ok. cbn [to_map]. rewrite bind_Ok. fold id. rewrite A. cbn [to_string]. rewrite bind_Ok.
    rewrite (said_read key _ X) by exact HC'. rewrite bind_Ok. destruct (said_verify _ _ _ _ _ _ _ _) as [[|]|e|]; cbn [bind negb]; auto. cbn [sm_saider sm_raw sm_sed]. rewrite K, bind_Ok. rewrite <- RW, U, bind_Ok. unfold schema_add. destruct (assoc key c') eqn:EA; [|congruence]. rewrite bind_Ok.
    destruct x as [xr xs xk xsd]. cbn [sm_raw sm_sed sm_kind sm_saider] in *. now rewrite SE, KI. }
  rewrite EV. destruct (beq vs vt) eqn:E; [apply beq_eq in E|].
  - rewrite (verify_intro hash (sm_saider x) m' (Some true) None (Some (s! "JSON")) (Some id) [] md (Some (s! "JSON")) ser (sm_saider x) key HC' P' S MB K K); [split; [tauto|auto]|intros _ _; congruence|auto].
  - assert (vs <> vt) as NE by (intros ->; rewrite beq_refl in E; discriminate). rewrite (verify_version hash (sm_saider x) m' md (Some (s! "JSON")) ser (sm_saider x) key vs vt (Some (s! "JSON")) HC' P' S MB K K V1 V2 NE). cbn [bind].
    split; [split; [discriminate|contradiction]|auto].
Qed.
