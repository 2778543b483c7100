(** Proofs of the theorems on schemas. *)
From Coq Require Import String.
From Coq Require Import NArith ZArith Bool List Lia.
From Verif Require Import Base Util Tables Matter Indexer Prims Json Common Saider Sadder Signer Verify Ingest Schemer.
From Verif Require Import Spec SpecPrims SpecJson SpecCommon SpecSaider SpecSadder SpecSigner SpecLog SpecCred SpecSchemer World SchemerCases.
From Verif Require Import BaseFacts MatterFacts MatterText PrimsFacts PrimsThms JsonFacts JsonThms CommonFacts SadderFacts SaiderFacts SaiderThms SadderThms FieldThms PrettyThms SignerThms VerifyFacts VerifyThms CredThms IngestThms MatterThms JsonThms LifeThms FollowFacts.
Import ListNotations.
Open Scope N_scope.

Definition id : bytes := s! "$id".
(** ** Reading *)
Lemma obj_keys canon text m : value_of_text canon text = Ok (VObj m) -> NoDup (map fst m).
Proof.
  unfold value_of_text. intros H. bok H j J. clear J. destruct j as [|b|n|n|t|s|l|l]; try discriminate.
  - cbn [of_json] in H. destruct (_ <=? _); discriminate.
  - cbn [of_json] in H. destruct (existsb _ _); discriminate.
  - rewrite of_json_arr in H. bok H v V. discriminate.
  - rewrite of_json_obj in H. bok H mm M. injection H as ->. assert (NoDup (map fst (@nil (bytes * value)))) as ND by constructor. revert M ND. generalize (@nil (bytes * value)). induction l as [|(k, x) l IH]; intros a M ND; cbn [ogo_obj] in M.
    + injection M as <-. exact ND.
    + bok M v V. apply (IH _ M). now apply insert_NoDup.
Qed.
Lemma replaced_keys k x (m : list (bytes * value)) : map fst (replaced k x m) = map fst m.
Proof. unfold replaced. rewrite map_map. apply map_ext. intros (a, b). cbn [fst]. now destruct (beq a k). Qed.
Lemma replaced_swap k k' x y (m : list (bytes * value)) : k <> k' -> replaced k x (replaced k' y m) = replaced k' y (replaced k x m).
Proof.
  intros N. unfold replaced. rewrite !map_map. apply map_ext. intros (a, b). cbn [fst]. destruct (beq a k) eqn:E1, (beq a k') eqn:E2; cbn [fst]; rewrite ?E1, ?E2; auto.
  apply beq_eq in E1. apply beq_eq in E2. congruence.
Qed.
Lemma insert_rep k x (m : list (bytes * value)) : NoDup (map fst m) -> In k (map fst m) -> insert k x m = replaced k x m.
Proof. apply insert_replaced. Qed.
Lemma key_in k (m : list (bytes * value)) : contains_key k m = true <-> In k (map fst m).
Proof. unfold contains_key. induction m as [|(a, b) m IH]; cbn [assoc map fst In]; [split; [discriminate|tauto]|]. destruct (beq a k) eqn:E; [apply beq_eq in E; tauto|]. rewrite IH. split; auto. intros [->|I]; auto. now rewrite beq_refl in E. Qed.
(** What is digested, and so the identifier. *)
Lemma prepared_identified hash code kind m md k' ser key : NoDup (map fst m) -> assoc id m = Some (VStr key) -> has_code said_codes code = true -> prepared m code kind id md k' ->
  said_serialize (VObj md) k' = Ok ser -> exfil key = Ok (Mt code 0 (hash code ser)) -> identified hash key (VObj m).
Proof.
  intros ND A HC P S X. apply serialize_json in S. subst ser.
  assert (In id (map fst m)) as IN by (apply key_in; unfold contains_key; now rewrite A).
  assert (exists m', (~ In (s! "v") (map fst m) /\ m' = m \/ In (s! "v") (map fst m) /\ exists vs proto n, version_string vs proto 1 0 n /\ m' = replaced (s! "v") (VStr vs) m) /\
    md = replaced id (dummies (text_width code)) m') as (m' & MM & ->).
  { destruct P as [(CV & -> & _)|(CV & z & Z & K & _)]; rewrite contains_insert in CV; change (beq id (s! "v")) with false in CV; cbn [orb] in CV.
    - exists m. split; [left; split; auto; intros I; apply key_in in I; congruence|]. now apply insert_rep.
    - destruct (sizeify_ked _ _ _ Z) as (vs & proto & n & AA & V & L & K' & _). rewrite K' in K. injection K as <-. set (vt := vtext _ _).
      assert (In proto idents) as IP by (apply idents_or; apply V). pose proof (vtext_string proto _ IP L) as V2. fold vt in V2. apply key_in in CV.
      exists (replaced (s! "v") (VStr vt) m). split; [right; split; auto; eexists _, _, _; split; [exact V2|reflexivity]|].
      rewrite insert_rep; [|now apply insert_NoDup|rewrite (insert_rep id) by auto; now rewrite replaced_keys]. rewrite (insert_rep id) by auto. apply replaced_swap. discriminate. }
  apply said_code_size in HC as (n & HC). exists m, m', code. split; auto. split; [now rewrite get_assoc|]. split; [change code with (fst (code, n)); now apply in_map|]. auto.
Qed.
Lemma said_read key s : exfil key = Ok s -> has_code said_codes (m_code s) = true -> said_of_qb64 key = Ok s.
Proof. intros X H. unfold said_of_qb64, said_new, matter_new, validate. rewrite X, bind_Ok, H. reflexivity. Qed.
Lemma verified_identified hash saider m key pre ver : sized_hash hash -> NoDup (map fst m) -> assoc id m = Some (VStr key) -> infil saider = Ok key ->
  said_verify hash saider (VObj m) pre ver (Some (s! "JSON")) (Some id) [] = Ok true -> identified hash key (VObj m) /\ exists s, exfil key = Ok s /\ infil s = Ok key /\ has_code said_codes (m_code s) = true.
Proof.
  intros SH ND A I V. destruct (verify_true _ _ _ _ _ _ _ _ V) as (m0 & md & k' & ser & s' & q & E & HC & P & S & M & Q & Q' & _ & _). injection E as <-. cbn [or_else] in P.
  rewrite I in Q. injection Q as <-. destruct (said_built hash (m_code saider) ser SH HC) as (B & W). rewrite B in M. injection M as <-.
  destruct (wf_round _ W) as (t & b & T & _ & X & _). rewrite T in Q'. injection Q' as ->. cbn [strip fold_left] in S. split; [eapply prepared_identified; eauto|].
  eexists. split; [exact X|]. split; [exact T|exact HC].
Qed.

Section World.
Context (canon : bytes -> option bytes) (hash : bytes -> bytes -> bytes) (compiles : bytes -> jval -> bool) (SH : sized_hash hash).
Notation snew := (schemer_new canon hash compiles).

Definition fresh_sed (raw : option bytes) (sed : option value) : Prop := forall v, raw = None -> sed = Some v -> data v.
(** A schema made. *)
Lemma made c raw sed kind code x c' : fresh_sed raw sed -> snew c raw sed kind code = Ok (x, c') ->
  exists key m, sm_sed x = VObj m /\ NoDup (map fst m) /\ assoc id m = Some (VStr key) /\ infil (sm_saider x) = Ok key /\ identified hash key (VObj m) /\ sm_kind x = s! "JSON" /\ 
    (raw = None -> sm_raw x = to_json (VObj m) /\ data (VObj m)) /\
    (assoc key c <> None /\ c' = c \/ assoc key c = None /\ exists j, pjson canon (sm_raw x) = Ok j /\ of_json j = Ok (VObj m) /\ compiles key j = true /\ c' = (key, j) :: c).
Proof.
  intros F H. unfold schemer_new in H. bok H y Y. bok H key K. bok H text T. bok H c1 C. injection H as -> <-. pose proof (utf8_from _ _ T). subst text. clear T.
  assert (exists m, sm_sed x = VObj m /\ NoDup (map fst m) /\ assoc id m = Some (VStr key) /\ identified hash key (VObj m) /\ sm_kind x = s! "JSON" /\ (raw = None -> sm_raw x = to_json (VObj m) /\ data (VObj m)) /\
    (exists s, exfil key = Ok s /\ infil s = Ok key /\ has_code said_codes (m_code s) = true) /\ (forall j, pjson canon (sm_raw x) = Ok j -> of_json j = Ok (VObj m))) as (m & M & ND & A & ID & KI & RN & XX & PJ).
  { destruct raw as [raw|].
    - unfold schema_inhale in Y. bok Y z Zz. destruct z as ((sed', kind'), saider). injection Y as <-. cbn [sm_raw sm_sed sm_saider sm_kind] in *. bok Zz v V. bok Zz m M. fold id in Zz.
      destruct (assoc id m) as [w|] eqn:A; [|discriminate]. bok Zz said SA. bok Zz saider' QB. bok Zz ok VV. destruct ok; [|discriminate]. cbn [negb] in Zz. injection Zz as <- <- <-.
      destruct v as [| | | | | |m0]; try discriminate. injection M as ->. destruct w; try discriminate. injection SA as ->.
      pose proof (obj_keys _ _ _ V) as ND. destruct (verify_true _ _ _ _ _ _ _ _ VV) as (? & ? & ? & ? & ? & q & E & _ & _ & _ & _ & Q & _ & _ & AQ). injection E as <-.
      rewrite K in Q. injection Q as <-. specialize (AQ eq_refl). cbn [or_else] in AQ. fold id in AQ. rewrite A in AQ. injection AQ as ->.
      destruct (verified_identified _ _ _ _ _ _ SH ND A K VV) as (ID & XX). exists m. split; auto. split; auto. split; auto. split; auto. split; auto. split; [discriminate|]. split; auto.
      intros j J. unfold value_of_text in V. rewrite J, bind_Ok in V. exact V.
    - destruct sed as [sed|]; [|discriminate]. unfold schema_exhale in Y. bok Y z Zz. destruct z as (((raw, sed'), kind'), saider). injection Y as <-. cbn [sm_raw sm_sed sm_saider sm_kind] in *.
      destruct (beq (or_else kind (s! "JSON")) (s! "JSON")) eqn:EK; [|discriminate]. apply beq_eq in EK. cbn [negb] in Zz. bok Zz sd SN. bok Zz q Q. bok Zz sd' SS. injection Zz as <- <- <- <-.
      destruct sed as [| | | | | |m]; try discriminate. cbn [set_str] in SS. injection SS as <-. rewrite K in Q. injection Q as <-.
      unfold said_new in SN. cbn [or_else to_map] in SN. rewrite bind_Ok in SN. fold id in SN. destruct (contains_key id m); [|discriminate]. cbn [negb] in SN. rewrite bind_Ok in SN.
      bok SN cr CR. bok CR u U. bok CR d D. injection CR as <-. destruct d as (rw, dsad). cbn [fst snd matter_new] in SN.
      destruct (derive_ok _ _ _ _ _ _ _ _ D) as (HC & m1 & md & k' & ser & E & -> & P & S & ->). injection E as <-. cbn [strip fold_left] in S.
      destruct (said_built hash _ ser SH HC) as (B & W). rewrite B in SN. injection SN as <-. destruct (wf_round _ W) as (t & b & T & _ & X & _). rewrite T in K. injection K as ->.
      assert (data (VObj m)) as DM by (now apply F). assert (data (VObj (insert id (VStr key) m))) as DI.
      { apply data_insert; auto. apply data_str. destruct (wf_forms _ W) as (zz & Hz & Wr & TT & _). rewrite T in TT. injection TT as ->. apply utf8_ascii. now apply mtext_ascii. }
      inversion DI as [| | | | |? ND _ _]; subst. exists (insert id (VStr key) m). split; auto. split; auto. split; [now rewrite assoc_insert, beq_refl|].
      split. { eapply prepared_identified; eauto; [now rewrite assoc_insert, beq_refl|]. unfold prepared in *. rewrite insert_insert. exact P. }
      split; auto. split; auto. split; [eexists; split; [exact X|]; split; [exact T|exact HC]|].
      intros j J. fold id in J. set (o := VObj (insert id (VStr key) m)) in *. pose proof (pjson_layout canon o (to_json o) [] [] (data_wfv _ DI) (text_of_json _ (data_wfv _ DI)) blank_nil blank_nil) as R.
      rewrite app_nil_r in R. change ([] ++ to_json o) with (to_json o) in R. rewrite J in R. destruct (depth o <? 128)%nat; [|discriminate]. assert (j = jof o) as -> by (injection R; auto). exact (of_json_jof o (data_wfv o DI)). }
  exists key, m. do 7 (split; [auto; fail|]). unfold schema_add in C. destruct (assoc key c) as [j|]; [injection C as <-; left; split; [discriminate|auto]|]. right. split; auto.
  bok C saider SA. bok C ok OK. destruct ok; [|discriminate]. cbn [negb] in C. bok C j J. destruct (compiles key j) eqn:CO; [|discriminate]. injection C as <-. eauto 8.
Qed.

Lemma prime_inv xs k k' : cache_prime k xs = Ok k' -> (forall said, assoc said k <> None -> assoc said k' <> None) /\
  forall said x, In (said, x) k' -> In (said, x) k \/ In x xs /\ infil (sm_saider x) = Ok said.
Proof.
  revert k. induction xs as [|x xs IH]; intros k H; cbn [cache_prime] in H; [injection H as <-; auto|]. bok H q Q. apply IH in H as (A & B). split.
  - intros said N. apply A. cbn [assoc]. destruct (beq q said); [discriminate|auto].
  - intros said y I. apply B in I as [[E|I]|(I & J)]; auto.
    + injection E as <- <-. right. split; auto. now left.
    + right. split; auto. now right.
Qed.
Lemma inv c k l : stocked canon hash compiles c k l -> (forall key j, In (key, j) c -> exists v, of_json j = Ok v /\ identified hash key v) /\
  (forall x, In x l -> exists key, infil (sm_saider x) = Ok key /\ assoc key c <> None) /\ (forall said x, In (said, x) k -> In x l /\ infil (sm_saider x) = Ok said).
Proof.
  induction 1 as [|c k l raw sed kind code x c' _ (I1 & I2 & I3) F M|c k l xs k' _ (I1 & I2 & I3) IN P].
  - split; [|split]; cbn [In]; tauto.
  - destruct (made _ _ _ _ _ _ _ F M) as (key & m & SE & ND & A & K & ID & KI & RN & [(AC & ->)|(AC & j & J & OJ & CO & ->)]).
    + split; auto. split; [|intros said y I; destruct (I3 _ _ I); split; auto; now right]. intros y [<-|I]; eauto.
    + split; [|split].
      * intros key' j' [E|I]; [|eauto]. injection E as <- <-. eauto.
      * intros y [<-|I]; [exists key; split; auto; cbn [assoc]; rewrite beq_refl; discriminate|]. destruct (I2 _ I) as (key' & K' & N). exists key'. split; auto. cbn [assoc]. destruct (beq key key'); [discriminate|auto].
      * intros said y I. destruct (I3 _ _ I). split; auto. now right.
  - split; auto. split; auto. intros said x I. apply prime_inv in P as (_ & P). apply P in I as [I|(I & Q)]; auto.
Qed.
Lemma later c0 k0 l0 c k l : stocked canon hash compiles c0 k0 l0 -> restocked canon hash compiles c0 k0 l0 c k l -> stocked canon hash compiles c k l /\
  (forall key j, assoc key c0 = Some j -> assoc key c = Some j) /\ (forall said, assoc said k0 <> None -> assoc said k <> None).
Proof.
  intros S. induction 1 as [|c k l raw sed kind code x c' _ (I0 & I1 & I2) F M|c k l xs k' _ (I0 & I1 & I2) IN P]; auto.
  - split; [eapply stocked_made; eauto|]. split; auto. intros key j A. destruct (made _ _ _ _ _ _ _ F M) as (key' & m & _ & _ & _ & _ & _ & _ & _ & [(AC & ->)|(AC & j' & J & OJ & CO & ->)]); auto.
    cbn [assoc]. apply I1 in A. destruct (beq key' key) eqn:E; auto. apply beq_eq in E. congruence.
  - split; [eapply stocked_primed; eauto|]. split; auto. intros said A. apply prime_inv in P as (P & _). auto.
Qed.
Lemma assoc_In {A} key (c : list (bytes * A)) x : assoc key c = Some x -> In (key, x) c.
Proof. induction c as [|(a, b) c IH]; cbn [assoc]; [discriminate|]. destruct (beq a key) eqn:E; [apply beq_eq in E; intros [= ->]; subst; now left|intros H; right; auto]. Qed.
Lemma answer conforms c k l said : stocked canon hash compiles c k l -> assoc said k <> None -> exists j, assoc said c = Some j /\
  forall json, cache_verify canon conforms c k said json = let* text := from_utf8 json in let* i := pjson canon text in Ok (conforms said j i).
Proof.
  intros S A. destruct (inv _ _ _ S) as (_ & I2 & I3). destruct (assoc said k) as [x|] eqn:E; [|congruence]. destruct (I3 _ _ (assoc_In _ _ _ E)) as (IX & K). destruct (I2 _ IX) as (key & K' & N).
  rewrite K in K'. injection K' as <-. destruct (assoc said c) as [j|] eqn:C; [|congruence]. exists j. split; auto. intros json. unfold cache_verify, cache_get. rewrite E, bind_Ok. unfold schemer_verify. rewrite K, bind_Ok.
  destruct (from_utf8 json); cbn [bind]; auto. unfold schema_validate. now rewrite C.
Qed.
End World.

Lemma schema0_data : data schema0. Proof. apply data_checked. vm_compute. reflexivity. Qed.
Lemma schema0_new v : @None bytes = None -> Some schema0 = Some v -> data v. Proof. intros _ H. injection H as <-. exact schema0_data. Qed.
Lemma stock_0 : stocked no_floats mix any_schema (snd made_0) primed_0 [fst made_0].
Proof.
  refine (stocked_primed _ _ _ _ _ _ _ _ _ (incl_refl _) primed_0_ok). refine (stocked_made _ _ _ [] [] [] None (Some schema0) None None _ _ (stocked_none _ _ _) schema0_new _). rewrite made_0_ok. now destruct made_0.
Qed.

(*# C149_compiled_schemas_identified
   Whatever schemas are made and put into the caches: each compiled schema that stands under an identifier has this identifier, which is the digest of its JSON with hash signs in the place of the identifier.
##
Example C149_compiled_case : stocked no_floats mix any_schema (snd made_0) primed_0 [fst made_0] /\ map fst (snd made_0) = [sid0] /\ data schema0.
Proof. split; [exact stock_0|]. split; [reflexivity|exact schema0_data]. Qed.
#*)
Lemma C149_l (canon : bytes -> option bytes) (hash : bytes -> bytes -> bytes) (compiles : bytes -> jval -> bool) (c : compiled) (k : known) (l : list schemer) (key : bytes) (j : jval) :
  sized_hash hash -> stocked canon hash compiles c k l -> In (key, j) c -> exists v, of_json j = Ok v /\ identified hash key v.
Proof. intros SH S. exact (proj1 (inv canon hash compiles SH _ _ _ S) key j). Qed.

(*# C149_made_schema_identified
   A schema that is made, from a text or from a value, has the identifier it answers with, and is compiled under it. What was compiled before stays.
##
Example C149_made_case : schemer_new no_floats mix any_schema [] None (Some schema0) None None = Ok made_0 /\ infil (sm_saider (fst made_0)) = Ok sid0.
Proof. split; [exact made_0_ok|vm_compute; reflexivity]. Qed.
#*)
Lemma C149_made_l (canon : bytes -> option bytes) (hash : bytes -> bytes -> bytes) (compiles : bytes -> jval -> bool) (c c' : compiled) (raw : option bytes) (sed : option value) (kind code : option bytes) (x : schemer) :
  sized_hash hash -> (forall v, raw = None -> sed = Some v -> data v) -> schemer_new canon hash compiles c raw sed kind code = Ok (x, c') ->
  exists key, infil (sm_saider x) = Ok key /\ identified hash key (sm_sed x) /\ In key (map fst c') /\ incl c c'.
Proof.
  intros SH F H. destruct (made canon hash compiles SH _ _ _ _ _ _ _ F H) as (key & m & SE & ND & A & K & ID & KI & RN & [(AC & ->)|(AC & j & J & OJ & CO & ->)]); exists key; rewrite SE; split; auto; split; auto; split.
  - destruct (assoc key c) as [j|] eqn:E; [|congruence]. apply assoc_In in E. apply in_map with (f := fst) in E. exact E.
  - apply incl_refl.
  - now left.
  - apply incl_tl, incl_refl.
Qed.

(*# C149_one_schema_per_identifier
   Two schemas without floats that have the same identifier have the same fields in the same order, with the same values, the field v aside; or the digest function has a collision.
##
Example C149_one_case : exists v, sm_sed (fst made_0) = v /\ data v /\ identified mix sid0 v.
Proof.
  eexists. split; [reflexivity|]. split; [apply data_checked; vm_compute; reflexivity|]. destruct (C149_made_l no_floats mix any_schema [] (snd made_0) None (Some schema0) None None (fst made_0)) as (key & K & ID & _).
  - exact mix_sized.
  - exact schema0_new.
  - rewrite made_0_ok. now destruct made_0.
  - assert (infil (sm_saider (fst made_0)) = Ok sid0) as E by (vm_compute; reflexivity). rewrite E in K. injection K as <-. exact ID.
Qed.
#*)
Lemma C149_one_l (hash : bytes -> bytes -> bytes) (key : bytes) (m1 m2 : list (bytes * value)) : sized_hash hash -> data (VObj m1) -> data (VObj m2) ->
  identified hash key (VObj m1) -> identified hash key (VObj m2) -> without [s! "v"] m1 = without [s! "v"] m2 \/ exists code, In code (map fst digest_sizes) /\ collision hash code.
Proof.
  intros SH D1 D2 (a & a' & code & E & G1 & IC & M1 & X1) (b & b' & code2 & E2 & G2 & _ & M2 & X2). injection E as <-. injection E2 as <-. rewrite X1 in X2. injection X2 as <- EH.
  set (D := dummies (text_width code)) in *.
  set (ta := to_json (VObj (replaced (s! "$id") D a'))) in *. set (tb := to_json (VObj (replaced (s! "$id") D b'))) in *.
  destruct (beq ta tb) eqn:B.
  2: { right. exists code. split; auto. exists ta, tb. split; [|exact EH]. intros Q. rewrite Q, beq_refl in B. discriminate. }
  left. apply beq_eq in B. unfold ta, tb in B. clear ta tb X1 EH.
  assert (forall m m', data (VObj m) -> get (s! "$id") m = Some (VStr key) -> (~ In (s! "v") (map fst m) /\ m' = m \/ In (s! "v") (map fst m) /\ exists vs proto n, version_string vs proto 1 0 n /\ m' = replaced (s! "v") (VStr vs) m) ->
    data (VObj (replaced (s! "$id") D m')) /\ without [s! "v"] m = without [s! "v"] (replaced (s! "$id") (VStr key) (replaced (s! "$id") D m'))) as R.
  { clear -IC. intros m m' DM G M. rewrite get_assoc in G. inversion DM as [| | | | |? ND _ _]; subst.
    assert (In id (map fst m)) as II by (apply key_in; unfold contains_key; change id with (s! "$id"); now rewrite G).
    assert (data D) as DD. { unfold D. apply data_dummy. }
    assert (data (VObj m') /\ map fst m' = map fst m /\ without [s! "v"] (replaced id (VStr key) m') = without [s! "v"] m) as (DM' & KM & W).
    { assert (replaced id (VStr key) m = m) as RI by (rewrite <- insert_rep by auto; now apply insert_same). destruct M as [(_ & ->)|(IV & vs & proto & n & V & ->)]; [split; auto; split; auto; now rewrite RI|]. split; [|split].
      - rewrite <- insert_rep by auto. apply data_insert; auto. apply data_str, utf8_ascii. eapply version_string_plain; eauto.
      - apply replaced_keys.
      - rewrite replaced_swap by discriminate. rewrite RI. clear. unfold without, replaced. induction m as [|(x, y) m IH]; cbn [map filter fst existsb]; auto. destruct (beq x (s! "v")) eqn:E; cbn [fst]; rewrite E; cbn [orb negb]; [exact IH|f_equal; exact IH]. }
    inversion DM' as [| | | | |? ND' _ _]; subst. split.
    - change (s! "$id") with id. rewrite <- insert_rep; auto; [|now rewrite KM]. apply data_insert; auto.
    - rewrite <- W. f_equal. change (s! "$id") with id. clear. unfold replaced. rewrite map_map. apply map_ext. intros (x, y). cbn [fst]. destruct (beq x id) eqn:E; cbn [fst]; now rewrite E. }
  destruct (R _ _ D1 G1 M1) as (DA & WA). destruct (R _ _ D2 G2 M2) as (DB & WB). rewrite WA, WB. apply C48_l in B; auto. injection B as B. now rewrite B.
Qed.

(*# C150_own_schema_reads_back_refuted
   False that the text of a schema made from a value reads back: the identifier is over the schema with its version string brought up to date, but the version string kept is the one given. Here a schema with
   a version string of size zero is made; making it again from its own text is an error, with the caches it left.
#*)
Lemma C150_no_l : sized_hash mix /\ exists v x c', data v /\ schemer_new no_floats mix any_schema [] None (Some v) None None = Ok (x, c') /\ sm_raw x = to_json (sm_sed x) /\
  schemer_new no_floats mix any_schema c' (Some (sm_raw x)) None None None = Err EValidation.
Proof.
  split; [exact mix_sized|]. exists schema_v, (fst made_v), (snd made_v). split; [apply data_checked; vm_compute; reflexivity|]. split; [rewrite made_v_ok; now destruct made_v|]. split; [vm_compute; reflexivity|exact made_v_back].
Qed.

(*# C150_own_schema_reads_back_partial
   A schema made from a value without a field v, which nests at most 127 deep, gives the same schema and leaves the caches as they are when made again from its own text.
   Missing: schemas with a field v.
##
Example C150_case : data schema0 /\ ~ In (s! "v") (map fst (match schema0 with VObj m => m | _ => [] end)) /\ nests 127 (sm_sed (fst made_0)) /\ schemer_new no_floats mix any_schema [] None (Some schema0) None None = Ok made_0.
Proof.
  split; [apply data_checked; vm_compute; reflexivity|]. split; [vm_compute; intros [H|[H|[H|H]]]; try discriminate; exact H|]. split; [apply nests_checked; vm_compute; reflexivity|exact made_0_ok].
Qed.
#*)
Lemma C150_l (canon : bytes -> option bytes) (hash : bytes -> bytes -> bytes) (compiles : bytes -> jval -> bool) (c c' : compiled) (m : list (bytes * value)) (kind code kind2 code2 : option bytes) (x : schemer) :
  sized_hash hash -> data (VObj m) -> ~ In (s! "v") (map fst m) -> nests 127 (sm_sed x) -> schemer_new canon hash compiles c None (Some (VObj m)) kind code = Ok (x, c') ->
  schemer_new canon hash compiles c' (Some (sm_raw x)) None kind2 code2 = Ok (x, c').
Proof.
  intros SH D NV N H. assert (fresh_sed None (Some (VObj m))) as F by (intros v _ [= <-]; exact D).
  destruct (made canon hash compiles SH _ _ _ _ _ _ _ F H) as (key & m' & SE & ND & A & K & ID & KI & RN & CC). destruct (RN eq_refl) as (RW & DM). rewrite SE in N.
  assert (assoc key c' <> None) as AC by (destruct CC as [(AC & ->)|(_ & j & _ & _ & _ & ->)]; auto; cbn [assoc]; rewrite beq_refl; discriminate).
  assert (m' = insert id (VStr key) m /\ sm_saider x = Mt (or_else code (s! "E")) 0 (m_raw (sm_saider x)) /\ has_code said_codes (or_else code (s! "E")) = true /\ from_utf8 (sm_raw x) = Ok (sm_raw x) /\ exfil key = Ok (sm_saider x) /\
    m_raw (sm_saider x) = hash (or_else code (s! "E")) (to_json (VObj (insert id (dummy (or_else code (s! "E"))) m)))) as (EM & ES & HC & U & X & ER).
  { clear CC AC. unfold schemer_new in H. bok H y Y. bok H key' K'. bok H text T. bok H c1 C. injection H as -> <-. pose proof (utf8_from _ _ T). subst text. unfold schema_exhale in Y. bok Y z Zz. destruct z as (((raw, sed'), kind'), saider). injection Y as <-.
    cbn [sm_raw sm_sed sm_saider sm_kind] in *. destruct (beq (or_else kind (s! "JSON")) (s! "JSON")) eqn:EK; [|discriminate]. cbn [negb] in Zz. bok Zz sd SN. bok Zz q Q2. bok Zz sd' SS. injection Zz as <- <- <- <-.
    cbn [set_str] in SS. injection SS as <-. rewrite K in Q2. injection Q2 as <-. injection SE as <-. split; auto.
    unfold said_new in SN. cbn [or_else to_map] in SN. rewrite bind_Ok in SN. fold id in SN. destruct (contains_key id m); [|discriminate]. cbn [negb] in SN. rewrite bind_Ok in SN.
    bok SN cr CR. bok CR u UU. bok CR d DD. injection CR as <-. destruct d as (rw, dsad). cbn [fst snd matter_new] in SN.
    destruct (derive_ok _ _ _ _ _ _ _ _ DD) as (HC & m1 & md & k' & ser & E & -> & P & S & ->). injection E as <-. cbn [strip fold_left] in S. apply serialize_json in S.
    destruct (said_built hash _ ser SH HC) as (B & W). rewrite B in SN. injection SN as <-. destruct (wf_round _ W) as (t & b & TT & _ & XX & _). rewrite TT in K. injection K as ->. split; auto. split; auto. split; auto. split; auto.
    cbn [m_raw]. subst ser. destruct P as [(_ & -> & _)|(CV & _)]; auto. rewrite contains_insert in CV. change (beq id (s! "v")) with false in CV. apply key_in in CV. contradiction. }
  unfold schemer_new, schema_inhale. rewrite RW, (proj1 (proj1 (C103_own_l canon (VObj m') DM)) N), bind_Ok. cbn [to_map]. rewrite bind_Ok. fold id. rewrite A. cbn [to_string]. rewrite bind_Ok.
  rewrite (said_read key _ X) by (rewrite ES; exact HC). rewrite bind_Ok.
  assert (said_verify hash (sm_saider x) (VObj m') (Some true) None (Some (s! "JSON")) (Some id) [] = Ok true) as V.
  { eapply verify_intro with (md := insert id (dummy (or_else code (s! "E"))) m) (kind' := Some (s! "JSON")) (s' := sm_saider x) (q := key); auto.
    - now rewrite ES.
    - rewrite ES. cbn [m_code or_else]. left. rewrite EM, insert_insert. split; auto. rewrite contains_insert. change (beq id (s! "v")) with false. cbn [orb]. destruct (contains_key (s! "v") m) eqn:CV; auto. apply key_in in CV. contradiction.
    - cbn [strip fold_left]. unfold said_serialize. cbn [to_map]. rewrite bind_Ok. assert (contains_key (s! "v") (insert id (dummy (or_else code (s! "E"))) m) = false) as ->; [|reflexivity].
      rewrite contains_insert. change (beq id (s! "v")) with false. cbn [orb]. destruct (contains_key (s! "v") m) eqn:CV; auto. apply key_in in CV. contradiction.
    - rewrite ES at 1 2 3. cbn [m_code]. rewrite ES, ER. apply (said_built hash _ _ SH HC).
    - intros _ CV. apply key_in in CV. rewrite EM in CV. apply key_in in CV. rewrite contains_insert in CV. change (beq id (s! "v")) with false in CV. apply key_in in CV. contradiction. }
  rewrite V, bind_Ok. cbn [negb]. rewrite bind_Ok. rewrite bind_Ok. cbn [sm_saider sm_raw sm_sed]. rewrite K, bind_Ok. rewrite <- RW, U, bind_Ok. unfold schema_add. destruct (assoc key c') eqn:EA; [|congruence]. rewrite bind_Ok.
  destruct x as [xr xs xk xsd]. cbn [sm_raw sm_sed sm_kind sm_saider] in *. now rewrite SE, KI.
Qed.

Lemma in_assoc {A} key (c : list (bytes * A)) : In key (map fst c) -> assoc key c <> None.
Proof. induction c as [|(a, b) c IH]; cbn [map fst In assoc]; [tauto|]. intros [->|I]; [rewrite beq_refl; discriminate|]. destruct (beq a key); [discriminate|auto]. Qed.

(*# C151_answers_never_change
   Once a schema is in the cache for credentials, the answer for its identifier and a text never changes, whatever schemas are made and put into the caches later.
##
Example C151_case : stocked no_floats mix any_schema (snd made_0) primed_0 [fst made_0] /\ In sid0 (map fst primed_0) /\ cache_verify no_floats needs (snd made_0) primed_0 sid0 (d_raw cred_s) = Ok true.
Proof. split; [exact stock_0|]. split; [now left|vm_compute; reflexivity]. Qed.
#*)
Lemma C151_l (canon : bytes -> option bytes) (hash : bytes -> bytes -> bytes) (compiles : bytes -> jval -> bool) (conforms : bytes -> jval -> jval -> bool) (c c2 : compiled) (k k2 : known) (l l2 : list schemer) (said json : bytes) :
  sized_hash hash -> stocked canon hash compiles c k l -> restocked canon hash compiles c k l c2 k2 l2 -> In said (map fst k) ->
  cache_verify canon conforms c2 k2 said json = cache_verify canon conforms c k said json.
Proof.
  intros SH S RS I. apply in_assoc in I. destruct (later canon hash compiles SH _ _ _ _ _ _ S RS) as (S2 & A1 & A2). destruct (answer canon hash compiles SH conforms _ _ _ _ S I) as (j & J & ->).
  destruct (answer canon hash compiles SH conforms _ _ _ _ S2 (A2 _ I)) as (j2 & J2 & ->). apply A1 in J. rewrite J2 in J. injection J as ->. reflexivity.
Qed.

(*# C151_answer_is_conformance
   For an identifier in the cache for credentials there is one compiled schema, which has this identifier; the answer for a JSON text is whether it conforms to this schema.
##
Example C151_conformance_case : stocked no_floats mix any_schema (snd made_0) primed_0 [fst made_0] /\ In sid0 (map fst primed_0) /\ cache_verify no_floats needs (snd made_0) primed_0 sid0 (s! "{}") = Ok false.
Proof. split; [exact stock_0|]. split; [now left|vm_compute; reflexivity]. Qed.
#*)
Lemma C151_conf_l (canon : bytes -> option bytes) (hash : bytes -> bytes -> bytes) (compiles : bytes -> jval -> bool) (conforms : bytes -> jval -> jval -> bool) (c : compiled) (k : known) (l : list schemer) (said : bytes) :
  sized_hash hash -> stocked canon hash compiles c k l -> In said (map fst k) -> exists j v, of_json j = Ok v /\ identified hash said v /\
    forall json i, utf8 json = true -> pjson canon json = Ok i -> cache_verify canon conforms c k said json = Ok (conforms said j i).
Proof.
  intros SH S I. apply in_assoc in I. destruct (answer canon hash compiles SH conforms _ _ _ _ S I) as (j & J & R). destruct (proj1 (inv canon hash compiles SH _ _ _ S) said j (assoc_In _ _ _ J)) as (v & V & ID).
  exists j, v. split; auto. split; auto. intros json i U P. rewrite R. unfold from_utf8. rewrite U, bind_Ok, P. reflexivity.
Qed.

(*# C152_credential_conforms_to_schema
   A credential accepted with these caches names a schema in them, this schema has the identifier the credential names, and the credential's JSON conforms to it.
##
Example C152_case : stocked no_floats mix any_schema (snd made_0) primed_0 [fst made_0] /\ 
  verify_acdc no_floats mix toy lettered (cache_verify no_floats needs (snd made_0) primed_0) (fun _ => Ok 0%Z) 9 (view no_floats ledger_s) cred_s [GPaths [csigs_s]] (Some false) [] = Ok (false, []).
Proof. split; [exact stock_0|exact try_known]. Qed.
#*)
Lemma C152_l (canon : bytes -> option bytes) (hash : bytes -> bytes -> bytes) (cr : crypto) (messages_of : bytes -> R (list message)) (compiles : bytes -> jval -> bool) (conforms : bytes -> jval -> jval -> bool) (age : bytes -> R Z)
    (c : compiled) (k : known) (l : list schemer) (fuel : nat) (st : store) (e : sadder) (g : list group) (deep : option bool) (seen : list bytes) (r : bool * list bytes) :
  sized_hash hash -> stocked canon hash compiles c k l -> verify_acdc canon hash cr messages_of (cache_verify canon conforms c k) age fuel st e g deep seen = Ok r ->
  exists schema j v i, field_of (d_ked e) (s! "s") (VStr schema) /\ In schema (map fst k) /\ In (schema, j) c /\ of_json j = Ok v /\ identified hash schema v /\
    pjson canon (d_raw e) = Ok i /\ conforms schema j i = true.
Proof.
  intros SH S H. apply C132_l in H as (registry & said & schema & state & ilk & dt & secs & _ & _ & F & _ & _ & _ & _ & _ & _ & _ & _ & V & _).
  assert (In schema (map fst k)) as IK. { unfold cache_verify, cache_get in V. destruct (assoc schema k) as [x|] eqn:E; [|discriminate]. apply assoc_In in E. apply in_map with (f := fst) in E. exact E. }
  destruct (answer canon hash compiles SH conforms _ _ _ _ S (in_assoc _ _ IK)) as (j & J & R). rewrite R in V. bok V text T. pose proof (utf8_from _ _ T). subst text. bok V i P. injection V as V.
  destruct (proj1 (inv canon hash compiles SH _ _ _ S) schema j (assoc_In _ _ _ J)) as (v & VV & ID). exists schema, j, v, i. auto 10 using assoc_In.
Qed.

(*# C153_unknown_schema_error_refuted
   False that a credential with an unknown schema is answered with an error: the look-up panics. Here is one that passes when its schema is in the cache, and panics with an empty cache.
#*)
Lemma C153_no_l : correct toy /\ sized_hash mix /\ exists e l g c k said, stocked no_floats mix any_schema c k l /\ field_of (d_ked e) (s! "s") (VStr said) /\ In said (map fst k) /\
  verify_acdc no_floats mix toy lettered (cache_verify no_floats needs c k) (fun _ => Ok 0%Z) 9 (view no_floats ledger_s) e g (Some false) [] = Ok (false, []) /\
  verify_acdc no_floats mix toy lettered (cache_verify no_floats needs c []) (fun _ => Ok 0%Z) 9 (view no_floats ledger_s) e g (Some false) [] = Panic.
Proof.
  split; [exact toy_correct|]. split; [exact mix_sized|]. exists cred_s, [fst made_0], [GPaths [csigs_s]], (snd made_0), primed_0, sid0. split; [exact stock_0|]. split; [apply text_field; vm_compute; reflexivity|]. split; [now left|].
  split; [exact try_known|exact try_unknown].
Qed.

(*# C153_unknown_schema_panics
   A credential that would be accepted if every schema accepted everything, and that names a schema not in the cache, makes verification panic.
##
Example C153_case : field_of (d_ked cred_s) (s! "s") (VStr sid0) /\ ~ In sid0 (map fst (@nil (bytes * schemer))) /\
  verify_acdc no_floats mix toy lettered (fun _ _ => Ok true) (fun _ => Ok 0%Z) 9 (view no_floats ledger_s) cred_s [GPaths [csigs_s]] (Some false) [] = Ok (false, []).
Proof. split; [apply text_field; vm_compute; reflexivity|]. split; [exact (fun H => H)|vm_compute; reflexivity]. Qed.
#*)
Lemma C153_l (canon : bytes -> option bytes) (hash : bytes -> bytes -> bytes) (cr : crypto) (messages_of : bytes -> R (list message)) (conforms : bytes -> jval -> jval -> bool) (age : bytes -> R Z)
    (c : compiled) (k : known) (fuel : nat) (st : store) (e : sadder) (g : list group) (deep : option bool) (seen : list bytes) (r : bool * list bytes) (said : bytes) :
  verify_acdc canon hash cr messages_of (fun _ _ => Ok true) age fuel st e g deep seen = Ok r -> field_of (d_ked e) (s! "s") (VStr said) -> ~ In said (map fst k) ->
  verify_acdc canon hash cr messages_of (cache_verify canon conforms c k) age fuel st e g deep seen = Panic.
Proof.
  intros H F N. destruct fuel as [|f]; [discriminate|]. cbn [verify_acdc] in *.
  assert (forall A B (m : R A) (p q : A -> R B), (exists y, bind m p = Ok y) -> (forall x, m = Ok x -> (exists y, p x = Ok y) -> q x = Panic) -> bind m q = Panic) as ST.
  { intros A B m p q (y & E) Q. apply bind_ok in E as (x & -> & E). rewrite bind_Ok. apply Q; eauto. }
  assert (exists y, verify_acdc canon hash cr messages_of (fun _ _ => Ok true) age (S f) st e g deep seen = Ok y) as H' by (exists r; exact H). clear H. cbn [verify_acdc] in H'.
  eapply ST; [exact H'|]. clear H'. intros status S1 H. destruct status as [status|]; [|destruct H; discriminate]. eapply ST; [exact H|]. clear H. intros vcid S2 H. eapply ST; [exact H|]. clear H. intros schema S3 H.
  assert (schema = said) as ->. { apply text_field in S3. eapply field_unique in F; [|exact S3]. congruence. }
  eapply ST; [exact H|]. clear H. intros prov S4 H. eapply ST; [exact H|]. clear H. intros saider S5 H. eapply ST; [exact H|]. clear H. intros ok S6 H. cbv beta in H |- *. revert H. destruct (negb ok); intros H; [destruct H as (? & H); discriminate H|].
  eapply ST; [exact H|]. clear H. intros event S7 H. eapply ST; [exact H|]. clear H. intros state S8 H. eapply ST; [exact H|]. clear H. intros dt S9 H. eapply ST; [exact H|]. clear H. intros secs S10 H.
  cbv beta in H |- *. revert H. destruct (_ <? _)%Z; intros H; [destruct H as (? & H); discriminate H|]. eapply ST; [exact H|]. clear H. intros ssaid S11 H. eapply ST; [exact H|]. clear H. intros seen1 S12 H. eapply ST; [exact H|]. clear H. intros t S13 H.
  cbv beta in H |- *. revert H. destruct (has_code _ t); intros H; [destruct H as (? & H); discriminate H|]. eapply ST; [exact H|]. clear H. intros text S14 H. clear ST. unfold cache_verify, cache_get. destruct (assoc said k) eqn:E; [|reflexivity].
  exfalso. apply N. apply assoc_In in E. apply in_map with (f := fst) in E. exact E.
Qed.
