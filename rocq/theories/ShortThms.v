(** Proofs of C108: the short constructors. *)
From Coq Require Import String.
From Coq Require Import NArith ZArith List Bool Lia.
From Verif Require Import Base BaseFacts B64 B64Facts Tables Matter Indexer Prims Json Tholder Common Saider Diger Sadder Prefixer Signer Pather Short
  Spec SpecTholder SpecJson SpecCommon SpecSadder SpecIndexer SpecPrims SpecSaider SpecPrefixer SpecSigner SpecKinds SpecShort MatterFacts MatterMore MatterThms IndexerThms PrimsFacts PrimsThms SaiderFacts KindThms SignerThms SadderFacts SadderThms TholderThms SpecPather PatherThms DigerThms PrefixerThms FieldThms.
Import ListNotations.
Open Scope N_scope.

Lemma rebuild m : wf_matter m -> matter_of_code_raw (m_code m) (m_raw m) = Ok m.
Proof.
  intros (z & Hz & L). pose proof (lookup_facts _ _ Hz) as F. pose proof (lookup_first _ _ Hz) as G. pose proof (tf_ls _ _ F) as Hl.
  pose proof (is_b64s_ascii _ (tf_b64 _ _ F)) as Ha. pose proof (tf_len _ _ F) as LC. unfold raw_len_ok in L. destruct (var z) eqn:V.
  - destruct m as [code size raw]. cbn [m_code m_size m_raw] in *. unfold matter_of_code_raw. destruct code as [|f r]; [discriminate|].
    cbn [first_ok] in G. apply andb_true_iff in G as [G0 G]. apply eqb_prop in G0. rewrite V in G0. rewrite <- G0. rewrite len_cons in LC.
    destruct L as (L1 & L2). assert (forall w, ss z = w -> w <= 4 -> as_u32 (len raw) = len raw) as A32.
    { intros w <- W. unfold as_u32. apply N.mod_small. assert (64 ^ ss z <= 64 ^ 4) by (apply N.pow_le_mono_r; lia). change (64 ^ 4) with 16777216 in *. change (2 ^ 32) with 4294967296. lia. }
    assert (slice_bytes raw 0 (len raw) = Ok raw) as SR by (rewrite slice_bytes_in by lia; rewrite N.sub_0_r, drop_0, take_all by lia; reflexivity).
    destruct (is_small_vrz f) eqn:Es.
    + apply andb_true_iff in G as [G _]. apply andb_true_iff in G as [G G3]. apply andb_true_iff in G as [G1 G2]. apply N.eqb_eq in G1, G2. apply byte_eqb_eq in G3.
      rewrite (A32 2 G2 ltac:(lia)). rewrite G2 in L1. change (64 ^ 2) with 4096 in L1.
      assert ((3 - len raw mod 3) mod 3 = ls z) as E1 by lia. rewrite E1. assert ((len raw + ls z) / 3 = size) as E2 by lia. rewrite E2.
      replace (size <? 4096) with true by (symmetry; apply N.ltb_lt; lia).
      rewrite slice_str_ascii by (auto; rewrite ?len_cons; lia). rewrite !bind_Ok. change (drop 1 (f :: r)) with r. rewrite take_all by lia. rewrite <- G3.
      rewrite N.ltb_irrefl, SR. reflexivity.
    + cbn [orb] in G0. symmetry in G0. rewrite G0 in G. apply andb_true_iff in G as [G _]. apply andb_true_iff in G as [G G3]. apply andb_true_iff in G as [G1 G2]. apply N.eqb_eq in G1, G2. apply byte_eqb_eq in G3.
      rewrite (A32 4 G2 ltac:(lia)). rewrite G2 in L1. change (64 ^ 4) with 16777216 in L1.
      assert ((3 - len raw mod 3) mod 3 = ls z) as E1 by lia. rewrite E1. assert ((len raw + ls z) / 3 = size) as E2 by lia. rewrite E2.
      replace (size <? 16777216) with true by (symmetry; apply N.ltb_lt; lia).
      rewrite slice_str_ascii by (auto; rewrite ?len_cons; lia). rewrite !bind_Ok. change (drop 1 (f :: r)) with r. rewrite take_all by lia. rewrite <- G3.
      rewrite N.ltb_irrefl, SR. reflexivity.
  - destruct L as (S & L). rewrite (construct_fixed _ z _ Hz V). cbv zeta. rewrite <- L, N.ltb_irrefl, take_all by lia. rewrite <- S. now destruct m.
Qed.
Lemma wf_again m : wf_matter m -> built m.
Proof. intros W. exists (m_code m), (m_raw m). split; [|now apply rebuild]. destruct W as (z & Hz & _). apply code_known. eauto. Qed.
Lemma made code raw m : matter_of_code_raw code raw = Ok m -> In (m_code m) matter_codes -> built m.
Proof. intros H I. apply wf_again, (construct_wf _ _ _ H). now apply code_known. Qed.
Lemma cut code raw m : matter_of_code_raw code raw = Ok m -> exists r, raw = m_raw m ++ r.
Proof.
  unfold matter_of_code_raw. destruct code as [|f r]; [discriminate|]. intros H. apply bind_ok in H as (((c & sz) & rz) & _ & H). destruct (len raw <? rz); [discriminate|].
  apply bind_ok in H as (b & B & H). injection H as <-. cbn [m_raw]. apply slice_bytes_ok in B as (_ & _ & ->). rewrite N.sub_0_r, drop_0. exists (drop rz raw). now rewrite take_drop.
Qed.
Lemma kinds_known c : In c (keys ++ digests ++ numbers ++ sequence_numbers ++ date_times ++ base64_texts ++ prefixes ++ signatures ++ seeds ++ salts) -> In c matter_codes.
Proof. apply has_codes. vm_compute. reflexivity. Qed.
Ltac known := apply kinds_known; rewrite !in_app_iff; tauto.
Lemma valid codes c : In c codes -> validate codes c = Ok tt.
Proof. intros I. apply validate_ok. auto. Qed.
Lemma number_of_kind code raw m : In code number_codes -> matter_of_code_raw code raw = Ok m -> m_code m = code.
Proof. intros I. apply fixed_code. revert I. apply has_codes. vm_compute. reflexivity. Qed.
Lemma prefix_of_kind code raw m : In code prefix_codes -> matter_of_code_raw code raw = Ok m -> m_code m = code.
Proof. intros I. apply fixed_code. revert I. apply has_codes. vm_compute. reflexivity. Qed.

Lemma prefix_text m : wf_matter m -> exists t, infil m = Ok t.
Proof. intros W. destruct (wf_round m W) as (t & b & T & _). eauto. Qed.
(** What makes a kind: the constructors are the parser followed by a check met by the codes of the kind. *)
Definition sound (k : short) : Prop :=
  (forall t m, exfil t = Ok m -> In (m_code m) (sh_codes k) -> sh_qb64 k t = Ok m) /\
  (forall t m, exfil_b t = Ok m -> In (m_code m) (sh_codes k) -> sh_qb64b k t = Ok m) /\
  (forall t m, bexfil t = Ok m -> In (m_code m) (sh_codes k) -> sh_qb2 k t = Ok m) /\
  (forall c raw m, matter_of_code_raw c raw = Ok m -> c = m_code m -> In (m_code m) (sh_codes k) -> sh_raw k raw (Some c) = Ok m) /\
  (forall c raw m, sh_raw k raw c = Ok m -> (exists c', matter_of_code_raw c' raw = Ok m) /\ In (m_code m) (sh_codes k)).
Ltac parts := split; [|split; [|split; [|split]]].
Lemma verfer_sound : sound (Kind keys verfer_with_raw verfer_with_qb64b verfer_with_qb64 verfer_with_qb2).
Proof.
  parts; cbn [sh_codes sh_raw sh_qb64b sh_qb64 sh_qb2]; unfold verfer_with_raw, verfer_with_qb64b, verfer_with_qb64, verfer_with_qb2, verfer_new; cbn [or_else matter_new].
  1,2,3: intros t m -> I; rewrite bind_Ok, valid by (now apply keys_codes); reflexivity.
  - intros c raw m H -> I. rewrite H, bind_Ok, valid by (now apply keys_codes). reflexivity.
  - intros c raw m H. apply checked in H as (H & I). apply keys_codes in I. eauto.
Qed.
Lemma diger_sound hash : sound (Kind digests (diger_with_raw hash) (diger_with_qb64b hash) (diger_with_qb64 hash) (diger_with_qb2 hash)).
Proof.
  parts; cbn [sh_codes sh_raw sh_qb64b sh_qb64 sh_qb2]; unfold diger_with_raw, diger_with_qb64b, diger_with_qb64, diger_with_qb2, diger_new; cbn [or_else matter_new].
  1,2,3: intros t m -> I; rewrite valid by (now apply digest_codes); reflexivity.
  - intros c raw m H -> I. rewrite H, valid by (now apply digest_codes). reflexivity.
  - intros c raw m H. destruct c as [c|]; [|discriminate]. destruct (matter_of_code_raw c raw) as [m'| |] eqn:M; try discriminate. apply bind_ok in H as (u & V & H). injection H as ->.
    apply validate_ok in V as (V & _). split; [eauto|]. now apply digest_codes.
Qed.
Lemma said_sound hash : sound (Kind digests (said_with_raw hash) (said_with_qb64b hash) (said_with_qb64 hash) (said_with_qb2 hash)).
Proof.
  parts; cbn [sh_codes sh_raw sh_qb64b sh_qb64 sh_qb2]; unfold said_with_raw, said_with_qb64b, said_with_qb64, said_with_qb2, said_new; cbn [or_else matter_new].
  1,2,3: intros t m -> I; rewrite bind_Ok, valid by (now apply digest_said_codes); reflexivity.
  - intros c raw m H -> I. rewrite valid by (now apply digest_said_codes). rewrite !bind_Ok. cbn [fst snd]. exact H.
  - intros c raw m H. destruct c as [c|]; [|discriminate]. apply bind_ok in H as (cr & H & M). apply bind_ok in H as (u & V & H). injection H as <-. cbn [fst snd] in M.
    apply validate_ok in V as (V & _). split; [eauto|]. assert (m_code m = c) as -> by (apply (digest_matter _ raw); auto; now apply has_code_In). now apply digest_said_codes.
Qed.
Lemma number_sound : sound (Kind numbers number_with_raw number_with_qb64b number_with_qb64 number_with_qb2).
Proof.
  parts; cbn [sh_codes sh_raw sh_qb64b sh_qb64 sh_qb2]; unfold number_with_raw, number_with_qb64b, number_with_qb64, number_with_qb2, number_new; cbn [or_else matter_new is_none andb].
  1,2,3: intros t m H I; change (validate number_codes (s! "M")) with (@Ok unit tt); rewrite bind_Ok; exact H.
  - intros c raw m H -> I. rewrite valid by (now apply numbers_codes). exact H.
  - intros c raw m H. apply bind_ok in H as (u & V & H). apply validate_ok in V as (V & _). split; [eauto|]. rewrite (number_of_kind _ _ _ V H). now apply numbers_codes.
Qed.
Lemma seqner_sound : sound (Kind sequence_numbers seqner_with_raw seqner_with_qb64b seqner_with_qb64 seqner_with_qb2).
Proof.
  parts; cbn [sh_codes sh_raw sh_qb64b sh_qb64 sh_qb2]; unfold seqner_with_raw, seqner_with_qb64b, seqner_with_qb64, seqner_with_qb2, seqner_new; cbn [or_else matter_new is_none andb bind].
  1,2,3: intros t m -> I; rewrite bind_Ok, valid by assumption; reflexivity.
  - intros c raw m H -> I. rewrite H, bind_Ok, valid by assumption. reflexivity.
  - intros c raw m H. apply checked in H as (H & I). eauto.
Qed.
Lemma dater_sound now : sound (Kind date_times (dater_with_raw now) (dater_with_qb64b now) (dater_with_qb64 now) (dater_with_qb2 now)).
Proof.
  parts; cbn [sh_codes sh_raw sh_qb64b sh_qb64 sh_qb2]; unfold dater_with_raw, dater_with_qb64b, dater_with_qb64, dater_with_qb2, dater_new; cbn [or_else matter_new is_none andb bind].
  1,2,3: intros t m -> I; rewrite bind_Ok, valid by assumption; reflexivity.
  - intros c raw m H -> I. rewrite H, bind_Ok, valid by assumption. reflexivity.
  - intros c raw m H. apply checked in H as (H & I). eauto.
Qed.
Lemma bexter_sound : sound (Kind base64_texts bexter_with_raw bexter_with_qb64b bexter_with_qb64 bexter_with_qb2).
Proof.
  parts; cbn [sh_codes sh_raw sh_qb64b sh_qb64 sh_qb2]; unfold bexter_with_raw, bexter_with_qb64b, bexter_with_qb64, bexter_with_qb2, bexter_new; cbn [or_else matter_new is_none andb bind].
  1,2,3: intros t m -> I; rewrite bind_Ok, valid by (now apply text_codes); reflexivity.
  - intros c raw m H -> I. rewrite H, bind_Ok, valid by (now apply text_codes). reflexivity.
  - intros c raw m H. apply checked in H as (H & I). apply text_codes in I. eauto.
Qed.
Lemma pather_sound : sound (Kind base64_texts pather_with_raw pather_with_qb64b pather_with_qb64 pather_with_qb2).
Proof.
  parts; cbn [sh_codes sh_raw sh_qb64b sh_qb64 sh_qb2]; unfold pather_with_raw, pather_with_qb64b, pather_with_qb64, pather_with_qb2, pather_new; cbn [or_else matter_new is_none andb bind].
  1,2,3: intros t m -> I; rewrite bind_Ok, valid by (now apply text_codes); reflexivity.
  - intros c raw m H -> I. rewrite H, bind_Ok, valid by (now apply text_codes). reflexivity.
  - intros c raw m H. apply checked in H as (H & I). apply text_codes in I. eauto.
Qed.
Lemma prefixer_sound hash : sound (Kind prefixes (prefixer_with_raw hash) (prefixer_with_qb64b hash) (prefixer_with_qb64 hash) (prefixer_with_qb2 hash)).
Proof.
  parts; cbn [sh_codes sh_raw sh_qb64b sh_qb64 sh_qb2]; unfold prefixer_with_raw, prefixer_with_qb64b, prefixer_with_qb64, prefixer_with_qb2, prefixer_new; cbn [or_else matter_new is_none andb bind].
  1,2,3: intros t m H I; change (validate prefix_codes (s! "B")) with (@Ok unit tt); rewrite bind_Ok; exact H.
  - intros c raw m H -> I. rewrite valid by (now apply prefixes_codes). exact H.
  - intros c raw m H. destruct c as [c|]; [|discriminate]. apply bind_ok in H as (u & V & H). cbn [or_else] in V. apply validate_ok in V as (V & _). split; [eauto|].
    rewrite (prefix_of_kind _ _ _ V H). now apply prefixes_codes.
Qed.
Lemma all_sound hash now k : In k (shorts hash now) -> sound k /\ (forall c, In c (sh_codes k) -> In c matter_codes).
Proof.
  unfold shorts. intros I. repeat (destruct I as [<-|I]; [split; [auto using verfer_sound, diger_sound, said_sound, number_sound, seqner_sound, dater_sound, bexter_sound, pather_sound, prefixer_sound
    |cbn [sh_codes]; intros c C; known]|]). destruct I.
Qed.

(*# C108_short_constructors
   For keys, digests, identifiers, numbers, sequence numbers, date-times, base64 texts, paths and prefixes: a primitive of the kind is given back, the same in
   every respect, by each of the four short constructors from its text, text bytes, binary form and raw bytes with its code; and what the short constructor makes
   from raw bytes is such a primitive, its raw bytes being the first of those given.
##
Example C108_case : exists m, number_with_raw (be_bytes 4 65536) (Some (s! "0H")) = Ok m /\ built m /\ In (m_code m) numbers /\ infil m = Ok (s! "0HAAAQAA").
Proof.
  exists (Mt (s! "0H") 0 [x00; x01; x00; x00]). split; [vm_compute; reflexivity|]. split; [|split; [vm_compute; tauto|vm_compute; reflexivity]].
  exists (s! "0H"), [x00; x01; x00; x00]. split; [vm_compute; tauto|vm_compute; reflexivity].
Qed.
#*)
Lemma C108_l (hash : bytes -> bytes -> bytes) (now : bytes) (k : short) : In k (shorts hash now) ->
  (forall m, built m -> In (m_code m) (sh_codes k) -> all_give m m (sh_raw k) (sh_qb64b k) (sh_qb64 k) (sh_qb2 k)) /\
  (forall raw code m, sh_raw k raw code = Ok m -> built m /\ In (m_code m) (sh_codes k) /\ exists r, raw = m_raw m ++ r).
Proof.
  intros I. destruct (all_sound hash now k I) as ((S1 & S2 & S3 & S4 & S5) & KN). split.
  - intros m B C. apply built_wf in B. pose proof (rebuild m B) as RB. destruct (wf_round m B) as (t & b & T & X & E1 & E2 & E3). exists t, b.
    repeat apply conj; auto.
  - intros raw code m H. destruct (S5 _ _ _ H) as ((c & M) & C). split; [apply (made c raw); auto|]. split; auto. now apply (cut c).
Qed.

(*# C108_short_signatures_and_salts
   A signature is given back by each of the four short constructors, with the key passed in, or without one with the default key; a salt likewise, with the tier
   passed in, or without one with the low tier. Without any encoding the short constructor of salts makes one of the sixteen bytes drawn.
##
Example C108_signature_case : exists m, built m /\ In (m_code m) signatures /\ m_raw m = zeros 64.
Proof.
  exists (Mt (s! "0B") 0 (zeros 64)). split; [|split; [vm_compute; tauto|reflexivity]]. exists (s! "0B"), (zeros 64). split; [vm_compute; tauto|vm_compute; reflexivity].
Qed.
#*)
Lemma C108_signature_l (m : matter) : built m ->
  (forall key, In (m_code m) signatures ->
     all_give m (m, match key with Some k => k | None => Mt (s! "D") 0 [] end)
       (fun raw code => cigar_with_raw raw key code) (fun b => cigar_with_qb64b b key) (fun t => cigar_with_qb64 t key) (fun b => cigar_with_qb2 b key)) /\
  (forall random tier, In (m_code m) salts ->
     all_give m (m, match tier with Some t => t | None => s! "low" end)
       (fun raw code => salter_with_raw random raw code tier) (fun b => salter_with_qb64b random b tier) (fun t => salter_with_qb64 random t tier) (fun b => salter_with_qb2 random b tier)) /\
  (forall random tier, len random = 16 -> salter_with_defaults random tier = Ok (Mt (s! "0A") 0 random, match tier with Some t => t | None => s! "low" end)).
Proof.
  intros B. apply built_wf in B. pose proof (rebuild m B) as RB. destruct (wf_round m B) as (t & b & T & X & E1 & E2 & E3). split; [|split].
  - intros key C. apply signature_codes in C. exists t, b. unfold cigar_with_raw, cigar_with_qb64b, cigar_with_qb64, cigar_with_qb2, cigar_new. cbn [matter_new].
    rewrite RB, E1, E2, E3, !bind_Ok, valid by auto. destruct key; repeat apply conj; auto.
  - intros random tier C. exists t, b. unfold salter_with_raw, salter_with_qb64b, salter_with_qb64, salter_with_qb2, salter_new. cbn [matter_new or_else is_none andb].
    rewrite (valid [s! "0A"] (s! "0A")) by (left; reflexivity). rewrite (valid [s! "0A"] (m_code m)) by exact C. rewrite RB, E1, E2, E3, !bind_Ok. destruct tier; repeat apply conj; auto.
  - intros random tier L. unfold salter_with_defaults, salter_new. cbn [or_else is_none andb matter_new]. rewrite (valid [s! "0A"] (s! "0A")) by (left; reflexivity). rewrite bind_Ok.
    destruct (fixed_built (s! "0A") 16 random ltac:(unfold fixed_codes; cbn; tauto) L) as (-> & _). destruct tier; reflexivity.
Qed.

(*# C108_short_signers
   A signer made from raw bytes or drawn at random is given back by each of the four short constructors from the encodings of its seed and the same transferability: seed and
   public key are the same.
##
Example C108_signer_case : exists g, signer_with_raw toy (zeros 32) (Some false) None = Ok g /\ m_code (g_verfer g) = s! "B".
Proof. eexists. split; vm_compute; reflexivity. Qed.
#*)
Lemma C108_signer_l (cr : crypto) (transferable : option bool) (code : option bytes) (raw : bytes) (g : signer) :
  signer_with_raw cr raw transferable code = Ok g \/ signer_with_defaults cr transferable code = Ok g ->
  all_give (g_seed g) g (fun raw code => signer_with_raw cr raw transferable code) (fun b => signer_with_qb64b cr b transferable)
    (fun t => signer_with_qb64 cr t transferable) (fun b => signer_with_qb2 cr b transferable).
Proof.
  intros H. assert (exists c r, In c seed_codes /\ matter_of_code_raw c r = Ok (g_seed g) /\
    (let* v := derive_verfer cr (m_code (g_seed g)) (m_raw (g_seed g)) (or_else transferable true) in Ok (Sgr (g_seed g) v)) = Ok g) as (c & r & I & M & D).
  { destruct H as [H|H]; unfold signer_with_raw, signer_with_defaults, signer_new in H; cbn [is_none andb] in H; apply bind_ok in H as (m & M & H); apply bind_ok in M as (u & V & M);
      apply bind_ok in M as (r & _ & M); apply validate_ok in V as (V & _); cbn [matter_new] in M; apply bind_ok in H as (v & D & H); injection H as <-; cbn [g_seed];
      (exists (or_else code (s! "A")), r; split; [auto|split; [exact M|rewrite D; reflexivity]]). }
  assert (m_code (g_seed g) = c) as C by (apply (fixed_code c r); auto; revert I; apply has_codes; vm_compute; reflexivity).
  assert (wf_matter (g_seed g)) as W by (apply (construct_wf c r); auto; rewrite C; apply code_known, kinds_known; rewrite !in_app_iff; apply seeds_codes in I; tauto).
  pose proof (rebuild _ W) as RB. destruct (wf_round _ W) as (t & b & T & X & E1 & E2 & E3). exists t, b. rewrite <- C in I.
  unfold signer_with_raw, signer_with_qb64b, signer_with_qb64, signer_with_qb2, signer_new. cbn [is_none andb matter_new or_else].
  rewrite E1, E2, E3, !bind_Ok, valid, !bind_Ok by auto. cbn [matter_new]. rewrite RB, !bind_Ok, D. repeat apply conj; auto.
Qed.

Lemma sig_code_kept code raw index ondex x : indexer_of_code_raw code raw index ondex = Ok x -> i_code x = code.
Proof.
  unfold indexer_of_code_raw. destruct code as [|a l]; [discriminate|]. generalize (a :: l). intros code H. apply bind_ok in H as (z & _ & H). apply bind_ok in H as (ms & _ & H). apply bind_ok in H as (p & _ & H).
  destruct (_ <? _); [discriminate|]. apply bind_ok in H as (u & _ & H). destruct (_ && _); [discriminate|]. apply bind_ok in H as (o & _ & H). apply bind_ok in H as (f & _ & H). apply bind_ok in H as (d & _ & H). apply bind_ok in H as (d3 & _ & H).
  destruct (_ <? _); [discriminate|]. apply bind_ok in H as (r & _ & H). injection H as <-. reflexivity.
Qed.
(*# C108_short_indexed_signatures
   An indexed signature made from raw bytes is given back, with both indices and the key passed in, from its text, text bytes and binary form; when the code has no room for
   another index, provided that none other than the index was asked for.
##
Example C108_indexed_case : exists x k, siger_with_raw (zeros 64) None (Some 3) (Some 70) (Some (s! "2A")) = Ok (x, k) /\ i_ondex x = 70.
Proof. do 2 eexists. split; vm_compute; reflexivity. Qed.
#*)
Lemma C108_indexed_l (raw : bytes) (key : option matter) (index ondex : option N) (code : option bytes) (x : indexer) (k : matter) :
  siger_with_raw raw key index ondex code = Ok (x, k) ->
  (match code with Some [_] => ondex = None \/ ondex = Some (match index with Some i => i | None => 0 end) | _ => True end) ->
  k = match key with Some k => k | None => Mt (s! "D") 0 [] end /\
  exists t b, iinfil x = Ok t /\ ibinfil x = Ok b /\
    siger_with_qb64 t key = Ok (x, k) /\ siger_with_qb64b t key = Ok (x, k) /\ siger_with_qb2 b key = Ok (x, k).
Proof.
  unfold siger_with_raw, siger_new. intros H O. apply (proj1 (checked_with _ _ _ _ _ _)) in H as (M & I & K). split. { rewrite K. now destruct key. }
  unfold indexer_new in M. destruct code as [c|]; [|discriminate].
  assert (exists n d e, In (c, (n, d, e)) sig_codes /\ (e = 0 -> exists a, c = [a]) /\ ~ In c big448_codes) as (n & d & e & S & E0 & NB).
  { assert (i_code x = c) as <- by (exact (sig_code_kept _ _ _ _ _ M)). repeat (destruct I as [<-|I]; [do 3 eexists; split; [vm_compute; repeat (first [left; reflexivity|right])|split; [intros X; first [discriminate X|eexists; reflexivity]|vm_compute; intuition discriminate]]|]). destruct I. }
  assert (e = 0 -> ondex = None \/ ondex = Some (match index with Some i => i | None => 0 end)) as O' by (intros X; destruct (E0 X) as (a & ->); exact O).
  destruct (C23_partial_l c n d e raw _ ondex x S O' M) as (t & T & T1 & T2). destruct (C24_partial_l c n d e raw _ ondex x S O' M) as (BB & _). destruct (BB NB) as (b & B1 & B2).
  exists t, b. unfold siger_with_qb64, siger_with_qb64b, siger_with_qb2, siger_new. cbn [indexer_new]. rewrite T1, T2, B2, !bind_Ok, valid by auto. rewrite K, !bind_Ok. repeat apply conj; auto.
Qed.

(*# C108_short_values
   The short constructors from an integer and from its hexadecimal numeral give the same number, and the same sequence number, and the integer is read back.
##
Example C108_value_case : number_with_num 65536 = number_with_numh (s! "10000") /\ is_ok (number_with_num 65536) = true.
Proof. split; vm_compute; reflexivity. Qed.
#*)
Lemma C108_value_l (n : N) : n < 2 ^ 128 ->
  exists h m q, lower_hex h /\ hex_number h = n /\
    number_with_num n = Ok m /\ number_with_numh h = Ok m /\ number_num m = Ok n /\ seqner_with_sn n = Ok q /\ seqner_with_snh h = Ok q /\ seqner_sn q = Ok n.
Proof.
  intros H. destruct (C36_l n H) as (h & m & q & A1 & A2 & A3 & _ & A4 & A5 & _ & A6). exists h, m, q. destruct (C34_l n H) as (m' & t & b & M1 & M2 & _).
  assert (n <= u128_max) as Hn. { unfold u128_max. change (2 ^ 128) with 340282366920938463463374607431768211456 in H. lia. }
  destruct (seqner_new_spec n Hn) as (S1 & _ & S2). assert (m' = m) as -> by congruence. assert (Ok q = Ok (Mt (s! "0A") 0 (be_bytes 16 n))) as Q by congruence.
  assert (q = Mt (s! "0A") 0 (be_bytes 16 n)) as -> by congruence. split; [auto|]. repeat apply conj; auto.
Qed.

(*# C108_short_events_refuted
   False in general that the short constructor from bytes reads back what the short constructor from data made: it always expects a Blake3 digest.
#*)
Lemma C108_events_no_l : exists ked e,
  serder_with_ked (fun _ => None) ked (Some (s! "F")) None = Ok e /\ serder_with_raw (fun _ => None) (d_raw e) = Err EValidation.
Proof.
  exists (VObj [(s! "v", VStr (s! "KERI10JSON000000_")); (s! "d", VStr (s! "FAAAAAAAAAAAAAAAAAAAAAAAAAAAAAAAAAAAAAAAAAAA"))]). eexists. split; [vm_compute; reflexivity|]. vm_compute. reflexivity.
Qed.
(*# C108_short_events_partial
   What holds, under the conditions of C54: a key event or credential made by the short constructor from data is given back by the one from bytes, followed by any
   text, if the code asked for is that of Blake3 or none; if it is another one, reading is an error.
##
Example C108_event_case : exists e, serder_with_ked (fun _ => None)
    (VObj [(s! "v", VStr (s! "KERI10JSON000000_")); (s! "d", VStr (s! "EAAAAAAAAAAAAAAAAAAAAAAAAAAAAAAAAAAAAAAAAAAA"))]) None None = Ok e /\ len (d_raw e) = 76.
Proof. eexists. split; [vm_compute; reflexivity|]. vm_compute. reflexivity. Qed.
#*)
Lemma C108_events_l (canon : bytes -> option bytes) (code kind : option bytes) (m1 m2 : list (bytes * value)) (vs c : bytes) (e : sadder) :
  ~ In (s! "v") (map fst m1) -> no_version_in (to_json (VObj m1)) ->
  let ked := VObj (m1 ++ (s! "v", VStr vs) :: m2) in
  data ked -> nests 127 ked -> len (d_raw e) < 2 ^ 32 -> utf8 c = true ->
  (serder_with_ked canon ked code kind = Ok e ->
     serder_with_raw canon (d_raw e ++ c) = match code with None => Ok e | Some code => if beq code (s! "E") then Ok e else Err EValidation end) /\
  (creder_with_ked canon ked code kind = Ok e ->
     creder_with_raw canon (d_raw e ++ c) = match code with None => Ok e | Some code => if beq code (s! "E") then Ok e else Err EValidation end).
Proof.
  intros N F ked D NE L C. subst ked.
  assert (forall new, In new [serder_new; creder_new] -> new canon code None kind (Some (VObj (m1 ++ (s! "v", VStr vs) :: m2))) None = Ok e ->
    new canon None (Some (d_raw e ++ c)) None None None = match code with None => Ok e | Some code => if beq code (s! "E") then Ok e else Err EValidation end) as K.
  { intros new I H. assert (In new constructors) as I' by (right; exact I).
    destruct (C54_l new canon code kind None m1 m2 vs c None None None e I' N F D NE H L C) as (R & _).
    destruct (gated new I') as (ok & G). rewrite G in R, H |- *. rewrite new_raw in R |- *. cbn [or_else].
    destruct code as [code|]; [|exact R]. cbn [or_else] in R. destruct (beq code (s! "E")) eqn:B; [apply beq_eq in B; subst code; exact R|].
    destruct (populate_from_raw canon code (d_raw e ++ c)) as [x| |] eqn:P; try discriminate R.
    unfold populate_from_raw in P |- *. apply bind_ok in P as ((k & i) & -> & P). rewrite bind_Ok. apply bind_ok in P as (own & -> & P). rewrite bind_Ok. apply bind_ok in P as (d & -> & P). rewrite bind_Ok.
    apply bind_ok in P as (q & -> & P). rewrite bind_Ok. apply bind_ok in P as (sa & -> & P). rewrite bind_Ok.
    destruct (beq code (m_code sa)) eqn:E; [|discriminate P]. apply beq_eq in E. rewrite <- E. replace (beq (s! "E") code) with false; [reflexivity|].
    symmetry. destruct (beq (s! "E") code) eqn:X; auto. apply beq_eq in X. rewrite <- X in B. discriminate B. }
  split; [apply (K serder_new); now left|apply (K creder_new); right; now left].
Qed.

(*# C108_short_contents_partial
   The short constructors from what a primitive stands for: a digest of a serialisation verifies it; an identifier of data is the one saidify computes; a digest prefix
   of an inception event verifies; a base64 text, a date-time and the elements of a path are read back; a threshold is given back from its text, its JSON value and
   its reported value. Full statement: without the conditions of C37, C38, C46 and C72.
##
Example C108_content_case : exists t, tholder_with_sith (fun _ => None) (VArr [VStr (s! "1/2"); VStr (s! "1/2")]) = Ok t /\ tholder_limen t = Ok (s! "4AACA1s2c1s2").
Proof. eexists. split; [vm_compute; reflexivity|]. vm_compute. reflexivity. Qed.
#*)
Lemma C108_content_l :
  (forall hash ser code, sized_hash hash -> In (match code with Some c => c | None => s! "E" end) digests ->
     exists m, diger_with_ser hash ser code = Ok m /\ m_code m = match code with Some c => c | None => s! "E" end /\ m_raw m = hash (m_code m) ser /\ diger_verify hash m ser = Ok true) /\
  (forall hash m code kind label ignore x out, sized_hash hash -> saidify hash (VObj m) (Some code) kind label (match ignore with Some i => i | None => [] end) = Ok (x, out) ->
     said_with_sad hash (VObj m) label kind ignore (Some code) = Ok x /\ said_with_sad hash out label kind ignore None = Ok x) /\
  (forall hash m allows code x, NoDup (map fst m) -> prefixer_with_ked hash (VObj m) allows code = Ok x -> In (m_code x) digests ->
     (forall c, code = Some c -> m_code x = c) /\ (forall l, allows = Some l -> l = [] \/ In (m_code x) l) /\
     exists t, infil x = Ok t /\ forall said prefixed, prefixer_verify hash x (VObj (assigned (s! "d") said (assigned (s! "i") (VStr t) m))) prefixed = Ok true) /\
  (forall t, over base64url_alphabet t -> len t <= 67108860 -> ~ (len t mod 4 = 0 /\ prefix (s! "A") t) -> exists m, bexter_with_bext t = Ok m /\ bext_of m = Ok t) /\
  (forall now dts, over iso_alphabet dts -> len dts = 32 -> exists m, dater_with_dts now dts None = Ok m /\ dater_dts m = Ok dts /\ dater_dtsb m = Ok dts) /\
  (forall vs els, Forall2 names vs els -> Forall (over base64url_alphabet) els -> len (path_text els) <= 67108860 -> separable els ->
     exists m, pather_with_path (VArr vs) = Ok m /\ elements m els) /\
  (forall canon v t, tholder_with_sith canon v = Ok t -> t_thold t <> VArr [] -> SpecTholder.keys (t_thold t) < 2 ^ 27 ->
     exists l j, tholder_limen t = Ok l /\ tholder_sith t = Ok j /\ tholder_with_limen canon l = Ok t /\ tholder_with_sith canon j = Ok t /\ tholder_with_thold canon (t_thold t) = Ok t).
Proof.
  repeat apply conj.
  - intros hash ser code SH C. destruct (C69a_l hash ser code SH) as (K & _). destruct (K C) as (d & D1 & D2 & D3 & _ & D4 & _). exists d. rewrite D2. auto.
  - intros hash m code kind label ignore x out SH H. destruct (C101_new_l hash m code [] kind label _ x out SH H) as (A & B & _).
    unfold said_with_sad. replace (or_else ignore []) with (match ignore with Some i => i | None => [] end) by (now destruct ignore). auto.
  - intros hash m allows code x N H C. destruct (C62_asked_l _ _ _ _ _ H) as (A1 & _ & A2 & _). split; [exact A1|]. split; [exact A2|]. destruct (prefix_text x) as (t & T). { now apply (prefix_wf hash (VObj m) allows code). } exists t. split; [exact T|]. intros said prefixed.
    destruct (C62a_l hash m allows code x said prefixed N H C) as (t' & T' & V). rewrite T in T'. injection T' as <-. exact V.
  - intros t A B C. destruct (C38_partial_l t A B C) as (m & _ & _ & X & Y & _). eauto.
  - intros now dts A B. destruct (C37_partial_l now dts A B) as (m & _ & _ & X & Y & _). unfold dater_dtsb. eauto.
  - intros vs els A B C D. destruct (C72_l vs els A B C) as (m & _ & _ & X & _ & _ & _ & _ & _ & _ & E). exists m. split; [exact X|now apply E].
  - intros canon v t H A B. destruct (C46_l canon None (Some v) None t H A B) as (l & j & _ & L1 & L2 & _ & L3 & L4 & L5 & _). exists l, j. auto.
Qed.
