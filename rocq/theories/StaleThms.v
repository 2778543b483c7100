(** Proofs of C109 and C110: signers and events in any state. *)
From Coq Require Import String.
From Coq Require Import NArith ZArith List Bool Lia.
From Verif Require Import Base BaseFacts Tables Matter Indexer Prims Json JsonFacts Tholder Common Saider Diger Sadder Signer State Stale
  Spec SpecIndexer SpecPrims SpecSaider SpecSadder SpecSigner SpecKinds MatterFacts MatterText MatterMore MatterThms IndexerThms PrimsFacts PrimsThms SaiderFacts SadderFacts SadderThms
  KindThms SignerThms PrefixerThms FieldThms.
Import ListNotations.
Open Scope N_scope.

(** ** Signers *)
Lemma sign_np cr rng code key ser : sign cr rng code key ser <> Panic.
Proof.
  unfold sign. destruct (scheme_of code) as [s| |] eqn:S; cbn [bind]; try discriminate.
  - destruct s; [destruct (len key =? 32); [|discriminate]| |]; unfold foreign; destruct (cr_sign cr _ rng key ser); discriminate.
  - unfold scheme_of in S. destruct (has_code _ code); [discriminate|]. destruct (has_code _ code); [discriminate|]. destruct (has_code _ code); discriminate.
Qed.
Lemma check_np cr code key sig ser : check cr code key sig ser <> Panic.
Proof.
  unfold check. destruct (scheme_of code) as [s| |] eqn:S; cbn [bind]; try discriminate.
  - destruct s; [destruct (_ && _); [|discriminate]| |]; unfold foreign; destruct (cr_verify cr _ key sig ser); discriminate.
  - unfold scheme_of in S. destruct (has_code _ code); [discriminate|]. destruct (has_code _ code); [discriminate|]. destruct (has_code _ code); discriminate.
Qed.
Lemma validate_np codes c : validate codes c <> Panic.
Proof. unfold validate. destruct (has_code codes c); discriminate. Qed.
Lemma seed_dec c : (exists s d b sg, In (c, (s, d, b, sg)) seed_table) \/ ~ In c seeds.
Proof.
  destruct (has_code seed_codes c) eqn:H; [left; apply seed_row; now apply has_code_In|right]. intros I. apply seeds_codes, has_code_In in I. congruence.
Qed.
Lemma other_seed cr rng g ser only index ondex : ~ In (m_code (g_seed g)) seeds ->
  sign_unindexed cr rng g ser = Err EUnexpectedCode /\ sign_indexed cr rng g ser only index ondex = Err EUnexpectedCode.
Proof.
  intros N. assert (forall c, In c seeds -> beq (m_code (g_seed g)) c = false) as K.
  { intros c I. destruct (beq (m_code (g_seed g)) c) eqn:B; auto. apply beq_eq in B. rewrite B in N. now elim N. }
  unfold sign_unindexed, sign_indexed. cbv zeta. rewrite (K (s! "A")), (K (s! "J")), (K (s! "Q")) by (cbn; tauto). split; [reflexivity|].
  destruct only, (index <? 64); try reflexivity; destruct (index =? or_else ondex index); reflexivity.
Qed.
Lemma unindexed_eq cr rng g ser s d b sg : In (m_code (g_seed g), (s, d, b, sg)) seed_table ->
  sign_unindexed cr rng g ser = let* sig := sign cr rng (m_code (g_seed g)) (m_raw (g_seed g)) ser in cigar_new (Some (g_verfer g)) (Some sg) (Some sig) None None None.
Proof. intros H. unfold sign_unindexed. cbv zeta. cbn in H. destruct H as [H|[H|[H|[]]]]; injection H as <- <- <- <- <-; reflexivity. Qed.
(** The code an indexed signature gets. *)
Lemma indexed_shape cr rng g ser only index ondex s d b sg : In (m_code (g_seed g), (s, d, b, sg)) seed_table ->
  exists c w k o, In (c, (64, w, k)) sig_codes /\ In c siger_codes /\ sign_indexed cr rng g ser only index ondex =
    let* sig := sign cr rng (m_code (g_seed g)) (m_raw (g_seed g)) ser in siger_new (Some (g_verfer g)) (Some index) o (Some c) (Some sig) None None None.
Proof.
  intros Row. destruct (index_row _ _ _ _ _ Row) as (a1 & a2 & o1 & o2 & IR & A1 & O1 & A2 & O2 & VA1 & VA2 & VO1 & VO2 & _). rewrite (indexed_eq cr rng g ser only index ondex a1 a2 o1 o2 IR).
  destruct only; [destruct (index <? 64); [exists o1, 1, 0, None|exists o2, 2, 2, None]|destruct (_ && _); [exists a1, 1, 0, (Some (or_else ondex index))|exists a2, 2, 2, (Some (or_else ondex index))]]; auto.
Qed.

(*# C109_signing_never_panics
   Neither signing, plain or indexed, nor verifying panics: whatever state a signer or a key is in, whatever the crates answer, and for all indices.
##
Example C109_panic_case : is_err (sign_unindexed toy [] (signer_set_raw (zeros 31) (Sgr (Mt (s! "A") 0 (zeros 32)) (Mt (s! "D") 0 (zeros 32)))) (s! "abc")) = true /\
  is_err (sign_indexed toy [] (signer_set_code (s! "4A") (Sgr (Mt (s! "A") 0 (zeros 32)) (Mt (s! "D") 0 (zeros 32)))) (s! "abc") false 4294967295 (Some 7)) = true.
Proof. split; vm_compute; reflexivity. Qed.
#*)
Lemma C109_np_l (cr : crypto) (g : signer) (rng ser : bytes) (only : bool) (index : N) (ondex : option N) (key : matter) (sig : bytes) :
  sign_unindexed cr rng g ser <> Panic /\ sign_indexed cr rng g ser only index ondex <> Panic /\ verfer_verify cr key sig ser <> Panic.
Proof.
  split; [|split].
  - destruct (seed_dec (m_code (g_seed g))) as [(s & d & b & sg & Row)|N]; [|now rewrite (proj1 (other_seed cr rng g ser true 0 None N))].
    rewrite (unindexed_eq cr rng g ser _ _ _ _ Row). intros H. apply bind_panic in H as [H|(x & _ & H)]; [now apply sign_np in H|]. unfold cigar_new in H.
    destruct (row_fixed _ _ _ _ _ Row) as (_ & _ & _ & _ & _ & F3 & _). apply bind_panic in H as [H|(y & _ & H)]; [now apply (raw_fixed_np sg x 64) in H|].
    apply bind_panic in H as [H|(z & _ & H)]; [now apply validate_np in H|discriminate].
  - destruct (seed_dec (m_code (g_seed g))) as [(s & d & b & sg & Row)|N]; [|now rewrite (proj2 (other_seed cr rng g ser only index ondex N))].
    destruct (indexed_shape cr rng g ser only index ondex _ _ _ _ Row) as (c & w & k & o & SC & _ & ->). intros H. apply bind_panic in H as [H|(x & _ & H)]; [now apply sign_np in H|].
    unfold siger_new in H. apply bind_panic in H as [H|(y & _ & H)]; [cbn [indexer_new] in H; now apply (C26_l c 64 w k x index o SC) in H|].
    apply bind_panic in H as [H|(z & _ & H)]; [now apply validate_np in H|discriminate].
  - unfold verfer_verify. intros H. apply bind_panic in H as [H|(x & _ & H)]; [now apply validate_np in H|now apply check_np in H].
Qed.

(*# C109_stale_key_refuted
   False in general that what a signer signs verifies under the key attached to the signature: after set_raw a signer keeps the key of its old seed.
#*)
Lemma C109_stale_l : exists g sig key,
  signer_new toy None None (Some (zeros 32)) None None None = Ok g /\
  sign_unindexed toy [] (signer_set_raw (repeat x01 32) g) (s! "abc") = Ok (sig, key) /\ key = g_verfer g /\ verfer_verify toy key (m_raw sig) (s! "abc") = Ok false.
Proof.
  exists (Sgr (Mt (s! "A") 0 (zeros 32)) (Mt (s! "D") 0 (zeros 32))). do 2 eexists. split; [vm_compute; reflexivity|]. split; [vm_compute; reflexivity|]. split; [reflexivity|vm_compute; reflexivity].
Qed.
(*# C109_any_state_partial
   What holds: a signer in any state signs with its seed. The key attached is the one it carries, whatever that is; the signature, plain or indexed, verifies under both keys
   of the seed, transferable and not, so that it verifies under its own key if that is one of them. A seed of another code, or an Ed25519 seed of another length than 32
   bytes, is an error. Missing: see the refutation.
##
Example C109_state_case : exists sig, sign_unindexed toy [] (signer_set_raw (repeat x01 32) (Sgr (Mt (s! "A") 0 (zeros 32)) (Mt (s! "D") 0 (zeros 32)))) (s! "abc") =
  Ok (sig, Mt (s! "D") 0 (zeros 32)) /\ verfer_verify toy (Mt (s! "D") 0 (repeat x01 32)) (m_raw sig) (s! "abc") = Ok true.
Proof. eexists. split; [vm_compute; reflexivity|]. vm_compute. reflexivity. Qed.
#*)
Lemma C109_state_l (cr : crypto) (g : signer) (rng ser : bytes) (only : bool) (index : N) (ondex : option N) : correct cr ->
  (forall s d b sg pk, In (m_code (g_seed g), (s, d, b, sg)) seed_table -> cr_public cr s (m_raw (g_seed g)) = Some pk -> (s = Ed25519 -> len (m_raw (g_seed g)) = 32) ->
     (exists sig, sign_unindexed cr rng g ser = Ok (sig, g_verfer g) /\ m_code sig = sg /\
        verfer_verify cr (Mt d 0 pk) (m_raw sig) ser = Ok true /\ verfer_verify cr (Mt b 0 pk) (m_raw sig) ser = Ok true) /\
     (forall x v, sign_indexed cr rng g ser only index ondex = Ok (x, v) -> v = g_verfer g /\
        verfer_verify cr (Mt d 0 pk) (i_raw x) ser = Ok true /\ verfer_verify cr (Mt b 0 pk) (i_raw x) ser = Ok true)) /\
  (~ In (m_code (g_seed g)) seeds -> sign_unindexed cr rng g ser = Err EUnexpectedCode /\ sign_indexed cr rng g ser only index ondex = Err EUnexpectedCode) /\
  (m_code (g_seed g) = s! "A" -> len (m_raw (g_seed g)) <> 32 -> sign_unindexed cr rng g ser = Err EForeign /\ sign_indexed cr rng g ser only index ondex = Err EForeign) /\
  sign_unindexed cr rng signer_empty ser = Err EForeign.
Proof.
  intros CR. split; [|split; [|split]].
  - intros s d b sg pk Row P L. destruct (row_fixed _ _ _ _ _ Row) as (S1 & S2 & S3 & F1 & F2 & F3 & V1 & V2 & V3).
    destruct (sign_ok cr _ s _ pk rng ser CR S1 P L) as (sig & E & LS & LP & VV).
    assert (verfer_verify cr (Mt d 0 pk) sig ser = Ok true /\ verfer_verify cr (Mt b 0 pk) sig ser = Ok true) as (K1 & K2) by (split; [now apply (check_ok cr d s)|now apply (check_ok cr b s)]).
    split.
    + exists (Mt sg 0 sig). rewrite (unindexed_eq cr rng g ser _ _ _ _ Row), E, bind_Ok. destruct (fixed_built sg 64 sig F3 LS) as (B & _). unfold cigar_new.
      change (matter_new (Some sg) (Some sig) None None None) with (matter_of_code_raw sg sig). rewrite B, bind_Ok. cbn [m_code]. rewrite (proj2 (validated _ _) V3). auto.
    + intros x v H. destruct (indexed_shape cr rng g ser only index ondex _ _ _ _ Row) as (c & w & k & o & SC & _ & X). rewrite X, E, bind_Ok in H. clear X.
      unfold siger_new in H. apply (proj1 (checked_with _ _ _ _ _ _)) in H as (M & _ & ->). cbn [or_else]. split; auto. cbn [indexer_new] in M.
      destruct (C26_l c 64 w k sig index o SC) as (_ & R & _). destruct (R x M) as (_ & IR & _). rewrite IR, take_all by lia. auto.
  - intros N. now apply other_seed.
  - intros C L. assert (In (m_code (g_seed g), (Ed25519, s! "D", s! "B", s! "0B")) seed_table) as Row by (rewrite C; now left).
    assert (sign cr rng (m_code (g_seed g)) (m_raw (g_seed g)) ser = Err EForeign) as SG.
    { rewrite C. unfold sign. change (scheme_of (s! "A")) with (@Ok scheme Ed25519). rewrite bind_Ok. replace (len (m_raw (g_seed g)) =? 32) with false by lia. reflexivity. }
    split; [rewrite (unindexed_eq cr rng g ser _ _ _ _ Row), SG; reflexivity|]. destruct (indexed_shape cr rng g ser only index ondex _ _ _ _ Row) as (c & w & k & o & _ & _ & ->). now rewrite SG.
  - reflexivity.
Qed.

(** ** Events *)
Lemma text_ok v (k : bytes) t : (let* x := index_str v k in to_string x) = Ok t <-> field_of v k (VStr t).
Proof.
  split.
  - intros H. apply bind_ok in H as (x & X & H). destruct x; try discriminate. injection H as ->. now apply index_field.
  - intros F. apply index_field in F. now rewrite F.
Qed.
Lemma text_panic v (k : bytes) : (let* x := index_str v k in to_string x) = Panic <-> lacks v k.
Proof.
  rewrite <- index_panics. split.
  - intros H. apply bind_panic in H as [H|(x & _ & H)]; auto. destruct x; discriminate.
  - intros ->. reflexivity.
Qed.
Lemma hexed_np h : number_new None (Some h) None None None None None <> Panic.
Proof.
  unfold number_new. cbn [is_none andb]. intros H. apply bind_panic in H as [H|(n & _ & H)].
  - destruct h as [|c r]; [discriminate|]. unfold u128_from_hex in H. destruct (match c :: r with x2b :: r0 => r0 | _ => c :: r end) eqn:E; [discriminate|]. destruct (hex_val 0 (b :: l)); [destruct (_ <=? _)|]; discriminate.
  - cbn [matter_new] in H. destruct (n <? 65536); [now apply (raw_fixed_np (s! "M") _ 2) in H; [|cbn; tauto]|]. destruct (n <? 4294967296); [now apply (raw_fixed_np (s! "0H") _ 4) in H; [|cbn; tauto]|].
    destruct (n <? 18446744073709551616); [now apply (raw_fixed_np (s! "N") _ 8) in H; [|cbn; tauto]|now apply (raw_fixed_np (s! "0A") _ 16) in H; [|cbn; tauto]].
Qed.
Lemma each_panic (g : value -> R matter) codes : (forall v y, g v = Ok y <-> exists q, v = VStr q /\ exfil q = Ok y /\ In (m_code y) codes) ->
  (forall v, g v = Panic <-> exists q, v = VStr q /\ exfil q = Panic) ->
  forall l, each g l = Panic <-> exists a t b ms, l = a ++ VStr t :: b /\ texts_of codes a ms /\ exfil t = Panic.
Proof.
  intros G P. induction l as [|v l IH]; cbn [each].
  - split; [discriminate|]. intros (a & t & b & ms & E & _). now destruct a.
  - split.
    + intros H. apply bind_panic in H as [H|(y & Y & H)].
      * apply P in H as (q & -> & Q). exists [], q, l, []. split; [reflexivity|]. split; auto. constructor.
      * apply bind_panic in H as [H|(ys & _ & H)]; [|discriminate]. apply IH in H as (a & t & b & ms & -> & T & Q). exists (v :: a), t, b, (y :: ms). split; [reflexivity|]. split; auto.
        constructor; auto. apply G in Y as (q & -> & E). eauto.
    + intros (a & t & b & ms & E & T & Q). destruct a as [|u a].
      * injection E as -> ->. assert (g (VStr t) = Panic) as -> by (apply P; eauto). reflexivity.
      * injection E as -> ->. inversion T as [|? y ? ms' H1 H2]; subst. assert (g u = Ok y) as -> by (apply G; destruct H1 as (q & -> & ?); eauto). rewrite bind_Ok.
        assert (each g (a ++ VStr t :: b) = Panic) as -> by (apply IH; do 4 eexists; split; [reflexivity|split; eassumption]). reflexivity.
Qed.
Lemma verfer_of_panic v : verfer_of v = Panic <-> exists q, v = VStr q /\ exfil q = Panic.
Proof.
  split.
  - unfold verfer_of. intros H. apply bind_panic in H as [H|(q & Q & H)]; [destruct v; discriminate|]. destruct v; try discriminate. injection Q as ->. exists q. split; auto.
    unfold verfer_new in H. cbn [or_else matter_new] in H. apply bind_panic in H as [H|(m & _ & H)]; auto. apply bind_panic in H as [H|(u & _ & H)]; [now apply validate_np in H|discriminate].
  - intros (q & -> & Q). unfold verfer_of, verfer_new. cbn [to_string or_else matter_new bind]. now rewrite Q.
Qed.
Lemma diger_of_panic v : diger_of v = Panic <-> exists q, v = VStr q /\ exfil q = Panic.
Proof.
  split.
  - unfold diger_of. intros H. apply bind_panic in H as [H|(q & Q & H)]; [destruct v; discriminate|]. destruct v; try discriminate. injection Q as ->. exists q. split; auto.
    unfold diger_new in H. cbn [matter_new] in H. destruct (exfil q) as [m|e|]; auto; [|discriminate]. apply bind_panic in H as [H|(u & _ & H)]; [now apply validate_np in H|discriminate].
  - intros (q & -> & Q). unfold diger_of, diger_new. cbn [to_string matter_new bind]. now rewrite Q.
Qed.
Lemma listed_panic (g : value -> R matter) codes s k : (forall l, each g l = Panic <-> exists a t b ms, l = a ++ VStr t :: b /\ texts_of codes a ms /\ exfil t = Panic) ->
  ((let* map := to_map (d_ked s) in if contains_key k map then let* v := index_str (d_ked s) k in match to_vec v with Ok l => each g l | Err _ => Ok [] | Panic => Panic end else Ok []) = Panic <->
   exists a t b ms, field_of (d_ked s) k (VArr (a ++ VStr t :: b)) /\ texts_of codes a ms /\ exfil t = Panic) /\
  ((let* map := to_map (d_ked s) in if contains_key k map then let* v := index_str (d_ked s) k in let* l := to_vec v in each g l else Ok []) = Panic <->
   exists a t b ms, field_of (d_ked s) k (VArr (a ++ VStr t :: b)) /\ texts_of codes a ms /\ exfil t = Panic).
Proof.
  intros G. destruct (d_ked s) as [|b0|z0|k0|t0|l0|m]; cbn [to_map]; try (cbn [bind]; split; (split; [discriminate|intros (a & t & b & ms & (m1 & m2 & E & _) & _); discriminate E])).
  cbn [to_map]. rewrite !bind_Ok. destruct (contains_key k m) eqn:C.
  - apply contains_field in C as (x & F). pose proof F as F'. apply index_field in F'. rewrite F', !bind_Ok.
    assert ((exists l, x = VArr l /\ each g l = Panic) <-> exists a t b ms, field_of (VObj m) k (VArr (a ++ VStr t :: b)) /\ texts_of codes a ms /\ exfil t = Panic) as K.
    { split.
      - intros (l & -> & P). apply G in P as (a & t & b & ms & -> & T & Q). do 4 eexists. split; eauto.
      - intros (a & t & b & ms & F2 & T & Q). pose proof (field_unique _ _ _ _ F F2). subst x. eexists. split; [reflexivity|]. apply G. do 4 eexists. split; eauto. }
    rewrite <- K. destruct x; cbn [to_vec bind]; split; (split; [first [discriminate|intros P; eauto]|intros (l' & E & P); first [discriminate E|injection E as ->; exact P]]).
  - assert (forall x, ~ field_of (VObj m) k x) as N by (intros x F; rewrite (proj2 (contains_field k m) (ex_intro _ x F)) in C; discriminate).
    split; (split; [discriminate|intros (a & t & b & ms & F & _); now elim (N (VArr (a ++ VStr t :: b)))]).
Qed.

(*# C110_events_any_state
   In any state of a key event, its accessors answer by its data alone: the identifier is the text of field i; whether it establishes keys depends on the text of field t; its
   number is the one the text of field s denotes. These panic exactly if the field is missing (any other value than a text is an error).
##
Example C110_case : serder_pre serder_empty = Panic /\ is_err (serder_sn (Sd (s! "E") [] (VObj [(s! "s", VInt 3)]) (s! "KERI") (s! "JSON") 0 (Ver 1 0) (Mt (s! "E") 0 []))) = true.
Proof. split; vm_compute; reflexivity. Qed.
#*)
Lemma C110_l (e : sadder) (t : bytes) (n : N) (b : bool) :
  (serder_pre e = Ok t <-> field_of (d_ked e) (s! "i") (VStr t)) /\ (serder_pre e = Panic <-> lacks (d_ked e) (s! "i")) /\
  (serder_est e = Ok b <-> exists ilk, field_of (d_ked e) (s! "t") (VStr ilk) /\ (b = true <-> In ilk [s! "icp"; s! "rot"; s! "dip"; s! "drt"])) /\
  (serder_est e = Panic <-> lacks (d_ked e) (s! "t")) /\
  (serder_sn e = Ok n <-> exists h, field_of (d_ked e) (s! "s") (VStr h) /\ (h = [] /\ n = 0 \/ h <> [] /\ hex_reading h n /\ n < 2 ^ 128)) /\
  (serder_sn e = Panic <-> lacks (d_ked e) (s! "s")).
Proof.
  split; [apply text_ok|]. split; [apply text_panic|]. split; [|split; [|split]].
  - split.
    + intros H. assert (exists ilk, field_of (d_ked e) (s! "t") (VStr ilk)) as (ilk & F).
      { unfold serder_est in H. apply bind_ok in H as (v & V & H). apply bind_ok in H as (ilk & I & _). destruct v; try discriminate. exists s. now apply index_field. }
      exists ilk. split; auto. destruct (C88_sn_l e 0 ilk b) as (_ & _ & _ & K). now apply K.
    + intros (ilk & F & B). destruct (C88_sn_l e 0 ilk b) as (_ & _ & _ & K). now apply K.
  - unfold serder_est. rewrite <- index_panics. split; [|intros ->; reflexivity]. intros H. apply bind_panic in H as [H|(v & _ & H)]; auto. apply bind_panic in H as [H|(x & _ & H)]; [destruct v; discriminate|discriminate].
  - split.
    + intros H. assert (exists h, field_of (d_ked e) (s! "s") (VStr h)) as (h & F).
      { unfold serder_sn, serder_sner in H. apply bind_ok in H as (m & M & _). apply bind_ok in M as (v & V & M). apply bind_ok in M as (h & I & _). destruct v; try discriminate. exists s. now apply index_field. }
      exists h. split; auto. destruct (C88_sn_l e n h b) as (K1 & K2 & _). destruct h as [|c r]; [left|right].
      * split; auto. specialize (K2 F). congruence.
      * split; [discriminate|]. apply K1; auto. discriminate.
    + intros (h & F & [(-> & ->)|(NE & R)]); [now apply (C88_sn_l e 0 [] b)|]. destruct (C88_sn_l e n h b) as (K1 & _). now apply K1.
  - split.
    + unfold serder_sn, serder_sner. intros H. apply bind_panic in H as [H|(m & M & H)].
      * apply bind_panic in H as [H|(v & _ & H)]; [now apply index_panics|]. apply bind_panic in H as [H|(h & _ & H)]; [destruct v; discriminate|now apply hexed_np in H].
      * exfalso. apply bind_ok in M as (v & V & M). apply bind_ok in M as (h & I & M). destruct h as [|c r].
        -- vm_compute in M. injection M as <-. vm_compute in H. discriminate.
        -- destruct (C36b_l (c :: r) m ltac:(discriminate)) as (A & _). apply A in M as (k & _ & K & M). destruct (C34_l k K) as (m' & ? & ? & M' & NN & _). rewrite M in M'. injection M' as <-. congruence.
    + intros L. apply index_panics in L. unfold serder_sn, serder_sner. rewrite L. reflexivity.
Qed.

(*# C110_lists_any_state
   In any state, reading the keys, next-key digests or witnesses panics exactly if the list holds a text that makes parsing a primitive panic, after texts of the right kind
   only; and an event as made by default, or with data that are no object, has an error or no keys but never a panic here.
##
Example C110_list_case : serder_verfers (Sd (s! "E") [] (VObj [(s! "k", VArr [VStr (s! "DAAAAAAAAAAAAAAAAAAAAAAAAAAAAAAAAAAAAAAAAAAA"); VInt 3])]) (s! "KERI") (s! "JSON") 0 (Ver 1 0) (Mt (s! "E") 0 [])) = Err EConversion /\
  serder_verfers serder_empty = Ok [] /\ serder_digers serder_empty = Ok [] /\ serder_werfers serder_empty = Ok [].
Proof. repeat split; vm_compute; reflexivity. Qed.
#*)
Lemma C110_list_l (e : sadder) :
  (serder_verfers e = Panic <-> exists a t b ms, field_of (d_ked e) (s! "k") (VArr (a ++ VStr t :: b)) /\ texts_of keys a ms /\ exfil t = Panic) /\
  (serder_digers e = Panic <-> exists a t b ms, field_of (d_ked e) (s! "n") (VArr (a ++ VStr t :: b)) /\ texts_of digests a ms /\ exfil t = Panic) /\
  (serder_werfers e = Panic <-> exists a t b ms, field_of (d_ked e) (s! "b") (VArr (a ++ VStr t :: b)) /\ texts_of keys a ms /\ exfil t = Panic).
Proof.
  assert (forall v y, verfer_of v = Ok y <-> exists q, v = VStr q /\ exfil q = Ok y /\ In (m_code y) keys) as GV.
  { intros v y. rewrite verfer_text. split; intros (q & A & B & C); exists q; (split; [auto|split; [auto|now apply keys_codes]]). }
  assert (forall v y, diger_of v = Ok y <-> exists q, v = VStr q /\ exfil q = Ok y /\ In (m_code y) digests) as GD.
  { intros v y. rewrite diger_text. split; intros (q & A & B & C); exists q; (split; [auto|split; [auto|now apply digest_codes]]). }
  split; [|split].
  - apply (listed_panic verfer_of keys e (s! "k")). now apply each_panic; [|apply verfer_of_panic].
  - apply (listed_panic diger_of digests e (s! "n")). now apply each_panic; [|apply diger_of_panic].
  - apply (listed_panic verfer_of keys e (s! "b")). now apply each_panic; [|apply verfer_of_panic].
Qed.
