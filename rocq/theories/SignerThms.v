(** Proofs of the properties of signers, key stretching and creators. *)
From Coq Require Import String.
From Coq Require Import NArith ZArith Lia Bool List.
From Verif Require Import Base BaseFacts B64 B64Facts Tables Matter MatterFacts MatterBin MatterText MatterMore MatterThms Indexer IndexerThms Prims PrimsFacts PrimsThms Signer
  Spec SpecIndexer SpecPrims SpecSigner.
Import ListNotations.
Open Scope N_scope.

Lemma toy_correct : correct toy.
Proof.
  split.
  - intros key L. exists key. cbn. now rewrite L.
  - intros s key pk H. cbn in H. destruct (len key =? 32) eqn:E; [|discriminate]. assert (len key = 32) as L by lia. injection H as <-. split.
    + destruct s; cbn [public_width]; [auto|rewrite len_cons; lia|rewrite len_cons; lia].
    + intros rng ser. cbn [cr_sign cr_verify toy]. rewrite E. eexists. split; [reflexivity|]. split; [rewrite len_app, L; reflexivity|]. 
      destruct s; cbn [drop]; [now rewrite beq_refl| |]; change (drop 1 (x02 :: key)) with key; now rewrite beq_refl.
  - intros s. split; [reflexivity|]. eexists. reflexivity.
Qed.

(** ** Parsed raw sizes *)
Lemma parsed_raw_le t m n : exfil t = Ok m -> In (m_code m, n) fixed_codes -> len (m_raw m) <= n.
Proof.
  intros E F. apply exfil_inv in E as (z & rest & Hz & S & Et & L). destruct (fixed_known _ _ F) as (z' & Hz' & Ev & N). assert (z' = z) as -> by congruence.
  unfold mfs in L. rewrite Ev in L. unfold mtext in L. pose proof (lookup_facts _ _ Hz) as Fz. destruct (tf_fix _ _ Fz Ev) as (E1 & E2 & E3 & E4 & E5 & E6).
  pose proof (len_mboth m z Hz) as LM. rewrite len_app, LM, E1, len_drop, len_encode, len_app, len_zeros in L.
  pose proof (tf_hs _ _ Fz) as HS. unfold pad in *. rewrite E1, N.add_0_r in *. lia.
Qed.
Lemma new_raw_le c r b t q m n : matter_new c r b t q = Ok m -> In (m_code m, n) fixed_codes -> len (m_raw m) <= n.
Proof.
  unfold matter_new. destruct r as [r|]; [destruct c as [c|]|destruct b as [b|]; [|destruct t as [t|]; [|destruct q as [q|]]]]; intros H F; try discriminate.
  - destruct (fixed_known _ _ F) as (z' & Hz' & Ev & N). destruct (construct_wf c r m H) as (z2 & Hz2 & W); [eauto|]. assert (z2 = z') as -> by congruence. unfold raw_len_ok in W. rewrite Ev in W. lia.
  - unfold exfil_b in H. apply bind_ok in H as (u & _ & H). eapply parsed_raw_le; eauto.
  - eapply parsed_raw_le; eauto.
  - apply bexfil_inv in H as (z & Hz & W & _). destruct (fixed_known _ _ F) as (z' & Hz' & Ev & N). assert (z' = z) as -> by congruence. unfold raw_len_ok in W. rewrite Ev in W. lia.
Qed.

(** ** Signers *)
Lemma validated l c : validate l c = Ok tt <-> In c l.
Proof. unfold validate. rewrite <- has_code_In. destruct (has_code l c); intuition congruence. Qed.
Lemma seed_fixed c : In c seed_codes -> In (c, 32) fixed_codes.
Proof. intros H. cbn in H. unfold fixed_codes. destruct H as [<-|[<-|[<-|[]]]]; cbn; tauto. Qed.
Lemma seed_row c : In c seed_codes -> exists s d b sg, In (c, (s, d, b, sg)) seed_table.
Proof. intros H. cbn in H. destruct H as [<-|[<-|[<-|[]]]]; cbn; eauto 9. Qed.
Lemma row_fixed c s d b sg : In (c, (s, d, b, sg)) seed_table ->
  scheme_of c = Ok s /\ scheme_of d = Ok s /\ scheme_of b = Ok s /\ In (d, public_width s) fixed_codes /\ In (b, public_width s) fixed_codes /\ In (sg, 64) fixed_codes /\
  In d verfer_codes /\ In b verfer_codes /\ In sg cigar_codes.
Proof.
  intros H. cbn in H. destruct H as [H|[H|[H|[]]]]; injection H as <- <- <- <- <-; repeat (split; [reflexivity|]); unfold fixed_codes; cbn; tauto.
Qed.
Definition pick (seed : bytes) (t : bool) : R bytes :=
  if t then
      if beq seed (s! "A") then Ok (s! "D") else if beq seed (s! "J") then Ok (s! "1AAB") else if beq seed (s! "Q") then Ok (s! "1AAJ") else Err EUnexpectedCode
    else
      if beq seed (s! "A") then Ok (s! "B") else if beq seed (s! "J") then Ok (s! "1AAA") else if beq seed (s! "Q") then Ok (s! "1AAI") else Err EUnexpectedCode.
Lemma derive_eq cr c key t : derive_verfer cr c key t = let* v := pick c t in let* raw := public_key cr c key in verfer_new (Some v) (Some raw) None None None.
Proof. reflexivity. Qed.
Lemma pick_row c s d b sg t : In (c, (s, d, b, sg)) seed_table -> pick c t = Ok (if t then d else b).
Proof. intros H. cbn in H. destruct H as [H|[H|[H|[]]]]; injection H as <- <- <- <- <-; destruct t; reflexivity. Qed.
Lemma verfer_built c n raw : In (c, n) fixed_codes -> In c verfer_codes -> len raw = n -> verfer_new (Some c) (Some raw) None None None = Ok (Mt c 0 raw) /\ wf_matter (Mt c 0 raw).
Proof.
  intros F V L. destruct (fixed_built c n raw F L) as (B & W). split; auto. unfold verfer_new, or_else. change (matter_new (Some c) (Some raw) None None None) with (matter_of_code_raw c raw).
  rewrite B, bind_Ok. cbn [m_code]. rewrite (proj2 (validated _ _) V). reflexivity.
Qed.
Lemma public_ok cr c s key pk : scheme_of c = Ok s -> (public_key cr c key = Ok pk <->
  cr_public cr s (match s with Ed25519 => take 32 key | _ => key end) = Some pk /\ (s = Ed25519 -> 32 <= len key)).
Proof.
  intros S. unfold public_key. rewrite S, bind_Ok. destruct s; unfold foreign.
  - unfold slice_bytes. destruct ((0 <=? 32) && (32 <=? len key)) eqn:E; cbn [bind].
    + change (32 - 0) with 32. rewrite drop_0. destruct (cr_public cr Ed25519 (take 32 key)); split; [intros [= ->]|intros ([= ->] & _)|discriminate|intros ([=] & _)]; auto. split; auto. intros _. lia.
    + split; [discriminate|]. intros (_ & H). specialize (H eq_refl). lia.
  - destruct (cr_public cr Ecdsa256k1 key); split; [intros [= ->]|intros ([= ->] & _)|discriminate|intros ([=] & _)]; auto. split; auto. discriminate.
  - destruct (cr_public cr Ecdsa256r1 key); split; [intros [= ->]|intros ([= ->] & _)|discriminate|intros ([=] & _)]; auto. split; auto. discriminate.
Qed.

(** What a signer is. *)
Lemma signer_shape cr t code raw b q64 q2 g : correct cr -> signer_new cr t code raw b q64 q2 = Ok g ->
  exists s d bb sg pk, In (m_code (g_seed g), (s, d, bb, sg)) seed_table /\ cr_public cr s (m_raw (g_seed g)) = Some pk /\ (s = Ed25519 -> len (m_raw (g_seed g)) = 32) /\
    g_verfer g = Mt (if or_else t true then d else bb) 0 pk.
Proof.
  intros CR H. unfold signer_new in H. cbv zeta in H. apply bind_ok in H as (m & M & H). apply bind_ok in H as (v & V & H). injection H as <-. cbn [g_seed g_verfer].
  assert (In (m_code m) seed_codes /\ len (m_raw m) <= 32) as (C & L).
  { destruct (is_none b && is_none q64 && is_none q2).
    - apply bind_ok in M as ([] & VC & M). apply validated in VC. apply bind_ok in M as (r & _ & M). change (matter_of_code_raw (or_else code (s! "A")) r = Ok m) in M.
      assert (m_code m = or_else code (s! "A")) as E.
      { destruct (fixed_known _ _ (seed_fixed _ VC)) as (z & Hz & Ev & N). rewrite (construct_fixed _ z _ Hz Ev) in M. destruct (len r <? _); [discriminate|]. now injection M as <-. }
      rewrite E. split; auto. apply (new_raw_le (Some (or_else code (s! "A"))) (Some r) None None None); auto. rewrite E. now apply seed_fixed.
    - apply bind_ok in M as (m' & M & H). apply bind_ok in H as ([] & VC & H). apply validated in VC. injection H as <-. split; auto. eapply new_raw_le; eauto. now apply seed_fixed. }
  destruct (seed_row _ C) as (s & d & bb & sg & Row). destruct (row_fixed _ _ _ _ _ Row) as (S1 & _ & _ & F1 & F2 & _ & V1 & V2 & _).
  rewrite derive_eq, (pick_row _ _ _ _ _ _ Row), bind_Ok in V. apply bind_ok in V as (pk & P & V). apply (public_ok _ _ _ _ _ S1) in P as (P & LE).
  assert (cr_public cr s (m_raw m) = Some pk /\ (s = Ed25519 -> len (m_raw m) = 32)) as (P' & L').
  { destruct s; [|split; auto; discriminate|split; auto; discriminate]. specialize (LE eq_refl). rewrite take_all in P by lia. split; auto. lia. }
  exists s, d, bb, sg, pk. split; auto. split; auto. split; auto. destruct (signs _ CR _ _ _ P') as (W & _).
  set (c := if or_else t true then d else bb) in *. assert (In (c, public_width s) fixed_codes /\ In c verfer_codes) as (F & VV) by (unfold c; destruct (or_else t true); auto).
  destruct (verfer_built c _ pk F VV W) as (B & _). rewrite B in V. now injection V as <-.
Qed.

Lemma sign_ok cr c s key pk rng ser : correct cr -> scheme_of c = Ok s -> cr_public cr s key = Some pk -> (s = Ed25519 -> len key = 32) ->
  exists sig, sign cr rng c key ser = Ok sig /\ len sig = 64 /\ len pk = public_width s /\ cr_verify cr s pk sig ser = Some true.
Proof.
  intros CR S P L. destruct (signs _ CR _ _ _ P) as (W & G). destruct (G rng ser) as (sig & E & LS & V). exists sig. split; auto. unfold sign. rewrite S, bind_Ok.
  destruct s; rewrite ?E; auto. now rewrite L by auto.
Qed.
Lemma check_ok cr c s pk sig ser : scheme_of c = Ok s -> In c verfer_codes -> len pk = public_width s -> len sig = 64 -> cr_verify cr s pk sig ser = Some true ->
  verfer_verify cr (Mt c 0 pk) sig ser = Ok true.
Proof.
  intros S C P L V. unfold verfer_verify. cbn [m_code m_raw]. rewrite (proj2 (validated _ _) C), bind_Ok. unfold check. rewrite S, bind_Ok. destruct s; rewrite ?V; auto.
  cbn [public_width] in P. now rewrite P, L.
Qed.
Lemma verfer_parse v t : In (m_code v) verfer_codes -> exfil t = Ok v -> verfer_new None None None (Some t) None = Ok v.
Proof. intros V E. unfold verfer_new. cbn [or_else matter_new]. rewrite E, bind_Ok, (proj2 (validated _ _) V). reflexivity. Qed.

(*# C65_unindexed
   Whatever a signer signs verifies under its own key, which comes attached to the signature; also when the key and the signature are printed and parsed back.
##
Example C65_premise : correct toy.
Proof. exact toy_correct. Qed.
Example C65_case : exists g sig, signer_new toy None None (Some (repeat x07 32)) None None None = Ok g /\ sign_unindexed toy [] g (s! "abc") = Ok (sig, g_verfer g) /\
  verfer_verify toy (g_verfer g) (m_raw sig) (s! "abc") = Ok true /\ verfer_verify toy (Mt (s! "D") 0 (repeat x08 32)) (m_raw sig) (s! "abc") = Ok false.
Proof. eexists. eexists. split; [vm_compute; reflexivity|]. split; [vm_compute; reflexivity|]. split; vm_compute; reflexivity. Qed.
#*)
Lemma C65a_l (cr : crypto) (transferable : option bool) (code raw qb64b qb64 qb2 : option bytes) (g : signer) (rng ser : bytes) :
  correct cr -> signer_new cr transferable code raw qb64b qb64 qb2 = Ok g ->
  exists sig, sign_unindexed cr rng g ser = Ok (sig, g_verfer g) /\ verfer_verify cr (g_verfer g) (m_raw sig) ser = Ok true /\
    (exists s d b, In (m_code (g_seed g), (s, d, b, m_code sig)) seed_table) /\
    exists st kt, infil sig = Ok st /\ infil (g_verfer g) = Ok kt /\
      exists sig' key v, cigar_new None None None None (Some st) None = Ok (sig', v) /\ verfer_new None None None (Some kt) None = Ok key /\
        verfer_verify cr key (m_raw sig') ser = Ok true.
Proof.
  intros CR H. destruct (signer_shape _ _ _ _ _ _ _ _ CR H) as (s & d & b & sg & pk & Row & P & L & V). set (c := if or_else transferable true then d else b) in *.
  destruct (row_fixed _ _ _ _ _ Row) as (S1 & S2 & S3 & F1 & F2 & F3 & V1 & V2 & V3).
  assert (In (c, public_width s) fixed_codes /\ In c verfer_codes /\ scheme_of c = Ok s) as (FC & VC & SC) by (unfold c; destruct (or_else transferable true); auto).
  destruct (sign_ok cr _ s _ pk rng ser CR S1 P L) as (sig & E & LS & LP & VV). destruct (fixed_built sg 64 sig F3 LS) as (B & W).
  assert (verfer_verify cr (g_verfer g) sig ser = Ok true) as OKV by (rewrite V; now apply (check_ok cr c s)).
  exists (Mt sg 0 sig). split; [|split; [exact OKV|split]].
  - unfold sign_unindexed. cbv zeta. rewrite E. assert ((if beq (m_code (g_seed g)) (s! "A") then Ok (s! "0B") else if beq (m_code (g_seed g)) (s! "J") then Ok (s! "0C") else
      if beq (m_code (g_seed g)) (s! "Q") then Ok (s! "0I") else Err EUnexpectedCode) = Ok sg) as ->.
    { clear -Row. cbn in Row. destruct Row as [X|[X|[X|[]]]]; injection X as <- <- <- <- <-; reflexivity. }
    rewrite !bind_Ok. unfold cigar_new. change (matter_new (Some sg) (Some sig) None None None) with (matter_of_code_raw sg sig). rewrite B, bind_Ok. cbn [m_code].
    rewrite (proj2 (validated _ _) V3). reflexivity.
  - eauto.
  - destruct (wf_round _ W) as (st & _ & I & _ & X & _). destruct (fixed_built c _ pk FC LP) as (_ & WV). destruct (wf_round _ WV) as (kt & _ & I' & _ & X' & _).
    exists st, kt. rewrite V. split; auto. split; auto. exists (Mt sg 0 sig), (Mt c 0 pk). eexists. split; [|split].
    + unfold cigar_new. cbn [matter_new]. rewrite X, bind_Ok. cbn [m_code]. rewrite (proj2 (validated _ _) V3). reflexivity.
    + apply verfer_parse; auto.
    + now rewrite <- V.
Qed.

(** Indexed signing, in one expression. *)
Definition fits (only : bool) (index : N) (ondex : option N) : Prop := index < 4096 /\ (only = false -> forall o, ondex = Some o -> o < 4096).
Lemma index_row c s d b sg : In (c, (s, d, b, sg)) seed_table -> exists a1 a2 o1 o2, In (c, (a1, a2, o1, o2)) index_table /\
  In (a1, (64, 1, 0)) sig_codes /\ In (o1, (64, 1, 0)) sig_codes /\ In (a2, (64, 2, 2)) sig_codes /\ In (o2, (64, 2, 2)) sig_codes /\
  In a1 siger_codes /\ In a2 siger_codes /\ In o1 siger_codes /\ In o2 siger_codes /\ ~ In a1 current_codes /\ ~ In a2 current_codes /\ In o1 current_codes /\ In o2 current_codes.
Proof.
  intros H. cbn in H. destruct H as [H|[H|[H|[]]]]; injection H as <- <- <- <- <-; eexists; eexists; eexists; eexists; (split; [cbn; eauto|]); cbn; intuition congruence.
Qed.
Lemma indexed_eq cr rng g ser only index ondex a1 a2 o1 o2 : In (m_code (g_seed g), (a1, a2, o1, o2)) index_table ->
  sign_indexed cr rng g ser only index ondex =
  let* sig := sign cr rng (m_code (g_seed g)) (m_raw (g_seed g)) ser in
  siger_new (Some (g_verfer g)) (Some index) (if only then None else Some (or_else ondex index))
    (Some (if only then if index <? 64 then o1 else o2 else if (index =? or_else ondex index) && (index <? 64) then a1 else a2)) (Some sig) None None None.
Proof.
  intros H. unfold sign_indexed. cbv zeta. cbn in H. destruct H as [H|[H|[H|[]]]]; injection H as <- <- <- <- <-; destruct only, (index <? 64); try reflexivity;
    destruct (index =? or_else ondex index); reflexivity.
Qed.

Lemma indexed_full (cr : crypto) (transferable : option bool) (code raw qb64b qb64 qb2 : option bytes) (g : signer) (rng ser : bytes) (only : bool) (index : N) (ondex : option N) :
  correct cr -> signer_new cr transferable code raw qb64b qb64 qb2 = Ok g ->
  sign_indexed cr rng g ser only index ondex <> Panic /\
  ((exists r, sign_indexed cr rng g ser only index ondex = Ok r) <-> index < 4096 /\ (only = false -> forall o, ondex = Some o -> o < 4096)) /\
  forall x v, sign_indexed cr rng g ser only index ondex = Ok (x, v) ->
    exists both big current bigcurrent t, In (m_code (g_seed g), (both, big, current, bigcurrent)) index_table /\
      i_index x = index /\ i_ondex x = (if only then 0 else match ondex with Some o => o | None => index end) /\
      (only = true -> i_code x = current \/ i_code x = bigcurrent) /\ (only = false -> i_code x = both \/ i_code x = big) /\
      iinfil x = Ok t /\ iexfil t = Ok x /\ len t = (if (index <? 64) && (only || (i_ondex x =? index)) then 88 else 92) /\
      v = g_verfer g /\ sign cr rng (m_code (g_seed g)) (m_raw (g_seed g)) ser = Ok (i_raw x) /\ In (i_code x) siger_codes.
Proof.
  intros CR H. destruct (signer_shape _ _ _ _ _ _ _ _ CR H) as (s & d & b & sg & pk & Row & P & L & V).
  destruct (row_fixed _ _ _ _ _ Row) as (S1 & _). destruct (sign_ok cr _ s _ pk rng ser CR S1 P L) as (sig & E & LS & LP & VV).
  destruct (index_row _ _ _ _ _ Row) as (a1 & a2 & o1 & o2 & IR & A1 & O1 & A2 & O2 & VA1 & VA2 & VO1 & VO2 & NA1 & NA2 & CO1 & CO2).
  rewrite (indexed_eq cr rng g ser only index ondex a1 a2 o1 o2 IR), E, bind_Ok.
  set (c := if only then if index <? 64 then o1 else o2 else if (index =? or_else ondex index) && (index <? 64) then a1 else a2).
  set (o := if only then None else Some (or_else ondex index)).
  assert (exists d k, In (c, (64, d, k)) sig_codes /\ In c siger_codes /\ (In c current_codes <-> only = true) /\ (k = 0 -> o = None \/ o = Some index) /\
    (index < 64 ^ d /\ (forall w, o = Some w -> 0 < k -> w < 64 ^ k) <-> index < 4096 /\ (only = false -> forall w, ondex = Some w -> w < 4096)) /\
    (only = true -> c = o1 \/ c = o2) /\ (only = false -> c = a1 \/ c = a2) /\
    (d = if (index <? 64) && (only || (or_else ondex index =? index)) then 1 else 2)) as (dd & k & SC & VC & CC & K0 & FT & T1 & T2 & DD).
  { unfold c, o. destruct only.
    - destruct (index <? 64) eqn:I; [exists 1, 0|exists 2, 2]; cbn [andb orb]; (do 3 (split; [solve [auto|tauto|intuition discriminate]|])).
      + split; [auto|]. split; [|split; [auto|split; [discriminate|auto]]]. change (64 ^ 1) with 64. split; [intros _; split; [lia|discriminate]|intros _; split; [lia|discriminate]].
      + split; [discriminate|]. split; [|split; [auto|split; [discriminate|auto]]]. change (64 ^ 2) with 4096. split; intros (? & _); (split; [auto|discriminate]).
    - destruct ((index =? or_else ondex index) && (index <? 64)) eqn:I; [exists 1, 0|exists 2, 2]; (do 3 (split; [solve [auto|tauto|intuition discriminate]|])).
      + apply andb_true_iff in I as (I1 & I2). apply N.eqb_eq in I1. split; [intros _; right; congruence|]. split; [|split; [discriminate|split; [auto|]]].
        * change (64 ^ 1) with 64. split; [|intros _; split; [lia|lia]]. intros (? & _). split; [lia|]. intros _ w ->. cbn [or_else] in I1. lia.
        * rewrite I2, <- I1, N.eqb_refl. reflexivity.
      + split; [discriminate|]. split; [|split; [discriminate|split; [auto|]]].
        * change (64 ^ 2) with 4096. split; intros (A & B); (split; [auto|]).
          -- intros _ w ->. apply (B w); auto. lia.
          -- intros w [= <-] _. destruct ondex as [w|]; cbn [or_else]; auto.
        * destruct (index <? 64); auto. cbn [andb orb]. rewrite N.eqb_sym. destruct (index =? or_else ondex index); [discriminate|auto]. }
  assert (siger_new (Some (g_verfer g)) (Some index) o (Some c) (Some sig) None None None = let* x := indexer_of_code_raw c sig index o in Ok (x, g_verfer g)) as ->.
  { unfold siger_new. cbn [indexer_new]. destruct (indexer_of_code_raw c sig index o) as [x| |] eqn:X; [|reflexivity|reflexivity]. rewrite !bind_Ok.
    destruct (C26_l c 64 dd k sig index o SC) as (_ & G & _). destruct (G x X) as (-> & _). now rewrite (proj2 (validated _ _) VC). }
  destruct (C26_l c 64 dd k sig index o SC) as (A1' & A2' & A3'). split; [|split].
  - destruct (indexer_of_code_raw c sig index o); [discriminate|discriminate|contradiction].
  - rewrite <- FT. transitivity (exists x, indexer_of_code_raw c sig index o = Ok x).
    + split; [intros (r & R)|intros (x & ->)]; [|rewrite bind_Ok; eauto]. destruct (indexer_of_code_raw c sig index o); [eauto|discriminate|discriminate].
    + rewrite A1', LS. split.
      * intros (_ & B1 & B2). split; auto. intros w W. apply B2; auto.
      * intros (B1 & B2). split; [lia|]. split; auto. intros w W. split; [|now apply B2]. rewrite CC. intros ->. discriminate W.
  - intros x v R. apply bind_ok in R as (x' & X & R). injection R as <- <-. destruct (A2' _ X) as (XC & XR & XI).
    destruct (C23_partial_l c 64 dd k sig index o x' SC K0 X) as (t & T & TX & _). exists a1, a2, o1, o2, t. split; auto. split; auto.
    assert (i_ondex x' = if only then 0 else match ondex with Some w => w | None => index end) as XO.
    { unfold o in X. destruct only.
      - destruct (C27_l c 64 dd k sig index 0 x' SC) as (_ & G & _). apply G; auto. now apply CC.
      - destruct (C27_l c 64 dd k sig index (or_else ondex index) x' SC) as (_ & _ & _ & G). rewrite G; auto. rewrite CC. discriminate. }
    split; auto. rewrite XC. split; auto. split; auto. split; auto. split; auto. rewrite XR, take_all by lia. split; [|auto].
    assert (sig_built x') as SB by (exists c, 64, dd, k, sig, index, o; auto). destruct (C25_l x' SB) as ((t' & T' & FS & _) & _). assert (t' = t) as -> by congruence.
    assert (len t = if dd =? 1 then 88 else 92) as ->.
    { unfold ifull_size in FS. rewrite XC in FS. clear -FS SC. unfold sig_codes in SC. cbn [In] in SC. repeat (destruct SC as [SC|SC]; [first [discriminate SC|injection SC as <- <- <-; cbn in FS; injection FS as <-; reflexivity]|]). destruct SC. }
    rewrite DD, XO. destruct only; cbn [orb andb]; [destruct (index <? 64); reflexivity|]. unfold or_else. destruct ondex as [w|]; [destruct (index <? 64), (w =? index); reflexivity|].
    rewrite N.eqb_refl. destruct (index <? 64); reflexivity.
Qed.

(*# C66_indices_kept
   Signing with an index succeeds exactly when index and other index (unless the signature is for the current keys only, which ignores it) are below 4096; it
   never panics. The signature holds the index, and the other index, which is the index if none was given; for current keys only the code says so and the other
   index is zero. Everything is recovered by parsing the printed signature. Small indices are printed in 88 characters, others in 92.
##
Example C66_case : exists g x, signer_new toy None None (Some (repeat x07 32)) None None None = Ok g /\ sign_indexed toy [] g (s! "abc") false 3 (Some 65) = Ok (x, g_verfer g) /\
  (i_code x, i_index x, i_ondex x) = (s! "2A", 3, 65) /\ is_err (sign_indexed toy [] g (s! "abc") false 3 (Some 4096)) = true.
Proof. eexists. eexists. split; [vm_compute; reflexivity|]. split; [vm_compute; reflexivity|]. split; vm_compute; reflexivity. Qed.
#*)
Lemma C66_l (cr : crypto) (transferable : option bool) (code raw qb64b qb64 qb2 : option bytes) (g : signer) (rng ser : bytes) (only : bool) (index : N) (ondex : option N) :
  correct cr -> signer_new cr transferable code raw qb64b qb64 qb2 = Ok g ->
  sign_indexed cr rng g ser only index ondex <> Panic /\
  ((exists r, sign_indexed cr rng g ser only index ondex = Ok r) <-> index < 4096 /\ (only = false -> forall o, ondex = Some o -> o < 4096)) /\
  forall x v, sign_indexed cr rng g ser only index ondex = Ok (x, v) ->
    exists both big current bigcurrent t, In (m_code (g_seed g), (both, big, current, bigcurrent)) index_table /\
      i_index x = index /\ i_ondex x = (if only then 0 else match ondex with Some o => o | None => index end) /\
      (only = true -> i_code x = current \/ i_code x = bigcurrent) /\ (only = false -> i_code x = both \/ i_code x = big) /\
      iinfil x = Ok t /\ iexfil t = Ok x /\ len t = if (index <? 64) && (only || (i_ondex x =? index)) then 88 else 92.
Proof.
  intros CR H. destruct (indexed_full cr transferable code raw qb64b qb64 qb2 g rng ser only index ondex CR H) as (A & B & C). split; auto. split; auto.
  intros x v X. destruct (C x v X) as (a1 & a2 & o1 & o2 & t & I1 & I2 & I3 & I4 & I5 & I6 & I7 & I8 & _). exists a1, a2, o1, o2, t. auto 9.
Qed.

(*# C65_indexed
   The same for indexed signatures, for all indices that fit: they verify under the signer's key, which comes attached, also after printing and parsing.
##
Example C65_indexed_case : exists g x, signer_new toy (Some false) (Some (s! "Q")) (Some (repeat x07 32)) None None None = Ok g /\
  sign_indexed toy [] g (s! "abc") true 4095 (Some 9000) = Ok (x, g_verfer g) /\ verfer_verify toy (g_verfer g) (i_raw x) (s! "abc") = Ok true.
Proof. eexists. eexists. split; [vm_compute; reflexivity|]. split; vm_compute; reflexivity. Qed.
#*)
Lemma C65b_l (cr : crypto) (transferable : option bool) (code raw qb64b qb64 qb2 : option bytes) (g : signer) (rng ser : bytes) (only : bool) (index : N) (ondex : option N) :
  correct cr -> signer_new cr transferable code raw qb64b qb64 qb2 = Ok g -> index < 4096 -> (only = false -> forall o, ondex = Some o -> o < 4096) ->
  exists x, sign_indexed cr rng g ser only index ondex = Ok (x, g_verfer g) /\ verfer_verify cr (g_verfer g) (i_raw x) ser = Ok true /\
    exists st kt, iinfil x = Ok st /\ infil (g_verfer g) = Ok kt /\
      exists x' key v, siger_new None None None None None None (Some st) None = Ok (x', v) /\ verfer_new None None None (Some kt) None = Ok key /\
        verfer_verify cr key (i_raw x') ser = Ok true.
Proof.
  intros CR H FI FO. destruct (indexed_full cr transferable code raw qb64b qb64 qb2 g rng ser only index ondex CR H) as (_ & EX & GG). destruct (proj2 EX (conj FI FO)) as ((x & v) & X).
  destruct (GG _ _ X) as (a1 & a2 & o1 & o2 & t & _ & _ & _ & _ & _ & T & TX & _ & -> & E & XC). clear GG EX.
  destruct (signer_shape _ _ _ _ _ _ _ _ CR H) as (s & d & b & sg & pk & Row & P & L & V). set (c := if or_else transferable true then d else b) in *.
  destruct (row_fixed _ _ _ _ _ Row) as (S1 & S2 & S3 & F1 & F2 & _ & V1 & V2 & _).
  assert (In (c, public_width s) fixed_codes /\ In c verfer_codes /\ scheme_of c = Ok s) as (FC & VC & SC) by (unfold c; destruct (or_else transferable true); auto).
  destruct (sign_ok cr _ s _ pk rng ser CR S1 P L) as (sig & E' & LS & LP & VV). rewrite E in E'. injection E' as <-.
  assert (verfer_verify cr (g_verfer g) (i_raw x) ser = Ok true) as OKV by (rewrite V; now apply (check_ok cr c s)).
  exists x. split; auto. split; auto. destruct (fixed_built c _ pk FC LP) as (_ & WV). destruct (wf_round _ WV) as (kt & _ & I' & _ & X' & _).
  exists t, kt. rewrite V. split; auto. split; auto. exists x, (Mt c 0 pk). eexists. split; [|split].
  - unfold siger_new. cbn [indexer_new]. rewrite TX, bind_Ok, (proj2 (validated _ _) XC). reflexivity.
  - apply verfer_parse; auto.
  - now rewrite <- V.
Qed.

(*# C67_key_matches_seed
   The key of a signer has the code of the scheme of its seed, transferable or not as asked (transferable if nothing was asked), and is the public key of the seed.
##
Example C67_case : exists g, signer_new toy (Some false) (Some (s! "J")) (Some (repeat x07 32)) None None None = Ok g /\ m_code (g_verfer g) = s! "1AAA".
Proof. eexists. split; [vm_compute; reflexivity|reflexivity]. Qed.
#*)
Lemma C67_l (cr : crypto) (transferable : option bool) (code raw qb64b qb64 qb2 : option bytes) (g : signer) :
  correct cr -> signer_new cr transferable code raw qb64b qb64 qb2 = Ok g ->
  key_code (m_code (g_seed g)) (match transferable with Some t => t | None => true end) (m_code (g_verfer g)) /\
  (exists s d b sg, In (m_code (g_seed g), (s, d, b, sg)) seed_table /\ cr_public cr s (m_raw (g_seed g)) = Some (m_raw (g_verfer g))) /\
  built (g_verfer g).
Proof.
  intros CR H. destruct (signer_shape _ _ _ _ _ _ _ _ CR H) as (s & d & b & sg & pk & Row & P & L & V). rewrite V. cbn [m_code m_raw]. split; [|split].
  - exists s, d, b, sg. split; auto.
  - exists s, d, b, sg. auto.
  - destruct (row_fixed _ _ _ _ _ Row) as (S1 & S2 & S3 & F1 & F2 & _ & V1 & V2 & _). destruct (signs _ CR _ _ _ P) as (LP & _).
    set (c := if or_else transferable true then d else b). assert (In (c, public_width s) fixed_codes) as FC by (unfold c; destruct (or_else transferable true); auto).
    destruct (fixed_built c _ pk FC LP) as (B & _). exists c, pk. split; auto. unfold matter_codes. apply in_or_app. left. now apply (in_map fst) in FC.
Qed.
(*# C67_reported_refuted
   As reported by the library, false: the key of a signer on secp256r1 built non-transferable says it is transferable.
#*)
Lemma C67_no_l : exists g, signer_new toy (Some false) (Some (s! "Q")) (Some (repeat x07 32)) None None None = Ok g /\ Matter.transferable (g_verfer g) = true.
Proof. eexists. split; [vm_compute; reflexivity|]. vm_compute. reflexivity. Qed.
(*# C67_reported_partial
   For seeds of the other schemes the key reports what was asked. Full statement: for all schemes; see C67_reported_refuted.
#*)
Lemma C67b_l (cr : crypto) (transferable : option bool) (code raw qb64b qb64 qb2 : option bytes) (g : signer) :
  correct cr -> signer_new cr transferable code raw qb64b qb64 qb2 = Ok g -> m_code (g_seed g) <> s! "Q" ->
  Matter.transferable (g_verfer g) = match transferable with Some t => t | None => true end.
Proof.
  intros CR H N. destruct (signer_shape _ _ _ _ _ _ _ _ CR H) as (s & d & b & sg & pk & Row & P & L & V). rewrite V. change (match transferable with Some t => t | None => true end) with (or_else transferable true).
  clear -Row N. cbn in Row. destruct Row as [X|[X|[X|[]]]]; injection X as E _ <- <- _; [| |destruct N; symmetry; exact E]; destruct (or_else transferable true); reflexivity.
Qed.

(*# C90_short_seed_refuted
   False as stated: parsing a seed text that ends in a base64 padding sign as an Ed25519 seed panics.
#*)
Lemma C90_no_l : forall cr, signer_new cr None None None None (Some (s! "AAAAAAAAAAAAAAAAAAAAAAAAAAAAAAAAAAAAAAAAAAA=")) None = Panic.
Proof. intros cr. vm_compute. reflexivity. Qed.
Lemma derive_panic cr c key t : correct cr -> In c seed_codes -> (derive_verfer cr c key t = Panic <-> c = s! "A" /\ len key < 32).
Proof.
  intros CR C. destruct (seed_row _ C) as (s & d & b & sg & Row). destruct (row_fixed _ _ _ _ _ Row) as (S1 & _ & _ & F1 & F2 & _ & V1 & V2 & _).
  rewrite derive_eq, (pick_row _ _ _ _ _ _ Row), bind_Ok. set (c' := if t then d else b). assert (In (c', public_width s) fixed_codes /\ In c' verfer_codes) as (FC & VC) by (unfold c'; destruct t; auto).
  assert ((s = Ed25519 <-> c = s! "A")) as SA.
  { clear -Row. cbn in Row. destruct Row as [X|[X|[X|[]]]]; injection X as <- <- _ _ _; split; try reflexivity; discriminate. }
  destruct (public_key cr c key) as [pk|e|] eqn:P.
  - rewrite bind_Ok. pose proof (proj1 (public_ok cr c s key pk S1) P) as (Q & L). destruct (signs _ CR _ _ _ Q) as (W & _). destruct (verfer_built c' _ pk FC VC W) as (-> & _).
    split; [discriminate|]. intros (A & B). apply SA in A. specialize (L A). lia.
  - cbn [bind]. split; [discriminate|]. intros (A & B). apply SA in A. unfold public_key in P. rewrite S1, bind_Ok, A in P. unfold slice_bytes in P.
    replace ((0 <=? 32) && (32 <=? len key)) with false in P by lia. discriminate.
  - cbn [bind]. split; auto. intros _. unfold public_key in P. rewrite S1, bind_Ok in P. destruct s; [|destruct (cr_public cr Ecdsa256k1 key); discriminate|destruct (cr_public cr Ecdsa256r1 key); discriminate].
    split; [now apply SA|]. unfold slice_bytes in P. destruct ((0 <=? 32) && (32 <=? len key)) eqn:E; [|lia]. rewrite bind_Ok in P. destruct (cr_public _ _ _); discriminate.
Qed.
(*# C90_signer_panics_partial
   Building a signer panics exactly when a text or binary seed was given and either parsing it panics or it is an Ed25519 seed of fewer than 32 bytes. Full
   statement: never; see C90_short_seed_refuted.
##
Example C90_case : is_err (signer_new toy None (Some (s! "B")) (Some (repeat x07 32)) None None None) = true /\ is_err (signer_new toy None None (Some (repeat x07 31)) None None None) = true.
Proof. split; vm_compute; reflexivity. Qed.
#*)
Lemma C90_l (cr : crypto) (transferable : option bool) (code raw qb64b qb64 qb2 : option bytes) :
  correct cr ->
  (signer_new cr transferable code raw qb64b qb64 qb2 = Panic <->
   (qb64b <> None \/ qb64 <> None \/ qb2 <> None) /\
   (matter_new code raw qb64b qb64 qb2 = Panic \/ exists m, matter_new code raw qb64b qb64 qb2 = Ok m /\ m_code m = s! "A" /\ len (m_raw m) < 32)).
Proof.
  intros CR. unfold signer_new. cbv zeta. destruct (is_none qb64b && is_none qb64 && is_none qb2) eqn:I.
  - split; [|intros (A & _); destruct qb64b, qb64, qb2; try discriminate I; intuition congruence]. intros H. exfalso. unfold validate in H.
    destruct (has_code seed_codes (or_else code (s! "A"))) eqn:HC; [|discriminate]. apply has_code_In in HC. rewrite bind_Ok in H.
    assert (exists r, match raw with Some r => Ok r | None => generate cr (or_else code (s! "A")) end = Ok r) as (r & ER).
    { destruct raw; [eauto|]. destruct (seed_row _ HC) as (s & d & b & sg & Row). destruct (row_fixed _ _ _ _ _ Row) as (S1 & _). unfold generate. rewrite S1, bind_Ok. eauto. }
    rewrite ER, bind_Ok in H. change (matter_new (Some (or_else code (s! "A"))) (Some r) None None None) with (matter_of_code_raw (or_else code (s! "A")) r) in H.
    destruct (fixed_known _ _ (seed_fixed _ HC)) as (z & Hz & Ev & N). rewrite (construct_fixed _ z _ Hz Ev), N in H. destruct (len r <? 32) eqn:L; [discriminate|]. rewrite bind_Ok in H.
    cbn [m_code m_raw] in H. destruct (derive_verfer cr (or_else code (s! "A")) (take 32 r) (or_else transferable true)) eqn:D; [discriminate|discriminate|].
    apply derive_panic in D as (_ & D); auto. rewrite len_take in D. lia.
  - assert (qb64b <> None \/ qb64 <> None \/ qb2 <> None) as G by (destruct qb64b; [left; discriminate|]; destruct qb64; [right; left; discriminate|]; destruct qb2; [right; right; discriminate|discriminate I]).
    destruct (matter_new code raw qb64b qb64 qb2) as [m| |]; cbn [bind].
    + unfold validate. destruct (has_code seed_codes (m_code m)) eqn:HC; rewrite ?bind_Ok.
      * apply has_code_In in HC. destruct (derive_verfer cr (m_code m) (m_raw m) (or_else transferable true)) eqn:D; cbn [bind].
        -- split; [discriminate|]. intros (_ & [X|(m' & [= <-] & X & Y)]); [discriminate|]. rewrite (proj2 (derive_panic cr _ _ (or_else transferable true) CR HC) (conj X Y)) in D. discriminate.
        -- split; [discriminate|]. intros (_ & [X|(m' & [= <-] & X & Y)]); [discriminate|]. rewrite (proj2 (derive_panic cr _ _ (or_else transferable true) CR HC) (conj X Y)) in D. discriminate.
        -- apply derive_panic in D as D'; auto. split; auto. intros _. split; auto. right. eauto.
      * cbn [bind]. split; [discriminate|]. intros (_ & [X|(m' & [= <-] & X & Y)]); [discriminate|]. rewrite X in HC. discriminate.
    + split; [discriminate|]. intros (_ & [X|(m' & [=] & X & Y)]); discriminate.
    + split; auto.
Qed.
(*# C90_seeds_accepted
   Every 32 bytes are accepted as an Ed25519 seed, and as a seed of another scheme if the scheme has a public key for them; longer byte strings are cut to 32.
   Without a seed a random one is drawn. The printed seed gives the same signer.
##
Example C90_accepted_case : exists g, signer_new toy None None None None None None = Ok g.
Proof. eexists. vm_compute. reflexivity. Qed.
#*)
Lemma C90b_l (cr : crypto) (transferable : option bool) (code : option bytes) (raw : bytes) (s : scheme) (d b sg pk : bytes) :
  correct cr -> In (match code with Some c => c | None => s! "A" end, (s, d, b, sg)) seed_table -> 32 <= len raw -> cr_public cr s (take 32 raw) = Some pk ->
  exists g, signer_new cr transferable code (Some raw) None None None = Ok g /\ m_raw (g_seed g) = take 32 raw /\ m_code (g_seed g) = match code with Some c => c | None => s! "A" end /\
    m_raw (g_verfer g) = pk /\ (exists t, infil (g_seed g) = Ok t /\ signer_new cr transferable None None None (Some t) None = Ok g) /\
  exists g', signer_new cr transferable code None None None None = Ok g' /\ m_raw (g_seed g') = cr_random cr s.
Proof.
  intros CR Row L P. change (match code with Some c => c | None => s! "A" end) with (or_else code (s! "A")) in *. set (c := or_else code (s! "A")) in *.
  assert (In c seed_codes) as C. { clear -Row. cbn in Row. destruct Row as [X|[X|[X|[]]]]; injection X as <- _ _ _ _; cbn; tauto. }
  destruct (row_fixed _ _ _ _ _ Row) as (S1 & _ & _ & F1 & F2 & _ & V1 & V2 & _). pose proof (seed_fixed _ C) as FC.
  assert (forall k kp, len k = 32 -> cr_public cr s k = Some kp -> derive_verfer cr c k (or_else transferable true) = Ok (Mt (if or_else transferable true then d else b) 0 kp)) as DV.
  { intros k kp LK PK. rewrite derive_eq, (pick_row _ _ _ _ _ _ Row), bind_Ok. assert (public_key cr c k = Ok kp) as ->.
    { apply (public_ok cr c s k kp S1). split; [|intros; lia]. destruct s; auto. now rewrite take_all by lia. }
    rewrite bind_Ok. destruct (signs _ CR _ _ _ PK) as (W & _). destruct (or_else transferable true); [now apply (verfer_built d (public_width s))|now apply (verfer_built b (public_width s))]. }
  assert (len (take 32 raw) = 32) as LT by (rewrite len_take; lia). destruct (fixed_built c 32 (take 32 raw) FC LT) as (B & W).
  exists (Sgr (Mt c 0 (take 32 raw)) (Mt (if or_else transferable true then d else b) 0 pk)). split; [|split; [|split; [|split; [|split]]]]; auto.
  - unfold signer_new. cbv zeta. cbn [is_none andb]. fold c. rewrite (proj2 (validated _ _) C), !bind_Ok. change (matter_new (Some c) (Some raw) None None None) with (matter_of_code_raw c raw).
    destruct (fixed_known _ _ FC) as (z & Hz & Ev & N). rewrite (construct_fixed _ z _ Hz Ev), N. replace (len raw <? 32) with false by lia. rewrite bind_Ok. cbn [m_code m_raw].
    now rewrite (DV _ _ LT P).
  - destruct (wf_round _ W) as (t & _ & I & _ & X & _). exists t. split; auto. unfold signer_new. cbv zeta. cbn [is_none andb matter_new]. rewrite X, bind_Ok. cbn [m_code].
    rewrite (proj2 (validated _ _) C), !bind_Ok. cbn [m_code m_raw]. now rewrite (DV _ _ LT P).
  - destruct (draws _ CR s) as (LR & kp & KP). exists (Sgr (Mt c 0 (cr_random cr s)) (Mt (if or_else transferable true then d else b) 0 kp)). split; [|reflexivity].
    unfold signer_new. cbv zeta. cbn [is_none andb]. fold c. rewrite (proj2 (validated _ _) C), bind_Ok. unfold generate. rewrite S1, !bind_Ok.
    destruct (fixed_built c 32 _ FC LR) as (B' & _). change (matter_new (Some c) (Some (cr_random cr s)) None None None) with (matter_of_code_raw c (cr_random cr s)).
    rewrite B', bind_Ok. cbn [m_code m_raw]. now rewrite (DV _ _ LR KP).
Qed.
