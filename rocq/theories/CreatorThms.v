(** Proofs of the properties of key stretching and of creators. *)
From Coq Require Import String.
From Coq Require Import NArith ZArith Lia Bool List.
From Verif Require Import Base BaseFacts B64 B64Facts Tables Matter MatterFacts MatterBin MatterText MatterMore MatterThms Indexer Prims PrimsFacts PrimsThms Common CommonFacts Signer SignerThms
  Spec SpecPrims SpecSigner.
Import ListNotations.
Open Scope N_scope.

Lemma toy_kdf_sized : sized_kdf toy_kdf.
Proof. intros pwd salt n mem passes k [= <-]. rewrite len_take, len_cons, !len_app, len_zeros. lia. Qed.

(** ** Stretching *)
Lemma stretch_ok kdf pwd salt n tier k : stretch kdf pwd salt n tier = Ok k <-> exists mem passes, In (tier, (mem, passes)) tiers /\ kdf pwd salt n mem passes = Some k.
Proof.
  unfold stretch.
  assert (forall mem passes, (match kdf pwd salt n (fst (mem, passes)) (snd (mem, passes)) with Some k => Ok k | None => Err EDerivation end = Ok k <-> kdf pwd salt n mem passes = Some k)) as K.
  { intros. cbn [fst snd]. destruct (kdf pwd salt n mem passes); split; congruence. }
  destruct (beq tier (s! "min")) eqn:E1; [|destruct (beq tier (s! "low")) eqn:E2; [|destruct (beq tier (s! "med")) eqn:E3; [|destruct (beq tier (s! "high")) eqn:E4]]];
    rewrite ?bind_Ok, ?K.
  - apply beq_eq in E1. subst. split; [intros; exists 8, 1; cbn; tauto|]. intros (m & p & I & H). cbn in I. intuition congruence.
  - apply beq_eq in E2. subst. split; [intros; exists 65536, 2; cbn; tauto|]. intros (m & p & I & H). cbn in I. intuition congruence.
  - apply beq_eq in E3. subst. split; [intros; exists 262144, 3; cbn; tauto|]. intros (m & p & I & H). cbn in I. intuition congruence.
  - apply beq_eq in E4. subst. split; [intros; exists 1048576, 4; cbn; tauto|]. intros (m & p & I & H). cbn in I. intuition congruence.
  - cbn [bind]. split; [discriminate|]. intros (m & p & I & H). exfalso. cbn in I.
    destruct I as [I|[I|[I|[I|[]]]]]; injection I as <- _ _; discriminate.
Qed.
Lemma stretch_np kdf pwd salt n tier : stretch kdf pwd salt n tier <> Panic.
Proof.
  unfold stretch. destruct (beq tier (s! "min")); [|destruct (beq tier (s! "low")); [|destruct (beq tier (s! "med")); [|destruct (beq tier (s! "high"))]]]; rewrite ?bind_Ok; try discriminate;
    destruct (kdf pwd salt n _ _); discriminate.
Qed.
Lemma raw_size_seed c : In c seed_codes -> raw_size c = Ok 32.
Proof. intros H. cbn in H. destruct H as [<-|[<-|[<-|[]]]]; reflexivity. Qed.

Lemma row_seed c s d b sg : In (c, (s, d, b, sg)) seed_table -> In c seed_codes.
Proof. intros Row. cbn in Row. destruct Row as [X|[X|[X|[]]]]; injection X as <- _ _ _ _; cbn; tauto. Qed.

(** A stretched signer. *)
Lemma stretched_signer cr kdf self code t path tier temp g : correct cr -> sized_kdf kdf -> salter_signer cr kdf self code t path tier temp = Ok g ->
  stretched kdf (m_raw (fst self)) (tier_used (or_else temp false) (or_else tier (snd self))) (or_else path []) g /\ m_code (g_seed g) = or_else code (s! "A") /\
  key_code (m_code (g_seed g)) (or_else t true) (m_code (g_verfer g)).
Proof.
  intros CR SK H. unfold salter_signer in H. cbv zeta in H. apply bind_ok in H as (n & RS & H). apply bind_ok in H as (seed & S & H).
  pose proof (C67_l _ _ _ _ _ _ _ _ CR H) as (KC & _ & _). unfold signer_new in H. cbv zeta in H. cbn [is_none andb] in H. apply bind_ok in H as (m & M & H). apply bind_ok in H as (v & V & H).
  injection H as <-. cbn [g_seed g_verfer] in *. apply bind_ok in M as ([] & VC & M). apply validated in VC. rewrite bind_Ok in M. cbn [or_else] in VC, M.
  rewrite (raw_size_seed _ VC) in RS. injection RS as <-. unfold salter_stretch in S. cbv zeta in S. cbn [or_else] in S. apply stretch_ok in S as (mem & passes & I & K).
  pose proof (SK _ _ _ _ _ _ K) as L. destruct (fixed_built _ 32 seed (seed_fixed _ VC) L) as (B & _).
  change (matter_of_code_raw (or_else code (s! "A")) seed = Ok m) in M. rewrite B in M. injection M as <-. cbn [m_code m_raw g_seed]. split; [|split]; auto.
  exists mem, passes. auto.
Qed.
(** Conversely. *)
Lemma signer_stretches cr kdf self code t path tier temp seed s d b sg pk mem passes : correct cr -> sized_kdf kdf -> In (or_else code (s! "A"), (s, d, b, sg)) seed_table ->
  In (tier_used (or_else temp false) (or_else tier (snd self)), (mem, passes)) tiers -> kdf (or_else path []) (m_raw (fst self)) 32 mem passes = Some seed -> cr_public cr s seed = Some pk ->
  exists g, salter_signer cr kdf self code t path tier temp = Ok g.
Proof.
  intros CR SK Row I K P. assert (In (or_else code (s! "A")) seed_codes) as C. { eapply row_seed; eauto. }
  pose proof (SK _ _ _ _ _ _ K) as L. unfold salter_signer. cbv zeta. rewrite (raw_size_seed _ C), bind_Ok. unfold salter_stretch. cbv zeta. cbn [or_else].
  assert (stretch kdf (or_else path []) (m_raw (fst self)) 32 (if or_else temp false then s! "min" else or_else tier (snd self)) = Ok seed) as -> by (apply stretch_ok; eauto).
  rewrite bind_Ok. destruct (C90b_l cr (Some (or_else t true)) (Some (or_else code (s! "A"))) seed s d b sg pk CR) as (g & G & _); auto; [lia|now rewrite take_all by lia|eauto].
Qed.

(** ** Numerals *)
Lemma numeral_hex n : n <= u128_max -> numeral n (to_hex n).
Proof. apply to_hex_lower. Qed.
Lemma numeral_inj n m h : numeral n h -> numeral m h -> n = m.
Proof. intros (_ & A) (_ & B). congruence. Qed.

Lemma numeral_digits n h : numeral n h -> forallb lhex h = true /\ 0 < len h.
Proof.
  intros ((A & B & _) & _). split; [apply forallb_forall; intros c I; apply lhex_in, B, I|]. destruct h; [congruence|]. rewrite len_cons. lia.
Qed.
Lemma numeral_unique n a b : numeral n a -> numeral n b -> a = b.
Proof.
  intros A B. destruct (numeral_digits _ _ A) as (FA & LA), (numeral_digits _ _ B) as (FB & LB). destruct A as (HA & EA), B as (HB & EB).
  pose proof (hex_number_lt a FA) as UA. pose proof (hex_number_lt b FB) as UB. pose proof (lower_len a n HA EA FA (len b) LB). pose proof (lower_len b n HB EB FB (len a) LA).
  apply hex_number_inj; auto; try congruence. rewrite EA in UA. rewrite EB in UB. specialize (H UB). specialize (H0 UA). lia.
Qed.

Lemma nth_error_ext' {A} (a : list A) : forall b, (forall i, nth_error a i = nth_error b i) -> a = b.
Proof.
  induction a as [|x a IH]; intros [|y b] H; auto; try (specialize (H 0%nat); discriminate). pose proof (H 0%nat) as E. injection E as ->. f_equal. apply IH. intros i. exact (H (S i)).
Qed.
Lemma raw_size_np c : raw_size c <> Panic.
Proof.
  unfold raw_size. destruct (sizage_of c) as [z| |] eqn:Z; [|discriminate|now apply sizage_of_np in Z]. apply sizage_of_ok in Z. rewrite bind_Ok. destruct (fs z =? u32_max) eqn:F; [discriminate|].
  pose proof (lookup_facts _ _ Z) as T. assert (var z = false) as V by (unfold var; exact F). destruct (tf_fix _ _ T V) as (E1 & E2 & E3 & E4 & E5 & E6). cbv zeta. rewrite E1, N.add_0_r.
  rewrite u32_sub_in by lia. rewrite bind_Ok. rewrite u32_sub_in by lia. discriminate.
Qed.

(** ** Batches *)
Lemma signers_nth cr kdf self start path code t tier temp n : forall i l, signers_loop cr kdf n i self start path code t tier temp = Ok l ->
  length l = n /\ forall j g, nth_error l j = Some g -> i + N.of_nat j + start <= u64_max /\ salter_signer cr kdf self code t (Some (path ++ to_hex (i + N.of_nat j + start))) tier temp = Ok g.
Proof.
  induction n as [|n IH]; intros i l H; cbn [signers_loop] in H.
  - injection H as <-. split; auto. intros j g Hj. now destruct j.
  - destruct (u64_max <? i + start) eqn:O; [discriminate|]. apply bind_ok in H as (g0 & G & H). apply bind_ok in H as (l' & L & H). injection H as <-. destruct (IH _ _ L) as (A & B).
    split; [cbn; now rewrite A|]. intros [|j] g Hj; cbn in Hj.
    + injection Hj as <-. rewrite N.add_0_r. split; [lia|auto].
    + destruct (B _ _ Hj) as (C & D). replace (i + N.of_nat (S j) + start) with (i + 1 + N.of_nat j + start) by lia. auto.
Qed.
Lemma create_nth cr kdf self stem ridx kidx t temp codes : forall i l, create_loop cr kdf self stem ridx kidx t temp i codes = Ok l ->
  length l = length codes /\ forall j g, nth_error l j = Some g -> exists c, nth_error codes j = Some c /\ kidx + (i + N.of_nat j) mod 2 ^ 16 < 2 ^ 16 /\
    salter_signer cr kdf (sc_salter self) (Some c) (Some t) (Some (stem ++ to_hex ridx ++ to_hex (kidx + (i + N.of_nat j) mod 2 ^ 16))) (Some (sc_tier self)) (Some temp) = Ok g.
Proof.
  induction codes as [|c codes IH]; intros i l H; cbn [create_loop] in H.
  - injection H as <-. split; auto. intros j g Hj. now destruct j.
  - cbv zeta in H. destruct (2 ^ 16 <=? kidx + i mod 2 ^ 16) eqn:O; [discriminate|]. apply bind_ok in H as (g0 & G & H). apply bind_ok in H as (l' & L & H). injection H as <-.
    destruct (IH _ _ L) as (A & B). split; [cbn; now rewrite A|]. intros [|j] g Hj; cbn [nth_error] in Hj.
    + injection Hj as <-. exists c. rewrite N.add_0_r. split; auto. split; [lia|]. unfold unwrap in G. destruct (salter_signer _ _ _ _ _ _ _ _); congruence.
    + destruct (B _ _ Hj) as (c' & C1 & C2 & C3). exists c'. replace (i + N.of_nat (S j)) with (i + 1 + N.of_nat j) by lia. auto.
Qed.
Lemma create_ok cr kdf self stem ridx kidx t temp codes : forall i,
  (forall j c, nth_error codes j = Some c -> kidx + (i + N.of_nat j) mod 2 ^ 16 < 2 ^ 16 /\ exists g,
    salter_signer cr kdf (sc_salter self) (Some c) (Some t) (Some (stem ++ to_hex ridx ++ to_hex (kidx + (i + N.of_nat j) mod 2 ^ 16))) (Some (sc_tier self)) (Some temp) = Ok g) ->
  exists l, create_loop cr kdf self stem ridx kidx t temp i codes = Ok l.
Proof.
  induction codes as [|c codes IH]; intros i H; [eexists; reflexivity|]. cbn [create_loop]. cbv zeta. destruct (H 0%nat c eq_refl) as (A & g & G). rewrite N.add_0_r in *.
  replace (2 ^ 16 <=? kidx + i mod 2 ^ 16) with false by lia. rewrite G. cbn [unwrap]. rewrite bind_Ok. destruct (IH (i + 1)) as (l & L).
  - intros j c' Hj. specialize (H (S j) c' Hj). replace (i + 1 + N.of_nat j) with (i + N.of_nat (S j)) by lia. exact H.
  - rewrite L. eexists. reflexivity.
Qed.
Lemma create_panic cr kdf self stem ridx kidx t temp codes : forall i,
  create_loop cr kdf self stem ridx kidx t temp i codes = Panic \/ exists l, create_loop cr kdf self stem ridx kidx t temp i codes = Ok l.
Proof.
  induction codes as [|c codes IH]; intros i; [right; eexists; reflexivity|]. cbn [create_loop]. cbv zeta. destruct (2 ^ 16 <=? _); auto.
  destruct (salter_signer _ _ _ _ _ _ _ _); cbn [unwrap bind]; auto. destruct (IH (i + 1)) as [->|(l & ->)]; [left; reflexivity|right; eexists; reflexivity].
Qed.

(*# C70_batch
   A batch of derived signers has as many as asked (one by default). The key at each position is stretched from the path followed by the hexadecimal numeral of start
   plus position, at the tier asked for or else the salter's, or at the lowest if temporary. Different positions have different paths.
##
Example C70_batch_case : exists l, salter_signers toy toy_kdf (Mt (s! "0A") 0 (zeros 16), s! "low") (Some 3) (Some 15) (Some (s! "ab")) None None None None = Ok l /\
  map (fun g => take 5 (m_raw (g_seed g))) l = [x02 :: s! "abf" ++ [x00]; x02 :: s! "ab10"; x02 :: s! "ab11"].
Proof. eexists. split; [vm_compute; reflexivity|]. vm_compute. reflexivity. Qed.
Example C70_premises : correct toy /\ sized_kdf toy_kdf.
Proof. split; [exact toy_correct|exact toy_kdf_sized]. Qed.
#*)
Lemma C70a_l (cr : crypto) (kdf : bytes -> bytes -> N -> N -> N -> option bytes) (self : matter * bytes) (count start : option N) (path code : option bytes)
    (transferable : option bool) (tier : option bytes) (temp : option bool) (l : list signer) :
  correct cr -> sized_kdf kdf -> salter_signers cr kdf self count start path code transferable tier temp = Ok l ->
  let used := tier_used (match temp with Some t => t | None => false end) (match tier with Some t => t | None => snd self end) in
  let from := match path with Some p => p | None => [] end in
  let first := match start with Some n => n | None => 0 end in
  len l = match count with Some n => n | None => 1 end /\
  (forall i g, nth_error l i = Some g -> exists h, numeral (first + N.of_nat i) h /\ stretched kdf (m_raw (fst self)) used (from ++ h) g) /\
  (forall i j g g', i <> j -> nth_error l i = Some g -> nth_error l j = Some g' ->
   exists p q, p <> q /\ stretched kdf (m_raw (fst self)) used p g /\ stretched kdf (m_raw (fst self)) used q g').
Proof.
  intros CR SK H used from first. unfold salter_signers in H. destruct (signers_nth _ _ _ _ _ _ _ _ _ _ _ _ H) as (A & B).
  assert (forall i g, nth_error l i = Some g -> first + N.of_nat i <= u64_max /\ stretched kdf (m_raw (fst self)) used (from ++ to_hex (first + N.of_nat i)) g) as ST.
  { intros i g Hi. destruct (B _ _ Hi) as (O & G). change (or_else start 0) with first in *. rewrite N.add_0_l in *. rewrite N.add_comm in O, G. split; auto.
    destruct (stretched_signer _ _ _ _ _ _ _ _ _ CR SK G) as (S & _). exact S. }
  assert (u64_max <= u128_max) as UU by (vm_compute; discriminate).
  split; [|split].
  - unfold len. rewrite A, N2Nat.id. reflexivity.
  - intros i g Hi. destruct (ST _ _ Hi) as (O & S). exists (to_hex (first + N.of_nat i)). split; auto. apply numeral_hex. lia.
  - intros i j g g' N Hi Hj. destruct (ST _ _ Hi) as (O & S), (ST _ _ Hj) as (O' & S'). eexists. eexists. split; [|split; [exact S|exact S']].
    intros E. apply app_inv_head in E. pose proof (numeral_hex (first + N.of_nat i)) as N1. pose proof (numeral_hex (first + N.of_nat j)) as N2. rewrite E in N1.
    pose proof (numeral_inj _ _ _ (N1 ltac:(lia)) (N2 ltac:(lia))). lia.
Qed.

Lemma asked_codes codes count code : all_codes codes count code = asked codes count code.
Proof. unfold all_codes, asked. destruct codes as [[|c l]|]; reflexivity. Qed.
Definition stem_of (own : bytes) (given : option bytes) (pidx : N) : bytes := match own with [] => or_else given (to_hex pidx) | s => s end.
Lemma create_eq cr kdf c codes count code pidx ridx kidx stem t temp : salty_create cr kdf c codes count code pidx ridx kidx stem t temp =
  create_loop cr kdf c (stem_of (sc_stem c) stem (by_default pidx)) (by_default ridx) (by_default kidx) (or_else t true) temp 0 (asked codes count code).
Proof. unfold salty_create, stem_of. cbv zeta. rewrite asked_codes. destruct (sc_stem c); reflexivity. Qed.
Lemma stem_ok own given pidx : pidx <= u128_max -> stem_used own given pidx (stem_of own given pidx).
Proof. intros H. unfold stem_used, stem_of. destruct own; [right|left; split; [discriminate|auto]]. split; auto. destruct given; [auto|right; split; auto; now apply numeral_hex]. Qed.
Lemma small16 n : n < 2 ^ 16 -> n <= u128_max.
Proof. intros H. assert (2 ^ 16 <= u128_max) by (vm_compute; discriminate). lia. Qed.
Lemma created cr kdf c codes count code pidx ridx kidx stem t temp l : correct cr -> sized_kdf kdf ->
  salty_create cr kdf c codes count code pidx ridx kidx stem t temp = Ok l ->
  length l = length (asked codes count code) /\
  forall i g, nth_error l i = Some g -> by_default kidx + N.of_nat i mod 2 ^ 16 < 2 ^ 16 /\ nth_error (asked codes count code) i = Some (m_code (g_seed g)) /\
    key_code (m_code (g_seed g)) (or_else t true) (m_code (g_verfer g)) /\
    stretched kdf (m_raw (fst (sc_salter c))) (tier_used temp (sc_tier c))
      (stem_of (sc_stem c) stem (by_default pidx) ++ to_hex (by_default ridx) ++ to_hex (by_default kidx + N.of_nat i mod 2 ^ 16)) g.
Proof.
  intros CR SK H. rewrite create_eq in H. destruct (create_nth _ _ _ _ _ _ _ _ _ _ _ H) as (A & B). split; auto.
  intros i g Hi. destruct (B _ _ Hi) as (cd & C & O & G). rewrite N.add_0_l in *. split; auto. destruct (stretched_signer _ _ _ _ _ _ _ _ _ CR SK G) as (S & SC & KC). cbn [or_else] in *. rewrite SC in *. auto.
Qed.

(*# C70_creator
   A creator stretches the key at each position from its stem, the numeral of the rotation index and the numeral of the key index plus the position (modulo 2^16).
   Different positions below 2^16 have different paths.
##
Example C70_creator_case : exists c l, salty_new (zeros 16) None (Some (s! "st")) None None = Ok c /\
  salty_create toy toy_kdf c None (Some 2) None None (Some 31) (Some 9) None None false = Ok l /\ map (fun g => take 6 (m_raw (g_seed g))) l = [x02 :: s! "st1f9"; x02 :: s! "st1fa"].
Proof. eexists. eexists. split; [vm_compute; reflexivity|]. split; [vm_compute; reflexivity|]. vm_compute. reflexivity. Qed.
#*)
Lemma C70b_l (cr : crypto) (kdf : bytes -> bytes -> N -> N -> N -> option bytes) (c : salty) (codes : option (list bytes)) (count : option N) (code : option bytes)
    (pidx ridx kidx : option N) (stem : option bytes) (transferable : option bool) (temp : bool) (l : list signer) :
  correct cr -> sized_kdf kdf -> by_default pidx < 2 ^ 16 -> by_default ridx < 2 ^ 16 ->
  salty_create cr kdf c codes count code pidx ridx kidx stem transferable temp = Ok l ->
  let salt := m_raw (fst (sc_salter c)) in
  (forall i g, nth_error l i = Some g -> exists st r k, stem_used (sc_stem c) stem (by_default pidx) st /\ numeral (by_default ridx) r /\
     numeral (by_default kidx + N.of_nat i mod 2 ^ 16) k /\ stretched kdf salt (tier_used temp (sc_tier c)) (st ++ r ++ k) g) /\
  (forall i j g g', i <> j -> N.of_nat i < 2 ^ 16 -> N.of_nat j < 2 ^ 16 -> nth_error l i = Some g -> nth_error l j = Some g' ->
   exists p q, p <> q /\ stretched kdf salt (tier_used temp (sc_tier c)) p g /\ stretched kdf salt (tier_used temp (sc_tier c)) q g').
Proof.
  intros CR SK P RR H salt. destruct (created _ _ _ _ _ _ _ _ _ _ _ _ _ CR SK H) as (_ & B). split.
  - intros i g Hi. destruct (B _ _ Hi) as (O & _ & _ & S). eexists. eexists. eexists. split; [apply stem_ok; now apply small16|]. split; [apply numeral_hex; now apply small16|].
    split; [apply numeral_hex; now apply small16|exact S].
  - intros i j g g' N LI LJ Hi Hj. destruct (B _ _ Hi) as (O & _ & _ & S), (B _ _ Hj) as (O' & _ & _ & S'). eexists. eexists. split; [|split; [exact S|exact S']].
    rewrite (N.mod_small (N.of_nat i)), (N.mod_small (N.of_nat j)) in * by auto. intros E. apply app_inv_head in E. apply app_inv_head in E.
    pose proof (numeral_hex _ (small16 _ O)) as N1. rewrite E in N1. pose proof (numeral_inj _ _ _ N1 (numeral_hex _ (small16 _ O'))). lia.
Qed.

(*# C70_rotations_refuted
   False as stated between rotations: whatever the creator, the keys of rotation 1 from key index 17 are those of rotation 17 from key index 1.
#*)
Lemma C70_no_l : (forall cr kdf c stem transferable temp pidx, salty_create cr kdf c None None None pidx (Some 1) (Some 17) stem transferable temp =
    salty_create cr kdf c None None None pidx (Some 17) (Some 1) stem transferable temp) /\
  exists c l, salty_new (zeros 16) None None None None = Ok c /\ salty_create toy toy_kdf c None None None None (Some 1) (Some 17) None None false = Ok l /\ l <> [].
Proof.
  split; [reflexivity|]. eexists. eexists. split; [vm_compute; reflexivity|]. split; [vm_compute; reflexivity|]. discriminate.
Qed.
(** Numerals of the same length next to each other can be told apart. *)
Lemma numerals_apart (a b a' b' : bytes) : a ++ b = a' ++ b' -> len a = len a' \/ len b = len b' -> a = a' /\ b = b'.
Proof.
  intros E H. assert (length a = length a') as L.
  { pose proof (f_equal (@length _) E) as L. rewrite !app_length in L. unfold len in H. lia. }
  clear H. revert a' E L. induction a as [|x a IH]; intros [|y a'] E L; try discriminate; auto. injection E as -> E. destruct (IH a' E) as (-> & ->); auto.
Qed.
(*# C70_rotations_partial
   What holds: two keys of one creator (same stem) at a different rotation index or key index (plus position) have different paths if the numerals of the rotation
   indices, or those of the key indices, have the same number of digits. Full statement: without that condition; see C70_rotations_refuted.
##
Example C70_digits : numeral 17 (s! "11") /\ numeral 31 (s! "1f").
Proof. split; apply numeral_hex; vm_compute; discriminate. Qed.
#*)
Lemma C70c_l (cr : crypto) (kdf : bytes -> bytes -> N -> N -> N -> option bytes) (c : salty) (codes codes' : option (list bytes)) (count count' : option N) (code code' : option bytes)
    (pidx ridx ridx' kidx kidx' : option N) (stem : option bytes) (transferable transferable' : option bool) (temp : bool) (l l' : list signer) (i j : nat) (g g' : signer) (r r' k k' : bytes) :
  correct cr -> sized_kdf kdf -> 
  salty_create cr kdf c codes count code pidx ridx kidx stem transferable temp = Ok l -> nth_error l i = Some g ->
  salty_create cr kdf c codes' count' code' pidx ridx' kidx' stem transferable' temp = Ok l' -> nth_error l' j = Some g' ->
  by_default ridx < 2 ^ 16 -> by_default ridx' < 2 ^ 16 ->
  numeral (by_default ridx) r -> numeral (by_default ridx') r' ->
  numeral (by_default kidx + N.of_nat i mod 2 ^ 16) k -> numeral (by_default kidx' + N.of_nat j mod 2 ^ 16) k' -> len r = len r' \/ len k = len k' ->
  by_default ridx <> by_default ridx' \/ by_default kidx + N.of_nat i mod 2 ^ 16 <> by_default kidx' + N.of_nat j mod 2 ^ 16 ->
  exists p q, p <> q /\ stretched kdf (m_raw (fst (sc_salter c))) (tier_used temp (sc_tier c)) p g /\ stretched kdf (m_raw (fst (sc_salter c))) (tier_used temp (sc_tier c)) q g'.
Proof.
  intros CR SK H Hi H' Hj LR LR' NR NR' NK NK' LL D. destruct (created _ _ _ _ _ _ _ _ _ _ _ _ _ CR SK H) as (_ & B). destruct (created _ _ _ _ _ _ _ _ _ _ _ _ _ CR SK H') as (_ & B').
  destruct (B _ _ Hi) as (O & _ & _ & S), (B' _ _ Hj) as (O' & _ & _ & S'). eexists. eexists. split; [|split; [exact S|exact S']].
  assert (forall n h, n < 2 ^ 16 -> numeral n h -> to_hex n = h) as U.
  { intros n h L NH. apply (numeral_unique n); auto. apply numeral_hex. now apply small16. }
  rewrite (U _ _ LR NR), (U _ _ LR' NR'), (U _ _ O NK), (U _ _ O' NK'). intros E. apply app_inv_head in E. destruct (numerals_apart _ _ _ _ E LL) as (-> & ->).
  destruct D as [D|D]; apply D; eapply numeral_inj; eauto.
Qed.

(*# C70_long_batch_refuted
   False as stated for very long batches: a creator asked for more than 2^16 keys gives position 2^16 the key of position 0.
#*)
Lemma C70_long_l : exists c codes l g, salty_new (zeros 16) None None None None = Ok c /\ salty_create toy toy_kdf c (Some codes) None None None None None None None false = Ok l /\
  nth_error l 0 = Some g /\ nth_error l (N.to_nat (2 ^ 16)) = Some g.
Proof.
  remember (N.to_nat (2 ^ 16)) as w eqn:W. set (codes := s! "A" :: repeat (s! "A") w).
  assert (forall j c, nth_error codes j = Some c -> c = s! "A") as CA. { intros j c H. apply nth_error_In in H as [<-|H]; auto. now apply repeat_spec in H. }
  assert (forall c k, sc_tier c = s! "low" -> exists g, salter_signer toy toy_kdf (sc_salter c) (Some (s! "A")) (Some true) (Some (s! "0" ++ s! "0" ++ to_hex k)) (Some (sc_tier c)) (Some false) = Ok g) as OKK.
  { intros c k T. remember (s! "0" ++ s! "0" ++ to_hex k) as p eqn:P. clear P.
    destruct (toy_kdf p (m_raw (fst (sc_salter c))) 32 65536 2) as [seed|] eqn:K; [|discriminate K].
    apply (signer_stretches toy toy_kdf _ (Some (s! "A")) _ _ _ _ seed Ed25519 (s! "D") (s! "B") (s! "0B") seed 65536 2); auto using toy_correct, toy_kdf_sized.
    - cbn; tauto.
    - rewrite T. cbn [or_else tier_used]. unfold tiers. right. left. reflexivity.
    - cbn [cr_public toy]. now rewrite (toy_kdf_sized _ _ _ _ _ _ K). }
  assert (exists c0, salty_new (zeros 16) None None None None = Ok c0 /\ sc_tier c0 = s! "low" /\ sc_stem c0 = []) as (c0 & C0 & T0 & S0).
  { eexists. split; [vm_compute; reflexivity|]. split; reflexivity. }
  destruct (create_ok toy toy_kdf c0 (s! "0") 0 0 true false codes 0) as (l & L).
  { intros j c Hj. rewrite (CA _ _ Hj). split; [pose proof (N.mod_lt (0 + N.of_nat j) (2 ^ 16)); lia|]. apply OKK. exact T0. }
  destruct (create_nth _ _ _ _ _ _ _ _ _ _ _ L) as (LL & NN). assert (length codes = S w) as LC by (unfold codes; cbn [length]; now rewrite repeat_length).
  destruct (nth_error l 0) as [g|] eqn:G0; [|apply nth_error_None in G0; lia]. destruct (nth_error l w) as [g'|] eqn:G1; [|apply nth_error_None in G1; lia].
  destruct (NN _ _ G0) as (c1 & A1 & _ & R1). destruct (NN _ _ G1) as (c2 & A2 & _ & R2). rewrite (CA _ _ A1) in R1. rewrite (CA _ _ A2) in R2.
  assert ((0 + N.of_nat w) mod 2 ^ 16 = (0 + N.of_nat 0) mod 2 ^ 16) as E by (rewrite W, N2Nat.id; reflexivity). rewrite E, R1 in R2. injection R2 as <-.
  exists c0, codes, l, g. split; auto. split; [|auto]. rewrite create_eq, S0. exact L.
Qed.

(*# C91_account_with_stem_refuted
   False as stated: a creator with a stem of its own gives all accounts the same keys, and one without gives account 1 in rotation 17 the keys of account 17 in
   rotation 1.
#*)
Lemma C91_no_l : (forall cr kdf c codes count code pidx pidx' ridx kidx stem transferable temp, sc_stem c <> [] ->
    salty_create cr kdf c codes count code pidx ridx kidx stem transferable temp = salty_create cr kdf c codes count code pidx' ridx kidx stem transferable temp) /\
  (exists c l, salty_new (zeros 16) None (Some (s! "st")) None None = Ok c /\ sc_stem c <> [] /\ salty_create toy toy_kdf c None None None (Some 1) None None None None false = Ok l /\ l <> []) /\
  (forall cr kdf c codes count code kidx transferable temp, sc_stem c = [] ->
    salty_create cr kdf c codes count code (Some 1) (Some 17) kidx None transferable temp = salty_create cr kdf c codes count code (Some 17) (Some 1) kidx None transferable temp).
Proof.
  split; [|split].
  - intros. rewrite !create_eq. unfold stem_of. destruct (sc_stem c); [congruence|reflexivity].
  - eexists. eexists. split; [vm_compute; reflexivity|]. split; [discriminate|]. split; [vm_compute; reflexivity|]. discriminate.
  - intros until temp. intros S. rewrite !create_eq, S. cbn [stem_of or_else by_default].
    assert (forall a i, create_loop cr kdf c (to_hex 1) 17 (by_default kidx) (or_else transferable true) temp i a = create_loop cr kdf c (to_hex 17) 1 (by_default kidx) (or_else transferable true) temp i a) as E; [|apply E].
    induction a as [|x a IH]; intros i; [reflexivity|]. cbn [create_loop]. cbv zeta. destruct (2 ^ 16 <=? _); auto. rewrite IH.
    change (to_hex 1 ++ to_hex 17 ++ to_hex (by_default kidx + i mod 2 ^ 16)) with (s! "111" ++ to_hex (by_default kidx + i mod 2 ^ 16)).
    change (to_hex 17 ++ to_hex 1 ++ to_hex (by_default kidx + i mod 2 ^ 16)) with (s! "111" ++ to_hex (by_default kidx + i mod 2 ^ 16)). reflexivity.
Qed.
(*# C91_accounts_partial
   What holds: without any stem, different accounts have different paths at the same rotation index and key index. Full statement: with stems, and for any rotation
   and key indices; see C91_account_with_stem_refuted.
##
Example C91_case : exists c l, salty_new (zeros 16) None None None None = Ok c /\ sc_stem c = [] /\ salty_create toy toy_kdf c None None None (Some 171) None None None None false = Ok l /\
  map (fun g => take 5 (m_raw (g_seed g))) l = [x02 :: s! "ab00"].
Proof. eexists. eexists. split; [vm_compute; reflexivity|]. split; [reflexivity|]. split; [vm_compute; reflexivity|]. vm_compute. reflexivity. Qed.
#*)
Lemma C91_l (cr : crypto) (kdf : bytes -> bytes -> N -> N -> N -> option bytes) (c : salty) (codes codes' : option (list bytes)) (count count' : option N) (code code' : option bytes)
    (pidx pidx' ridx kidx : option N) (transferable transferable' : option bool) (temp : bool) (l l' : list signer) (i : nat) (g g' : signer) :
  correct cr -> sized_kdf kdf -> sc_stem c = [] -> by_default pidx < 2 ^ 16 -> by_default pidx' < 2 ^ 16 -> by_default pidx <> by_default pidx' ->
  salty_create cr kdf c codes count code pidx ridx kidx None transferable temp = Ok l -> nth_error l i = Some g ->
  salty_create cr kdf c codes' count' code' pidx' ridx kidx None transferable' temp = Ok l' -> nth_error l' i = Some g' ->
  exists p q, p <> q /\ stretched kdf (m_raw (fst (sc_salter c))) (tier_used temp (sc_tier c)) p g /\ stretched kdf (m_raw (fst (sc_salter c))) (tier_used temp (sc_tier c)) q g'.
Proof.
  intros CR SK S0 LP LP' D H Hi H' Hi'. destruct (created _ _ _ _ _ _ _ _ _ _ _ _ _ CR SK H) as (_ & B). destruct (created _ _ _ _ _ _ _ _ _ _ _ _ _ CR SK H') as (_ & B').
  destruct (B _ _ Hi) as (O & _ & _ & S), (B' _ _ Hi') as (O' & _ & _ & S'). eexists. eexists. split; [|split; [exact S|exact S']].
  rewrite S0. cbn [stem_of or_else]. intros E. apply app_inv_tail in E. apply D. pose proof (numeral_hex _ (small16 _ LP)) as N1. rewrite E in N1.
  exact (numeral_inj _ _ _ N1 (numeral_hex _ (small16 _ LP'))).
Qed.

Lemma hexits_spec n : n < 16 ^ hexits n /\ (n = 0 /\ hexits n = 1 \/ 16 ^ (hexits n - 1) <= n).
Proof.
  unfold hexits. set (q := N.log2 n / 4). assert (N.log2 n = 4 * q + N.log2 n mod 4) as E by (apply N.div_mod; discriminate).
  pose proof (N.mod_lt (N.log2 n) 4 ltac:(discriminate)) as L. destruct (N.eq_dec n 0) as [->|NZ]; [split; [reflexivity|left; auto]|].
  pose proof (N.log2_spec n) as (A & B); [lia|]. change 16 with (2 ^ 4). rewrite <- !N.pow_mul_r. split.
  - eapply N.lt_le_trans; [exact B|]. apply N.pow_le_mono_r; lia.
  - right. replace (1 + q - 1) with q by lia. eapply N.le_trans; [|exact A]. apply N.pow_le_mono_r; lia.
Qed.
Lemma numeral_hexits n h : numeral n h -> len h = hexits n.
Proof.
  intros NH. destruct (numeral_digits _ _ NH) as (F & P). destruct NH as (LH & E). destruct (hexits_spec n) as (U & L).
  assert (0 < hexits n) as HP by (unfold hexits; lia). pose proof (lower_len h n LH E F (hexits n) HP U) as UB. pose proof (hex_number_lt h F) as V. rewrite E in V.
  destruct L as [(-> & L)|L]; [lia|]. destruct (N.lt_ge_cases (len h) (hexits n)) as [Q|Q]; [|lia]. exfalso.
  assert (16 ^ len h <= 16 ^ (hexits n - 1)) by (apply N.pow_le_mono_r; lia). lia.
Qed.
Lemma hex_number_app a b : hex_number (a ++ b) = hex_number a * 16 ^ len b + hex_number b.
Proof. unfold hex_number at 1. rewrite fold_left_app. change (hex_acc (hex_acc 0 a) b = hex_number a * 16 ^ len b + hex_number b). rewrite hex_acc_split. reflexivity. Qed.
Lemma written_joined l : (forall n, In n l -> n < 2 ^ 16) -> forallb lhex (concat (map to_hex l)) = true /\ joined l = (len (concat (map to_hex l)), hex_number (concat (map to_hex l))).
Proof.
  intros S. unfold joined.
  assert (forall a, forallb lhex a = true -> forallb lhex (a ++ concat (map to_hex l)) = true /\
    fold_left (fun acc n => (fst acc + hexits n, snd acc * 16 ^ hexits n + n)) l (len a, hex_number a) = (len (a ++ concat (map to_hex l)), hex_number (a ++ concat (map to_hex l)))) as G; [|apply (G []); reflexivity].
  induction l as [|n l IH]; intros a A; cbn [map concat fold_left]; [rewrite app_nil_r; auto|].
  pose proof (numeral_hex n (small16 _ (S n (or_introl eq_refl)))) as NH. destruct (numeral_digits _ _ NH) as (F & _). pose proof (numeral_hexits _ _ NH) as LN. destruct NH as (_ & EN).
  rewrite app_assoc. cbn [fst snd]. replace (len a + hexits n, hex_number a * 16 ^ hexits n + n) with (len (a ++ to_hex n), hex_number (a ++ to_hex n)).
  - apply IH; [intros; apply S; now right|]. rewrite forallb_app, A. exact F.
  - rewrite len_app, hex_number_app, LN, EN. reflexivity.
Qed.
Lemma joined_iff l l' : (forall n, In n l -> n < 2 ^ 16) -> (forall n, In n l' -> n < 2 ^ 16) -> (concat (map to_hex l) = concat (map to_hex l') <-> joined l = joined l').
Proof.
  intros S S'. destruct (written_joined l S) as (F & ->), (written_joined l' S') as (F' & ->). split; [now intros ->|]. intros [= E1 E2]. now apply hex_number_inj.
Qed.
Lemma stretched_same kdf salt tier p g g' : stretched kdf salt tier p g -> stretched kdf salt tier p g' -> m_raw (g_seed g) = m_raw (g_seed g').
Proof.
  intros (m & n & I & H) (m' & n' & I' & H'). assert ((m, n) = (m', n')) as [= -> ->]; [|congruence]. clear - I I'. cbn in I, I'.
  destruct I as [I|[I|[I|[I|[]]]]]; destruct I' as [I'|[I'|[I'|[I'|[]]]]]; congruence.
Qed.
(*# C70_rotations_exactly
   Exactly when two keys of one creator with the same stem share a path: when the hexadecimal digits of rotation index and key index (plus position), written one
   after the other, are the same in number and value. Then the two keys have the same seed, and otherwise they are stretched from different paths.
##
Example C70_exactly_case : joined [1; 17] = joined [17; 1] /\ joined [0; 1] <> joined [1; 0] /\ joined [10; 256] = joined [2576; 0] /\ joined [10; 256] <> joined [160; 256].
Proof. vm_compute. split; [reflexivity|]. split; [discriminate|]. split; [reflexivity|discriminate]. Qed.
#*)
Lemma C70_exact_l (cr : crypto) (kdf : bytes -> bytes -> N -> N -> N -> option bytes) (c : salty) (codes codes' : option (list bytes)) (count count' : option N) (code code' : option bytes)
    (pidx pidx' ridx ridx' kidx kidx' : option N) (stem stem' : option bytes) (transferable transferable' : option bool) (temp : bool) (l l' : list signer) (i j : nat) (g g' : signer) (st : bytes) :
  correct cr -> sized_kdf kdf ->
  salty_create cr kdf c codes count code pidx ridx kidx stem transferable temp = Ok l -> nth_error l i = Some g ->
  salty_create cr kdf c codes' count' code' pidx' ridx' kidx' stem' transferable' temp = Ok l' -> nth_error l' j = Some g' ->
  by_default pidx < 2 ^ 16 -> by_default pidx' < 2 ^ 16 -> by_default ridx < 2 ^ 16 -> by_default ridx' < 2 ^ 16 ->
  stem_used (sc_stem c) stem (by_default pidx) st -> stem_used (sc_stem c) stem' (by_default pidx') st ->
  let digits := joined [by_default ridx; by_default kidx + N.of_nat i mod 2 ^ 16] in
  let digits' := joined [by_default ridx'; by_default kidx' + N.of_nat j mod 2 ^ 16] in
  let path p g := stretched kdf (m_raw (fst (sc_salter c))) (tier_used temp (sc_tier c)) p g in
  (digits = digits' -> m_raw (g_seed g) = m_raw (g_seed g')) /\ (digits <> digits' -> exists p q, p <> q /\ path p g /\ path q g').
Proof.
  intros CR SK H Hi H' Hj LP LP' LR LR' SU SU'. destruct (created _ _ _ _ _ _ _ _ _ _ _ _ _ CR SK H) as (_ & B). destruct (created _ _ _ _ _ _ _ _ _ _ _ _ _ CR SK H') as (_ & B').
  destruct (B _ _ Hi) as (O & _ & _ & S), (B' _ _ Hj) as (O' & _ & _ & S').
  assert (forall given p, p < 2 ^ 16 -> stem_used (sc_stem c) given p st -> stem_of (sc_stem c) given p = st) as U.
  { clear. intros given p L [(N & ->)|(-> & [->|(-> & N)])]; unfold stem_of; cbn [or_else]; auto. { destruct (sc_stem c); [congruence|reflexivity]. }
    apply (numeral_unique p); auto. apply numeral_hex. now apply small16. }
  rewrite (U _ _ LP SU) in S. rewrite (U _ _ LP' SU') in S'. cbv zeta.
  set (k := by_default kidx + N.of_nat i mod 2 ^ 16) in *. set (k' := by_default kidx' + N.of_nat j mod 2 ^ 16) in *.
  pose proof (joined_iff [by_default ridx; k] [by_default ridx'; k']) as J. cbn [map concat] in J. rewrite !app_nil_r in J.
  assert (to_hex (by_default ridx) ++ to_hex k = to_hex (by_default ridx') ++ to_hex k' <-> joined [by_default ridx; k] = joined [by_default ridx'; k']) as J'.
  { apply J; intros n [<-|[<-|[]]]; auto. } clear J. split; intros D.
  - apply J' in D. rewrite D in S. exact (stretched_same _ _ _ _ _ _ S S').
  - eexists. eexists. split; [|split; [exact S|exact S']]. intros E. apply app_inv_head in E. apply J' in E. contradiction.
Qed.
(*# C91_accounts_exactly
   Exactly when two keys of a creator without any stem share a path: when the digits of account index, rotation index and key index (plus position), written one
   after the other, are the same in number and value.
##
Example C91_exactly_case : joined [1; 17; 0] = joined [17; 1; 0] /\ joined [1; 0; 0] <> joined [2; 0; 0] /\ joined [1; 2; 3] <> joined [18; 3; 0].
Proof. vm_compute. split; [reflexivity|]. split; discriminate. Qed.
#*)
Lemma C91_exact_l (cr : crypto) (kdf : bytes -> bytes -> N -> N -> N -> option bytes) (c : salty) (codes codes' : option (list bytes)) (count count' : option N) (code code' : option bytes)
    (pidx pidx' ridx ridx' kidx kidx' : option N) (transferable transferable' : option bool) (temp : bool) (l l' : list signer) (i j : nat) (g g' : signer) :
  correct cr -> sized_kdf kdf -> sc_stem c = [] ->
  salty_create cr kdf c codes count code pidx ridx kidx None transferable temp = Ok l -> nth_error l i = Some g ->
  salty_create cr kdf c codes' count' code' pidx' ridx' kidx' None transferable' temp = Ok l' -> nth_error l' j = Some g' ->
  by_default pidx < 2 ^ 16 -> by_default pidx' < 2 ^ 16 -> by_default ridx < 2 ^ 16 -> by_default ridx' < 2 ^ 16 ->
  let digits := joined [by_default pidx; by_default ridx; by_default kidx + N.of_nat i mod 2 ^ 16] in
  let digits' := joined [by_default pidx'; by_default ridx'; by_default kidx' + N.of_nat j mod 2 ^ 16] in
  let path p g := stretched kdf (m_raw (fst (sc_salter c))) (tier_used temp (sc_tier c)) p g in
  (digits = digits' -> m_raw (g_seed g) = m_raw (g_seed g')) /\ (digits <> digits' -> exists p q, p <> q /\ path p g /\ path q g').
Proof.
  intros CR SK S0 H Hi H' Hj LP LP' LR LR'. destruct (created _ _ _ _ _ _ _ _ _ _ _ _ _ CR SK H) as (_ & B). destruct (created _ _ _ _ _ _ _ _ _ _ _ _ _ CR SK H') as (_ & B').
  destruct (B _ _ Hi) as (O & _ & _ & S), (B' _ _ Hj) as (O' & _ & _ & S'). rewrite S0 in S, S'. cbn [stem_of or_else] in S, S'. cbv zeta.
  set (k := by_default kidx + N.of_nat i mod 2 ^ 16) in *. set (k' := by_default kidx' + N.of_nat j mod 2 ^ 16) in *.
  pose proof (joined_iff [by_default pidx; by_default ridx; k] [by_default pidx'; by_default ridx'; k']) as J. cbn [map concat] in J. rewrite !app_nil_r in J.
  match type of J with _ -> _ -> ?P => assert P as J' end. { apply J; intros n [<-|[<-|[<-|[]]]]; auto. } clear J. split; intros D.
  - apply J' in D. rewrite D in S. exact (stretched_same _ _ _ _ _ _ S S').
  - eexists. eexists. split; [|split; [exact S|exact S']]. intros E. apply J' in E. contradiction.
Qed.

(*# C71_salter_tier
   A signer derived from a salter is stretched at the tier asked for, or else at the tier the salter was built with (low if none was given), or at the lowest if
   temporary; with an unknown tier the call fails.
##
Example C71_salter_case : exists s g, salter_new (zeros 16) (Some (s! "high")) None None None None None = Ok s /\ salter_signer toy toy_kdf s None None (Some (s! "p")) None None = Ok g /\
  take 2 (m_raw (g_seed g)) = x04 :: s! "p" /\ is_err (salter_signer toy toy_kdf s None None None (Some (s! "higher")) None) = true.
Proof. eexists. eexists. split; [vm_compute; reflexivity|]. split; [vm_compute; reflexivity|]. split; vm_compute; reflexivity. Qed.
#*)
Lemma C71a_l (cr : crypto) (kdf : bytes -> bytes -> N -> N -> N -> option bytes) (random : bytes) (own scode raw qb64b qb64 qb2 : option bytes) (s : matter * bytes) (code : option bytes)
    (transferable : option bool) (path tier : option bytes) (temp : option bool) :
  correct cr -> sized_kdf kdf -> salter_new random own scode raw qb64b qb64 qb2 = Ok s ->
  let used := tier_used (match temp with Some t => t | None => false end) (match tier with Some t => t | None => match own with Some t => t | None => s! "low" end end) in
  (forall g, salter_signer cr kdf s code transferable path tier temp = Ok g ->
     stretched kdf (m_raw (fst s)) used (match path with Some p => p | None => [] end) g /\ m_code (g_seed g) = match code with Some c => c | None => s! "A" end /\
     key_code (m_code (g_seed g)) (match transferable with Some t => t | None => true end) (m_code (g_verfer g))) /\
  (~ In used (map fst tiers) -> is_err (salter_signer cr kdf s code transferable path tier temp) = true).
Proof.
  intros CR SK SN used. assert (snd s = or_else own (s! "low")) as T.
  { unfold salter_new in SN. cbv zeta in SN. apply bind_ok in SN as ([] & _ & SN). apply bind_ok in SN as (m & _ & SN). now injection SN as <-. }
  split.
  - intros g G. pose proof (stretched_signer _ _ _ _ _ _ _ _ _ CR SK G) as ST. rewrite T in ST. exact ST.
  - intros NT. unfold salter_signer. cbv zeta. pose proof (raw_size_np (or_else code (s! "A"))) as RN. destruct (raw_size (or_else code (s! "A"))) as [n| |]; [|reflexivity|contradiction]. rewrite bind_Ok.
    unfold salter_stretch. cbv zeta. cbn [or_else]. rewrite T.
    match goal with |- context [stretch kdf ?a ?b ?c ?d] => pose proof (stretch_np kdf a b c d) as NP; pose proof (stretch_ok kdf a b c d) as SO; change d with used in *; destruct (stretch kdf a b c used) as [k| |] end;
      [|reflexivity|contradiction].
    exfalso. destruct (proj1 (SO k) eq_refl) as (mm & pp & I & _). apply NT. now apply (in_map fst) in I.
Qed.
(*# C71_creator_tier_refuted
   False as stated for creators: whatever tier a creator is built with, its keys are stretched at tier low (lowest if temporary). With a key stretching that depends on
   the cost, the keys of a creator built at tier high are not stretched at tier high.
#*)
Lemma C71_no_l : (forall cr kdf random salt stem tier salter c codes count code pidx ridx kidx astem transferable temp l g, correct cr -> sized_kdf kdf ->
    salty_new random salt stem tier salter = Ok c -> salty_create cr kdf c codes count code pidx ridx kidx astem transferable temp = Ok l -> In g l ->
    exists path, stretched kdf (m_raw (fst (sc_salter c))) (tier_used temp (s! "low")) path g) /\
  exists c g, salty_new (zeros 16) None None (Some (s! "high")) None = Ok c /\ salty_create toy toy_kdf c None None None None None None None None false = Ok [g] /\
    forall path, ~ stretched toy_kdf (m_raw (fst (sc_salter c))) (s! "high") path g.
Proof.
  split.
  - intros until g. intros CR SK SN H I. apply In_nth_error in I as (i & Hi). destruct (created _ _ _ _ _ _ _ _ _ _ _ _ _ CR SK H) as (_ & B). destruct (B _ _ Hi) as (_ & _ & _ & S).
    assert (sc_tier c = s! "low") as T. { unfold salty_new in SN. apply bind_ok in SN as (d & _ & SN). cbv zeta in SN. destruct salter; [injection SN as <-; now destruct stem|].
      apply bind_ok in SN as (d' & _ & SN). injection SN as <-. now destruct stem. }
    rewrite T in S. eauto.
  - eexists. eexists. split; [vm_compute; reflexivity|]. split; [vm_compute; reflexivity|]. intros path (mem & passes & I & K). cbn in I.
    destruct I as [I|[I|[I|[I|[]]]]]; try discriminate. injection I as <- <-. discriminate K.
Qed.
(*# C71_creator_tier_partial
   What holds: a creator built at tier low, or with none given, stretches its keys at that tier. Full statement: at every tier; see C71_creator_tier_refuted.
##
Example C71_creator_case : exists c l, salty_new (zeros 16) None None (Some (s! "low")) None = Ok c /\ salty_create toy toy_kdf c None (Some 3) None None None None None None false = Ok l /\ len l = 3.
Proof. eexists. eexists. split; [vm_compute; reflexivity|]. split; [vm_compute; reflexivity|]. reflexivity. Qed.
#*)
Lemma C71b_l (cr : crypto) (kdf : bytes -> bytes -> N -> N -> N -> option bytes) (random : bytes) (salt stem tier : option bytes) (c : salty) (codes : option (list bytes)) (count : option N)
    (code : option bytes) (pidx ridx kidx : option N) (astem : option bytes) (transferable : option bool) (temp : bool) (l : list signer) (g : signer) :
  correct cr -> sized_kdf kdf -> tier = None \/ tier = Some (s! "low") -> salty_new random salt stem tier None = Ok c ->
  salty_create cr kdf c codes count code pidx ridx kidx astem transferable temp = Ok l -> In g l ->
  exists path, stretched kdf (m_raw (fst (sc_salter c))) (tier_used temp (snd (sc_salter c))) path g.
Proof.
  intros CR SK TT SN H I. destruct C71_no_l as (G & _). destruct (G cr kdf random salt stem tier None c codes count code pidx ridx kidx astem transferable temp l g CR SK SN H I) as (p & S). exists p.
  assert (snd (sc_salter c) = s! "low") as ->; [|exact S]. unfold salty_new in SN. apply bind_ok in SN as (d & _ & SN). cbv zeta in SN. apply bind_ok in SN as (d' & SN & E). injection E as <-.
  cbn [sc_salter]. unfold unwrap in SN. destruct (salter_new random tier None None None salt None) as [x| |] eqn:X; try discriminate. injection SN as <-.
  unfold salter_new in X. cbv zeta in X. apply bind_ok in X as ([] & _ & X). apply bind_ok in X as (m & _ & X). injection X as <-. destruct TT as [->| ->]; reflexivity.
Qed.

(*# C92_creator_panics_refuted
   False as stated: building a creator from a malformed salt panics although the constructor returns a result, and so does creating a key of an unknown code.
#*)
Lemma C92_no_l : (forall random, len random = 16 -> salty_new random (Some (s! "salt")) None None None = Panic) /\
  (forall cr kdf c, salty_create cr kdf c (Some [s! "B"]) None None None None None None None false = Panic).
Proof.
  split.
  - intros random L. unfold salty_new. assert (salter_new random (Some (s! "low")) None None None None None = Ok (Mt (s! "0A") 0 random, s! "low")) as ->.
    { unfold salter_new. cbv zeta. cbn [is_none andb or_else]. change (validate [s! "0A"] (s! "0A")) with (Ok tt). rewrite bind_Ok.
      change (matter_new (Some (s! "0A")) (Some random) None None None) with (matter_of_code_raw (s! "0A") random). destruct (fixed_built (s! "0A") 16 random) as (-> & _); auto. unfold fixed_codes. cbn. tauto. }
    vm_compute. reflexivity.
  - intros. rewrite create_eq. cbn [asked create_loop]. cbv zeta. cbn [by_default]. change (2 ^ 16 <=? 0 + 0 mod 2 ^ 16) with false. cbv iota.
    match goal with |- context [salter_signer ?a ?b ?c ?d ?e ?f ?g ?h] => assert (forall r, salter_signer a b c d e f g h = Ok r -> False) as N end.
    { intros r X. unfold salter_signer in X. cbv zeta in X. apply bind_ok in X as (n & _ & X). apply bind_ok in X as (k & _ & X). discriminate X. }
    destruct (salter_signer _ _ _ _ _ _ _ _); [destruct (N _ eq_refl)|reflexivity|reflexivity].
Qed.
(*# C92_creator_panics_partial
   Building a creator panics exactly when no salter is given and the salt does not build one; it never returns an error. Creating keys panics exactly when some
   position is given no key: the key index plus the position (modulo 2^16) exceeds 16 bits, or its signer cannot be derived. Full statement: never; see
   C92_creator_panics_refuted.
##
Example C92_case : exists c l, salty_new (zeros 16) (Some (s! "0AAwMTIzNDU2Nzg5YWJjZGVm")) None None None = Ok c /\
  salty_create toy toy_kdf c (Some [s! "A"; s! "J"; s! "Q"]) None None None None (Some 65533) None None true = Ok l /\ len l = 3 /\
  salty_create toy toy_kdf c (Some [s! "A"; s! "J"; s! "Q"]) None None None None (Some 65534) None None true = Panic.
Proof. eexists. eexists. split; [vm_compute; reflexivity|]. split; [vm_compute; reflexivity|]. split; [reflexivity|vm_compute; reflexivity]. Qed.
#*)
Lemma C92_l (cr : crypto) (kdf : bytes -> bytes -> N -> N -> N -> option bytes) (random : bytes) (salt stem tier : option bytes) (salter : option (matter * bytes)) (c : salty)
    (codes : option (list bytes)) (count : option N) (code : option bytes) (pidx ridx kidx : option N) (astem : option bytes) (transferable : option bool) (temp : bool) :
  len random = 16 ->
  (salty_new random salt stem tier salter = Panic <-> salter = None /\ forall s, salter_new random tier None None None salt None <> Ok s) /\
  (salty_new random salt stem tier salter = Panic \/ exists c, salty_new random salt stem tier salter = Ok c) /\
  (salty_create cr kdf c codes count code pidx ridx kidx astem transferable temp = Panic \/ exists l, salty_create cr kdf c codes count code pidx ridx kidx astem transferable temp = Ok l) /\
  (by_default pidx < 2 ^ 16 -> by_default ridx < 2 ^ 16 -> forall st r, stem_used (sc_stem c) astem (by_default pidx) st -> numeral (by_default ridx) r ->
   ((exists l, salty_create cr kdf c codes count code pidx ridx kidx astem transferable temp = Ok l) <->
    forall i cd, nth_error (asked codes count code) i = Some cd -> by_default kidx + N.of_nat i mod 2 ^ 16 < 2 ^ 16 /\
      exists k g, numeral (by_default kidx + N.of_nat i mod 2 ^ 16) k /\
        salter_signer cr kdf (sc_salter c) (Some cd) (Some (match transferable with Some t => t | None => true end)) (Some (st ++ r ++ k)) (Some (sc_tier c)) (Some temp) = Ok g)).
Proof.
  intros L. assert (salter_new random (Some (s! "low")) None None None None None = Ok (Mt (s! "0A") 0 random, s! "low")) as SN.
  { unfold salter_new. cbv zeta. cbn [is_none andb or_else]. change (validate [s! "0A"] (s! "0A")) with (Ok tt). rewrite bind_Ok.
    change (matter_new (Some (s! "0A")) (Some random) None None None) with (matter_of_code_raw (s! "0A") random). destruct (fixed_built (s! "0A") 16 random) as (-> & _); auto. unfold fixed_codes. cbn. tauto. }
  unfold salty_new. rewrite SN. cbn [unwrap]. rewrite !bind_Ok. cbv zeta. split; [|split; [|split]].
  - destruct salter as [s|]; [split; [discriminate|intros ([=] & _)]|]. destruct (salter_new random tier None None None salt None) as [s| |]; cbn [unwrap bind].
    + split; [discriminate|]. intros (_ & N). now destruct (N s).
    + split; auto. intros _. split; auto. discriminate.
    + split; auto. intros _. split; auto. discriminate.
  - destruct salter as [s|]; [right; eexists; reflexivity|]. destruct (salter_new random tier None None None salt None) as [s| |]; cbn [unwrap bind]; [right; eexists; reflexivity|auto|auto].
  - rewrite create_eq. apply create_panic.
  - intros LP LR st r ST NR. rewrite create_eq. assert (st = stem_of (sc_stem c) astem (by_default pidx)) as ->.
    { unfold stem_used, stem_of in *. destruct ST as [(A & ->)|(A & [->|(-> & B)])].
      - destruct (sc_stem c); congruence.
      - now rewrite A.
      - rewrite A. cbn [or_else]. eapply numeral_unique; eauto. apply numeral_hex. now apply small16. }
    assert (r = to_hex (by_default ridx)) as -> by (eapply numeral_unique; eauto; apply numeral_hex; now apply small16).
    change (match transferable with Some t => t | None => true end) with (or_else transferable true). split.
    + intros (l & H) i cd Hc. destruct (create_nth _ _ _ _ _ _ _ _ _ _ _ H) as (LL & NN). destruct (nth_error l i) as [g|] eqn:G.
      * destruct (NN _ _ G) as (cd' & C & O & S). rewrite N.add_0_l in *. assert (cd' = cd) as -> by congruence. split; auto. eexists. exists g. split; [|exact S]. apply numeral_hex. now apply small16.
      * apply nth_error_None in G. assert (nth_error (asked codes count code) i <> None) as X by congruence. apply nth_error_Some in X. lia.
    + intros H. apply create_ok. intros j cd Hc. destruct (H _ _ Hc) as (O & k & g & NK & G). rewrite N.add_0_l. split; auto. exists g.
      assert (k = to_hex (by_default kidx + N.of_nat j mod 2 ^ 16)) as ->; [|exact G]. eapply numeral_unique; eauto. apply numeral_hex. now apply small16.
Qed.

(*# C93_created_as_asked
   A creator returns exactly as many signers as codes were asked for (one of the default code if nothing was asked), in order, each of its code and with a key of the
   same scheme, transferable or not as asked.
##
Example C93_case : asked None (Some 2) (Some (s! "J")) = [s! "J"; s! "J"] /\ asked (Some []) None None = [s! "A"] /\ asked (Some [s! "Q"; s! "A"]) (Some 9) None = [s! "Q"; s! "A"].
Proof. repeat split. Qed.
#*)
Lemma C93a_l (cr : crypto) (kdf : bytes -> bytes -> N -> N -> N -> option bytes) (c : salty) (codes : option (list bytes)) (count : option N) (code : option bytes)
    (pidx ridx kidx : option N) (stem : option bytes) (transferable : option bool) (temp : bool) (l : list signer) :
  correct cr -> sized_kdf kdf -> salty_create cr kdf c codes count code pidx ridx kidx stem transferable temp = Ok l ->
  map (fun g => m_code (g_seed g)) l = asked codes count code /\
  forall g, In g l -> key_code (m_code (g_seed g)) (match transferable with Some t => t | None => true end) (m_code (g_verfer g)).
Proof.
  intros CR SK H. destruct (created _ _ _ _ _ _ _ _ _ _ _ _ _ CR SK H) as (L & B). split.
  - apply nth_error_ext'. intros i. rewrite nth_error_map. destruct (nth_error l i) as [g|] eqn:G; cbn [option_map].
    + destruct (B _ _ G) as (_ & C & _). now rewrite C.
    + apply nth_error_None in G. symmetry. apply nth_error_None. lia.
  - intros g I. apply In_nth_error in I as (i & Hi). apply (B _ _ Hi).
Qed.
(*# C93_random_as_asked
   The same for randomly drawn keys; the seed at each position is the one drawn for it.
##
Example C93_random_case : exists l, randy_create (fun _ => toy) (Some [s! "Q"; s! "A"]) None None (Some false) = Ok l /\ map (fun g => m_code (g_verfer g)) l = [s! "1AAI"; s! "B"].
Proof. eexists. split; [vm_compute; reflexivity|]. reflexivity. Qed.
#*)
Lemma C93b_l (crs : N -> crypto) (codes : option (list bytes)) (count : option N) (code : option bytes) (transferable : option bool) (l : list signer) :
  (forall i, correct (crs i)) -> randy_create crs codes count code transferable = Ok l ->
  map (fun g => m_code (g_seed g)) l = asked codes count code /\
  (forall g, In g l -> key_code (m_code (g_seed g)) (match transferable with Some t => t | None => true end) (m_code (g_verfer g))) /\
  forall i g, nth_error l i = Some g -> exists s d b sg, In (m_code (g_seed g), (s, d, b, sg)) seed_table /\ m_raw (g_seed g) = cr_random (crs (N.of_nat i)) s.
Proof.
  intros CR H. unfold randy_create in H. rewrite asked_codes in H.
  assert (forall a i l, randy_loop crs (or_else transferable true) i a = Ok l -> map (fun g => m_code (g_seed g)) l = a /\
    (forall g, In g l -> key_code (m_code (g_seed g)) (or_else transferable true) (m_code (g_verfer g))) /\
    forall j g, nth_error l j = Some g -> exists s d b sg, In (m_code (g_seed g), (s, d, b, sg)) seed_table /\ m_raw (g_seed g) = cr_random (crs (i + N.of_nat j)) s) as G.
  { clear l H. induction a as [|x a IH]; intros i l H; cbn [randy_loop] in H.
    - injection H as <-. split; auto. split; [intros g []|]. intros [|j] g [=].
    - apply bind_ok in H as (g0 & G & H). apply bind_ok in H as (l' & L & H). injection H as <-. destruct (IH _ _ L) as (A & B & C).
      unfold unwrap in G. destruct (signer_new (crs i) _ _ _ _ _ _) as [g1| |] eqn:SG; try discriminate. injection G as <-. destruct (C67_l _ _ _ _ _ _ _ _ (CR i) SG) as (KC & _).
      assert (In x seed_codes) as SX. { unfold signer_new in SG. cbv zeta in SG. cbn [is_none andb or_else] in SG. apply bind_ok in SG as (m & M & _). apply bind_ok in M as ([] & V & _). now apply validated in V. }
      destruct (seed_row _ SX) as (s & d & b & sg & Row). destruct (draws _ (CR i) s) as (DL & pk & PK).
      destruct (C90b_l (crs i) (Some (or_else transferable true)) (Some x) (cr_random (crs i) s) s d b sg pk (CR i)) as (_ & _ & _ & _ & _ & _ & g' & G' & R'); auto; [lia|now rewrite take_all by lia|].
      assert (g' = g1) as -> by congruence. assert (m_code (g_seed g1) = x) as MC.
      { clear -SG SX. unfold signer_new in SG. cbv zeta in SG. cbn [is_none andb or_else] in SG. apply bind_ok in SG as (m & M & SG). apply bind_ok in SG as (v & _ & SG). injection SG as <-. cbn [g_seed].
        apply bind_ok in M as (_ & _ & M). apply bind_ok in M as (r & _ & M). change (matter_of_code_raw x r = Ok m) in M. destruct (fixed_known _ _ (seed_fixed _ SX)) as (z & Hz & Ev & N).
        rewrite (construct_fixed _ z _ Hz Ev) in M. destruct (len r <? _); [discriminate|]. now injection M as <-. }
      split; [cbn [map]; now rewrite MC, A|]. split.
      + intros g [<-|I]; auto.
      + intros [|j] g Hj; cbn [nth_error] in Hj.
        * injection Hj as <-. exists s, d, b, sg. rewrite MC, N.add_0_r. auto.
        * replace (i + N.of_nat (S j)) with (i + 1 + N.of_nat j) by lia. auto. }
  destruct (G _ _ _ H) as (A & B & C). split; auto.
Qed.
