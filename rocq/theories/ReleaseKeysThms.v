(** Proofs of the properties of derived keys in the release profile. *)
From Coq Require Import String.
From Coq Require Import NArith List Bool Lia.
From Verif Require Import Base Tables Matter Prims Signer Release Spec SpecPrims SpecSigner BaseFacts PrimsThms SignerThms CreatorThms ReleaseFacts.
Import ListNotations.
Open Scope N_scope.

Lemma rsigners_nth cr kdf self start path code t tier temp n : forall i l, signers_loop_wrapping cr kdf n i self start path code t tier temp = Ok l ->
  length l = n /\ forall j g, nth_error l j = Some g -> salter_signer cr kdf self code t (Some (path ++ to_hex ((i + N.of_nat j + start) mod 2 ^ 64))) tier temp = Ok g.
Proof.
  induction n as [|n IH]; intros i l H; cbn [signers_loop_wrapping] in H.
  - injection H as <-. split; auto. intros j g Hj. now destruct j.
  - apply bind_ok in H as (g0 & G & H). apply bind_ok in H as (l' & L & H). injection H as <-. destruct (IH _ _ L) as (A & B).
    split; [cbn; now rewrite A|]. intros [|j] g Hj; cbn [nth_error] in Hj.
    + injection Hj as <-. rewrite N.add_0_r. exact G.
    + replace (i + N.of_nat (S j) + start) with (i + 1 + N.of_nat j + start) by lia. now apply B.
Qed.
Lemma rcreate_nth cr kdf self stem ridx kidx t temp codes : forall i l, create_loop_wrapping cr kdf self stem ridx kidx t temp i codes = Ok l ->
  length l = length codes /\ forall j g, nth_error l j = Some g -> exists c, nth_error codes j = Some c /\
    salter_signer cr kdf (sc_salter self) (Some c) (Some t) (Some (stem ++ to_hex ridx ++ to_hex ((kidx + (i + N.of_nat j) mod 2 ^ 16) mod 2 ^ 16))) (Some (sc_tier self)) (Some temp) = Ok g.
Proof.
  induction codes as [|c codes IH]; intros i l H; cbn [create_loop_wrapping] in H.
  - injection H as <-. split; auto. intros j g Hj. now destruct j.
  - cbv zeta in H. apply bind_ok in H as (g0 & G & H). apply bind_ok in H as (l' & L & H). injection H as <-.
    destruct (IH _ _ L) as (A & B). split; [cbn; now rewrite A|]. intros [|j] g Hj; cbn [nth_error] in Hj.
    + injection Hj as <-. exists c. rewrite N.add_0_r. split; auto. unfold unwrap in G. destruct (salter_signer _ _ _ _ _ _ _ _); congruence.
    + destruct (B _ _ Hj) as (c' & C1 & C2). exists c'. replace (i + N.of_nat (S j)) with (i + 1 + N.of_nat j) by lia. auto.
Qed.
Lemma rcreate_eq cr kdf c codes count code pidx ridx kidx stem t temp : release_create cr kdf c codes count code pidx ridx kidx stem t temp =
  create_loop_wrapping cr kdf c (stem_of (sc_stem c) stem (by_default pidx)) (by_default ridx) (by_default kidx) (or_else t true) temp 0 (asked codes count code).
Proof. unfold release_create, stem_of. cbv zeta. rewrite asked_codes. destruct (sc_stem c); reflexivity. Qed.
Lemma agree_signers_loop cr kdf self start path code t tier temp n : forall i,
  agree (signers_loop cr kdf n i self start path code t tier temp) (signers_loop_wrapping cr kdf n i self start path code t tier temp).
Proof.
  induction n as [|n IH]; intros i; cbn [signers_loop signers_loop_wrapping]; [apply agree_refl|]. destruct (u64_max <? i + start) eqn:O; [intros Q; now contradiction Q|].
  rewrite N.mod_small by (apply N.ltb_ge in O; unfold u64_max in O; change (2 ^ 64) with 18446744073709551616; lia).
  apply agree_bind; [apply agree_refl|]. intros g _. apply agree_bind; [apply IH|]. intros l _. apply agree_refl.
Qed.
Lemma agree_create_loop cr kdf self stem ridx kidx t temp codes : forall i,
  agree (create_loop cr kdf self stem ridx kidx t temp i codes) (create_loop_wrapping cr kdf self stem ridx kidx t temp i codes).
Proof.
  induction codes as [|c codes IH]; intros i; cbn [create_loop create_loop_wrapping]; [apply agree_refl|]. cbv zeta. destruct (2 ^ 16 <=? kidx + i mod 2 ^ 16) eqn:O; [intros Q; now contradiction Q|].
  apply N.leb_gt in O. rewrite (N.mod_small (kidx + i mod 2 ^ 16)) by exact O.
  apply agree_bind; [apply agree_refl|]. intros g _. apply agree_bind; [apply IH|]. intros l _. apply agree_refl.
Qed.

(*# C117_key_indices_refuted
   False as stated: in a release build the key index wraps around at 2^16, so the second key from key index 65535 is the first key from key index 0, whatever the creator. (A debug build panics.)
##
Example C117_refuted_case : exists c l l', salty_new (zeros 16) None None None None = Ok c /\ release_create toy toy_kdf c None (Some 2) None None None (Some 65535) None None false = Ok l /\
  release_create toy toy_kdf c None None None None None (Some 0) None None false = Ok l' /\ nth_error l 1 = nth_error l' 0 /\ l' <> [] /\
  salty_create toy toy_kdf c None (Some 2) None None None (Some 65535) None None false = Panic.
Proof. eexists. eexists. eexists. do 4 (split; [vm_compute; reflexivity|]). split; [discriminate|vm_compute; reflexivity]. Qed.
#*)
Lemma C117_no_l (cr : crypto) (kdf : bytes -> bytes -> N -> N -> N -> option bytes) (c : salty) (pidx ridx : option N) (stem : option bytes) (transferable : option bool) (temp : bool) (l l' : list signer) :
  release_create cr kdf c None (Some 2) None pidx ridx (Some 65535) stem transferable temp = Ok l ->
  release_create cr kdf c None None None pidx ridx (Some 0) stem transferable temp = Ok l' ->
  exists g, nth_error l 1 = Some g /\ nth_error l' 0 = Some g.
Proof.
  intros H H'. rewrite rcreate_eq in H, H'. destruct (rcreate_nth _ _ _ _ _ _ _ _ _ _ _ H) as (A & B). destruct (rcreate_nth _ _ _ _ _ _ _ _ _ _ _ H') as (A' & B').
  destruct l as [|g0 [|g [|]]]; try discriminate. destruct l' as [|g' [|]]; try discriminate. exists g. split; [reflexivity|]. cbn [nth_error]. f_equal.
  destruct (B 1%nat g eq_refl) as (c1 & C1 & G). destruct (B' 0%nat g' eq_refl) as (c2 & C2 & G'). cbn in C1, C2. injection C1 as <-. injection C2 as <-.
  change ((by_default (Some 65535) + (0 + N.of_nat 1) mod 2 ^ 16) mod 2 ^ 16) with 0 in G. change ((by_default (Some 0) + (0 + N.of_nat 0) mod 2 ^ 16) mod 2 ^ 16) with 0 in G'. congruence.
Qed.
(*# C117_key_indices_partial
   The keys a creator makes in a release build are stretched from its stem, the numeral of the rotation index and the numeral of key index plus position modulo 2^16, each with the code asked for.
   So keys at positions of a batch less than 2^16 apart, and keys of two batches of one rotation whose key indices plus positions differ modulo 2^16, have different paths. Where a debug build does not panic the keys are the same.
   Missing for the full statement: indices equal modulo 2^16.
##
Example C117_partial_case : exists c l, salty_new (zeros 16) None (Some (s! "st")) None None = Ok c /\
  release_create toy toy_kdf c None (Some 2) None None (Some 31) (Some 65535) None None false = Ok l /\ map (fun g => take 9 (m_raw (g_seed g))) l = [x02 :: s! "st1fffff"; x02 :: s! "st1f0" ++ zeros 3].
Proof. eexists. eexists. split; [vm_compute; reflexivity|]. split; vm_compute; reflexivity. Qed.
#*)
Lemma C117_partial_l (cr : crypto) (kdf : bytes -> bytes -> N -> N -> N -> option bytes) (c : salty) (codes codes' : option (list bytes)) (count count' : option N) (code code' : option bytes)
    (pidx ridx kidx kidx' : option N) (stem : option bytes) (transferable transferable' : option bool) (temp : bool) (l l' : list signer) :
  correct cr -> sized_kdf kdf -> by_default pidx < 2 ^ 16 -> by_default ridx < 2 ^ 16 ->
  release_create cr kdf c codes count code pidx ridx kidx stem transferable temp = Ok l ->
  let made path g := stretched kdf (m_raw (fst (sc_salter c))) (tier_used temp (sc_tier c)) path g in
  len l = len (asked codes count code) /\
  (forall i g, nth_error l i = Some g -> nth_error (asked codes count code) i = Some (m_code (g_seed g)) /\ exists st r k, stem_used (sc_stem c) stem (by_default pidx) st /\ numeral (by_default ridx) r /\
     numeral ((by_default kidx + N.of_nat i) mod 2 ^ 16) k /\ made (st ++ r ++ k) g) /\
  (release_create cr kdf c codes' count' code' pidx ridx kidx' stem transferable' temp = Ok l' ->
   forall i j g g', nth_error l i = Some g -> nth_error l' j = Some g' -> (by_default kidx + N.of_nat i) mod 2 ^ 16 <> (by_default kidx' + N.of_nat j) mod 2 ^ 16 ->
   exists p q, p <> q /\ made p g /\ made q g') /\
  (salty_create cr kdf c codes count code pidx ridx kidx stem transferable temp <> Panic -> salty_create cr kdf c codes count code pidx ridx kidx stem transferable temp = Ok l).
Proof.
  intros CR SK P RR H made.
  assert (forall codes count code kidx t l, release_create cr kdf c codes count code pidx ridx kidx stem t temp = Ok l -> length l = length (asked codes count code) /\
    forall i g, nth_error l i = Some g -> nth_error (asked codes count code) i = Some (m_code (g_seed g)) /\
      made (stem_of (sc_stem c) stem (by_default pidx) ++ to_hex (by_default ridx) ++ to_hex ((by_default kidx + N.of_nat i) mod 2 ^ 16)) g) as K.
  { clear - CR SK made. intros codes count code kidx t l H. rewrite rcreate_eq in H. destruct (rcreate_nth _ _ _ _ _ _ _ _ _ _ _ H) as (A & B). split; [exact A|]. intros i g Hi. destruct (B _ _ Hi) as (cd & C & G).
    rewrite N.add_0_l, N.add_mod_idemp_r in G by discriminate. destruct (stretched_signer _ _ _ _ _ _ _ _ _ CR SK G) as (S & SC & _). cbn [or_else] in *. rewrite SC. auto. }
  assert (forall n, n mod 2 ^ 16 <= u128_max) as U by (intros n; apply small16, N.mod_lt; discriminate).
  destruct (K _ _ _ _ _ _ H) as (A & B). split; [unfold len; now rewrite A|]. split; [|split].
  - intros i g Hi. destruct (B _ _ Hi) as (C & S). split; [exact C|]. eexists. eexists. eexists. split; [apply stem_ok; now apply small16|]. split; [apply numeral_hex; now apply small16|].
    split; [apply numeral_hex, U|exact S].
  - intros H' i j g g' Hi Hj N. destruct (K _ _ _ _ _ _ H') as (_ & B'). destruct (B _ _ Hi) as (_ & S), (B' _ _ Hj) as (_ & S'). eexists. eexists. split; [|split; [exact S|exact S']].
    intros E. apply app_inv_head in E. apply app_inv_head in E. pose proof (numeral_hex _ (U (by_default kidx + N.of_nat i))) as N1. rewrite E in N1.
    apply N. exact (numeral_inj _ _ _ N1 (numeral_hex _ (U (by_default kidx' + N.of_nat j)))).
  - intros N. rewrite <- H. rewrite create_eq in *. rewrite rcreate_eq. symmetry. now apply agree_create_loop.
Qed.
(*# C117_batches
   A batch of signers derived by a salter in a release build: as many as asked, the key at each position stretched from the path followed by the numeral of start plus position modulo 2^64. Positions less than 2^64
   apart have different paths. Where a debug build does not panic the result is the same.
##
Example C117_batches_case : exists l, release_signers toy toy_kdf (Mt (s! "0A") 0 (zeros 16), s! "low") (Some 2) (Some 18446744073709551615) (Some (s! "ab")) None None None None = Ok l /\
  map (fun g => take 5 (m_raw (g_seed g))) l = [x02 :: s! "abff"; x02 :: s! "ab0" ++ [x00]] /\
  salter_signers toy toy_kdf (Mt (s! "0A") 0 (zeros 16), s! "low") (Some 2) (Some 18446744073709551615) (Some (s! "ab")) None None None None = Panic.
Proof. eexists. split; [vm_compute; reflexivity|]. split; vm_compute; reflexivity. Qed.
#*)
Lemma C117_batches_l (cr : crypto) (kdf : bytes -> bytes -> N -> N -> N -> option bytes) (self : matter * bytes) (count start : option N) (path code : option bytes)
    (transferable : option bool) (tier : option bytes) (temp : option bool) :
  let used := tier_used (match temp with Some t => t | None => false end) (match tier with Some t => t | None => snd self end) in
  let from := match path with Some p => p | None => [] end in
  let first := match start with Some n => n | None => 0 end in
  (forall l, correct cr -> sized_kdf kdf -> release_signers cr kdf self count start path code transferable tier temp = Ok l ->
   len l = match count with Some n => n | None => 1 end /\
   (forall i g, nth_error l i = Some g -> exists h, numeral ((first + N.of_nat i) mod 2 ^ 64) h /\ stretched kdf (m_raw (fst self)) used (from ++ h) g) /\
   (forall i j g g', i <> j -> N.of_nat i < 2 ^ 64 -> N.of_nat j < 2 ^ 64 -> nth_error l i = Some g -> nth_error l j = Some g' ->
    exists p q, p <> q /\ stretched kdf (m_raw (fst self)) used p g /\ stretched kdf (m_raw (fst self)) used q g')) /\
  (salter_signers cr kdf self count start path code transferable tier temp <> Panic ->
   release_signers cr kdf self count start path code transferable tier temp = salter_signers cr kdf self count start path code transferable tier temp).
Proof.
  intros used from first. split; [|apply agree_signers_loop]. intros l CR SK H. unfold release_signers in H. destruct (rsigners_nth _ _ _ _ _ _ _ _ _ _ _ _ H) as (A & B).
  assert (forall i g, nth_error l i = Some g -> stretched kdf (m_raw (fst self)) used (from ++ to_hex ((first + N.of_nat i) mod 2 ^ 64)) g) as ST.
  { intros i g Hi. pose proof (B _ _ Hi) as G. change (or_else start 0) with first in *. rewrite N.add_0_l in *. rewrite (N.add_comm _ first) in G.
    destruct (stretched_signer _ _ _ _ _ _ _ _ _ CR SK G) as (S & _). exact S. }
  assert (forall n, n mod 2 ^ 64 <= u128_max) as U. { intros n. pose proof (N.mod_lt n (2 ^ 64) ltac:(discriminate)) as Q. assert (2 ^ 64 <= u128_max) by (vm_compute; discriminate). lia. }
  split; [|split].
  - unfold len. rewrite A, N2Nat.id. reflexivity.
  - intros i g Hi. exists (to_hex ((first + N.of_nat i) mod 2 ^ 64)). split; [apply numeral_hex, U|now apply ST].
  - intros i j g g' N LI LJ Hi Hj. eexists. eexists. split; [|split; [exact (ST _ _ Hi)|exact (ST _ _ Hj)]].
    intros E. apply app_inv_head in E. pose proof (numeral_hex _ (U (first + N.of_nat i))) as N1. rewrite E in N1. pose proof (numeral_inj _ _ _ N1 (numeral_hex _ (U (first + N.of_nat j)))) as Q.
    clear - Q N LI LJ. change (2 ^ 64) with 18446744073709551616 in *.
    pose proof (N.div_mod (first + N.of_nat i) 18446744073709551616 ltac:(discriminate)). pose proof (N.div_mod (first + N.of_nat j) 18446744073709551616 ltac:(discriminate)). rewrite Q in *.
    set (a := (first + N.of_nat i) / 18446744073709551616) in *. set (b := (first + N.of_nat j) / 18446744073709551616) in *. clearbody a b. lia.
Qed.
