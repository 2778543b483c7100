(** Property C117: derived keys in the release profile. Theorem statements only; the proofs are in [ReleaseKeysThms]. *)
From Coq Require Import String.
From Coq Require Import NArith ZArith QArith Bool List.
From Verif Require Import Base Tables Matter Prims Signer Release Spec SpecPrims SpecSigner ReleaseKeysThms BaseFacts.
Import ListNotations.
Open Scope N_scope.

(** False as stated: in a release build the key index wraps around at 2^16, so the second key from key index 65535 is the first key from key index 0, whatever the creator. (A debug build panics.) *)
Theorem C117_key_indices_refuted :
  forall (cr : crypto) (kdf : bytes -> bytes -> N -> N -> N -> option bytes) (c : salty) (pidx ridx : option N) (stem : option bytes) (transferable : option bool) (temp : bool) (l l' : list signer),
  release_create cr kdf c None (Some 2) None pidx ridx (Some 65535) stem transferable temp = Ok l ->
  release_create cr kdf c None None None pidx ridx (Some 0) stem transferable temp = Ok l' ->
  exists g, nth_error l 1 = Some g /\ nth_error l' 0 = Some g.
Proof. exact C117_no_l. Qed.
Print Assumptions C117_key_indices_refuted.

Example C117_refuted_case : exists c l l', salty_new (zeros 16) None None None None = Ok c /\ release_create toy toy_kdf c None (Some 2) None None None (Some 65535) None None false = Ok l /\
  release_create toy toy_kdf c None None None None None (Some 0) None None false = Ok l' /\ nth_error l 1 = nth_error l' 0 /\ l' <> [] /\
  salty_create toy toy_kdf c None (Some 2) None None None (Some 65535) None None false = Panic.
Proof. eexists. eexists. eexists. do 4 (split; [vm_compute; reflexivity|]). split; [discriminate|vm_compute; reflexivity]. Qed.

(** The keys a creator makes in a release build are stretched from its stem, the numeral of the rotation index and the numeral of key index plus position modulo 2^16, each with the code asked for.
   So keys at positions of a batch less than 2^16 apart, and keys of two batches of one rotation whose key indices plus positions differ modulo 2^16, have different paths. Where a debug build does not panic the keys are the same.
   Missing for the full statement: indices equal modulo 2^16. *)
Theorem C117_key_indices_partial :
  forall (cr : crypto) (kdf : bytes -> bytes -> N -> N -> N -> option bytes) (c : salty) (codes codes' : option (list bytes)) (count count' : option N) (code code' : option bytes)
    (pidx ridx kidx kidx' : option N) (stem : option bytes) (transferable transferable' : option bool) (temp : bool) (l l' : list signer),
  correct cr -> sized_kdf kdf -> by_default pidx < 2 ^ 16 -> by_default ridx < 2 ^ 16 ->
  release_create cr kdf c codes count code pidx ridx kidx stem transferable temp = Ok l ->
  let made path g := stretched kdf (m_raw (fst (sc_salter c))) (tier_used temp (sc_tier c)) path g in
  len l = len (asked codes count code) /\
  (forall i g, nth_error l i = Some g -> nth_error (asked codes count code) i = Some (m_code (g_seed g)) /\ exists st r k, stem_used (sc_stem c) stem (by_default pidx) st /\ numeral (by_default ridx) r /\
     numeral ((by_default kidx + N.of_nat i) mod 2 ^ 16) k /\ made (st ++ r ++ k) g) /\
  (release_create cr kdf c codes' count' code' pidx ridx kidx' stem transferable' temp = Ok l' ->
   forall i j g g', nth_error l i = Some g -> nth_error l' j = Some g' -> (by_default kidx + N.of_nat i) mod 2 ^ 16 <> (by_default kidx' + N.of_nat j) mod 2 ^ 16 ->
   exists p q, p <> q /\ made p g /\ made q g') /\
  (salty_create cr kdf c codes count code pidx ridx kidx stem transferable temp <> Panic -> salty_create cr kdf c codes count code pidx ridx kidx stem transferable temp = Ok l).
Proof. exact C117_partial_l. Qed.
Print Assumptions C117_key_indices_partial.

Example C117_partial_case : exists c l, salty_new (zeros 16) None (Some (s! "st")) None None = Ok c /\
  release_create toy toy_kdf c None (Some 2) None None (Some 31) (Some 65535) None None false = Ok l /\ map (fun g => take 9 (m_raw (g_seed g))) l = [x02 :: s! "st1fffff"; x02 :: s! "st1f0" ++ zeros 3].
Proof. eexists. eexists. split; [vm_compute; reflexivity|]. split; vm_compute; reflexivity. Qed.

(** A batch of signers derived by a salter in a release build: as many as asked, the key at each position stretched from the path followed by the numeral of start plus position modulo 2^64. Positions less than 2^64
   apart have different paths. Where a debug build does not panic the result is the same. *)
Theorem C117_batches :
  forall (cr : crypto) (kdf : bytes -> bytes -> N -> N -> N -> option bytes) (self : matter * bytes) (count start : option N) (path code : option bytes)
    (transferable : option bool) (tier : option bytes) (temp : option bool),
  let used := tier_used (match temp with Some t => t | None => false end) (match tier with Some t => t | None => snd self end) in
  let from := match path with Some p => p | None => [] end in
  let first := match start with Some n => n | None => 0 end in
  (forall l, correct cr -> sized_kdf kdf -> release_signers cr kdf self count start path code transferable tier temp = Ok l ->
   len l = match count with Some n => n | None => 1 end /\
   (forall i g, nth_error l i = Some g -> exists h, numeral ((first + N.of_nat i) mod 2 ^ 64) h /\ stretched kdf (m_raw (fst self)) used (from ++ h) g) /\
   (forall i j g g', i <> j -> N.of_nat i < 2 ^ 64 -> N.of_nat j < 2 ^ 64 -> nth_error l i = Some g -> nth_error l j = Some g' ->
    exists p q, p <> q /\ stretched kdf (m_raw (fst self)) used p g /\ stretched kdf (m_raw (fst self)) used q g')) /\
  (salter_signers cr kdf self count start path code transferable tier temp <> Panic ->
   release_signers cr kdf self count start path code transferable tier temp = salter_signers cr kdf self count start path code transferable tier temp).
Proof. exact C117_batches_l. Qed.
Print Assumptions C117_batches.

Example C117_batches_case : exists l, release_signers toy toy_kdf (Mt (s! "0A") 0 (zeros 16), s! "low") (Some 2) (Some 18446744073709551615) (Some (s! "ab")) None None None None = Ok l /\
  map (fun g => take 5 (m_raw (g_seed g))) l = [x02 :: s! "abff"; x02 :: s! "ab0" ++ [x00]] /\
  salter_signers toy toy_kdf (Mt (s! "0A") 0 (zeros 16), s! "low") (Some 2) (Some 18446744073709551615) (Some (s! "ab")) None None None None = Panic.
Proof. eexists. split; [vm_compute; reflexivity|]. split; vm_compute; reflexivity. Qed.
