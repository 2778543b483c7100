(** Properties C70, C71, C91-C93. Theorem statements only; the proofs are in [CreatorThms]. *)
From Coq Require Import String.
From Coq Require Import NArith ZArith QArith Bool List.
From Verif Require Import Base Tables Matter Indexer Prims Signer Spec SpecPrims SpecSigner SignerThms CreatorThms BaseFacts.
Import ListNotations.
Open Scope N_scope.

(** A batch of derived signers has as many as asked (one by default). The key at each position is stretched from the path followed by the hexadecimal numeral of start
   plus position, at the tier asked for or else the salter's, or at the lowest if temporary. Different positions have different paths. *)
Theorem C70_batch :
  forall (cr : crypto) (kdf : bytes -> bytes -> N -> N -> N -> option bytes) (self : matter * bytes) (count start : option N) (path code : option bytes)
    (transferable : option bool) (tier : option bytes) (temp : option bool) (l : list signer),
  correct cr -> sized_kdf kdf -> salter_signers cr kdf self count start path code transferable tier temp = Ok l ->
  let used := tier_used (match temp with Some t => t | None => false end) (match tier with Some t => t | None => snd self end) in
  let from := match path with Some p => p | None => [] end in
  let first := match start with Some n => n | None => 0 end in
  len l = match count with Some n => n | None => 1 end /\
  (forall i g, nth_error l i = Some g -> exists h, numeral (first + N.of_nat i) h /\ stretched kdf (m_raw (fst self)) used (from ++ h) g) /\
  (forall i j g g', i <> j -> nth_error l i = Some g -> nth_error l j = Some g' ->
   exists p q, p <> q /\ stretched kdf (m_raw (fst self)) used p g /\ stretched kdf (m_raw (fst self)) used q g').
Proof. exact C70a_l. Qed.
Print Assumptions C70_batch.

Example C70_batch_case : exists l, salter_signers toy toy_kdf (Mt (s! "0A") 0 (zeros 16), s! "low") (Some 3) (Some 15) (Some (s! "ab")) None None None None = Ok l /\
  map (fun g => take 5 (m_raw (g_seed g))) l = [x02 :: s! "abf" ++ [x00]; x02 :: s! "ab10"; x02 :: s! "ab11"].
Proof. eexists. split; [vm_compute; reflexivity|]. vm_compute. reflexivity. Qed.
Example C70_premises : correct toy /\ sized_kdf toy_kdf.
Proof. split; [exact toy_correct|exact toy_kdf_sized]. Qed.

(** A creator stretches the key at each position from its stem, the numeral of the rotation index and the numeral of the key index plus the position (modulo 2^16).
   Different positions below 2^16 have different paths. *)
Theorem C70_creator :
  forall (cr : crypto) (kdf : bytes -> bytes -> N -> N -> N -> option bytes) (c : salty) (codes : option (list bytes)) (count : option N) (code : option bytes)
    (pidx ridx kidx : option N) (stem : option bytes) (transferable : option bool) (temp : bool) (l : list signer),
  correct cr -> sized_kdf kdf -> by_default pidx < 2 ^ 16 -> by_default ridx < 2 ^ 16 ->
  salty_create cr kdf c codes count code pidx ridx kidx stem transferable temp = Ok l ->
  let salt := m_raw (fst (sc_salter c)) in
  (forall i g, nth_error l i = Some g -> exists st r k, stem_used (sc_stem c) stem (by_default pidx) st /\ numeral (by_default ridx) r /\
     numeral (by_default kidx + N.of_nat i mod 2 ^ 16) k /\ stretched kdf salt (tier_used temp (sc_tier c)) (st ++ r ++ k) g) /\
  (forall i j g g', i <> j -> N.of_nat i < 2 ^ 16 -> N.of_nat j < 2 ^ 16 -> nth_error l i = Some g -> nth_error l j = Some g' ->
   exists p q, p <> q /\ stretched kdf salt (tier_used temp (sc_tier c)) p g /\ stretched kdf salt (tier_used temp (sc_tier c)) q g').
Proof. exact C70b_l. Qed.
Print Assumptions C70_creator.

Example C70_creator_case : exists c l, salty_new (zeros 16) None (Some (s! "st")) None None = Ok c /\
  salty_create toy toy_kdf c None (Some 2) None None (Some 31) (Some 9) None None false = Ok l /\ map (fun g => take 6 (m_raw (g_seed g))) l = [x02 :: s! "st1f9"; x02 :: s! "st1fa"].
Proof. eexists. eexists. split; [vm_compute; reflexivity|]. split; [vm_compute; reflexivity|]. vm_compute. reflexivity. Qed.

(** False as stated between rotations: whatever the creator, the keys of rotation 1 from key index 17 are those of rotation 17 from key index 1. *)
Theorem C70_rotations_refuted :
  (forall cr kdf c stem transferable temp pidx, salty_create cr kdf c None None None pidx (Some 1) (Some 17) stem transferable temp =
    salty_create cr kdf c None None None pidx (Some 17) (Some 1) stem transferable temp) /\
  exists c l, salty_new (zeros 16) None None None None = Ok c /\ salty_create toy toy_kdf c None None None None (Some 1) (Some 17) None None false = Ok l /\ l <> [].
Proof. exact C70_no_l. Qed.
Print Assumptions C70_rotations_refuted.

(** What holds: two keys of one creator (same stem) at a different rotation index or key index (plus position) have different paths if the numerals of the rotation
   indices, or those of the key indices, have the same number of digits. Full statement: without that condition; see C70_rotations_refuted. *)
Theorem C70_rotations_partial :
  forall (cr : crypto) (kdf : bytes -> bytes -> N -> N -> N -> option bytes) (c : salty) (codes codes' : option (list bytes)) (count count' : option N) (code code' : option bytes)
    (pidx ridx ridx' kidx kidx' : option N) (stem : option bytes) (transferable transferable' : option bool) (temp : bool) (l l' : list signer) (i j : nat) (g g' : signer) (r r' k k' : bytes),
  correct cr -> sized_kdf kdf -> 
  salty_create cr kdf c codes count code pidx ridx kidx stem transferable temp = Ok l -> nth_error l i = Some g ->
  salty_create cr kdf c codes' count' code' pidx ridx' kidx' stem transferable' temp = Ok l' -> nth_error l' j = Some g' ->
  by_default ridx < 2 ^ 16 -> by_default ridx' < 2 ^ 16 ->
  numeral (by_default ridx) r -> numeral (by_default ridx') r' ->
  numeral (by_default kidx + N.of_nat i mod 2 ^ 16) k -> numeral (by_default kidx' + N.of_nat j mod 2 ^ 16) k' -> len r = len r' \/ len k = len k' ->
  by_default ridx <> by_default ridx' \/ by_default kidx + N.of_nat i mod 2 ^ 16 <> by_default kidx' + N.of_nat j mod 2 ^ 16 ->
  exists p q, p <> q /\ stretched kdf (m_raw (fst (sc_salter c))) (tier_used temp (sc_tier c)) p g /\ stretched kdf (m_raw (fst (sc_salter c))) (tier_used temp (sc_tier c)) q g'.
Proof. exact C70c_l. Qed.
Print Assumptions C70_rotations_partial.

Example C70_digits : numeral 17 (s! "11") /\ numeral 31 (s! "1f").
Proof. split; apply numeral_hex; vm_compute; discriminate. Qed.

(** False as stated for very long batches: a creator asked for more than 2^16 keys gives position 2^16 the key of position 0. *)
Theorem C70_long_batch_refuted :
  exists c codes l g, salty_new (zeros 16) None None None None = Ok c /\ salty_create toy toy_kdf c (Some codes) None None None None None None None false = Ok l /\
  nth_error l 0 = Some g /\ nth_error l (N.to_nat (2 ^ 16)) = Some g.
Proof. exact C70_long_l. Qed.
Print Assumptions C70_long_batch_refuted.

(** False as stated: a creator with a stem of its own gives all accounts the same keys, and one without gives account 1 in rotation 17 the keys of account 17 in
   rotation 1. *)
Theorem C91_account_with_stem_refuted :
  (forall cr kdf c codes count code pidx pidx' ridx kidx stem transferable temp, sc_stem c <> [] ->
    salty_create cr kdf c codes count code pidx ridx kidx stem transferable temp = salty_create cr kdf c codes count code pidx' ridx kidx stem transferable temp) /\
  (exists c l, salty_new (zeros 16) None (Some (s! "st")) None None = Ok c /\ sc_stem c <> [] /\ salty_create toy toy_kdf c None None None (Some 1) None None None None false = Ok l /\ l <> []) /\
  (forall cr kdf c codes count code kidx transferable temp, sc_stem c = [] ->
    salty_create cr kdf c codes count code (Some 1) (Some 17) kidx None transferable temp = salty_create cr kdf c codes count code (Some 17) (Some 1) kidx None transferable temp).
Proof. exact C91_no_l. Qed.
Print Assumptions C91_account_with_stem_refuted.

(** What holds: without any stem, different accounts have different paths at the same rotation index and key index. Full statement: with stems, and for any rotation
   and key indices; see C91_account_with_stem_refuted. *)
Theorem C91_accounts_partial :
  forall (cr : crypto) (kdf : bytes -> bytes -> N -> N -> N -> option bytes) (c : salty) (codes codes' : option (list bytes)) (count count' : option N) (code code' : option bytes)
    (pidx pidx' ridx kidx : option N) (transferable transferable' : option bool) (temp : bool) (l l' : list signer) (i : nat) (g g' : signer),
  correct cr -> sized_kdf kdf -> sc_stem c = [] -> by_default pidx < 2 ^ 16 -> by_default pidx' < 2 ^ 16 -> by_default pidx <> by_default pidx' ->
  salty_create cr kdf c codes count code pidx ridx kidx None transferable temp = Ok l -> nth_error l i = Some g ->
  salty_create cr kdf c codes' count' code' pidx' ridx kidx None transferable' temp = Ok l' -> nth_error l' i = Some g' ->
  exists p q, p <> q /\ stretched kdf (m_raw (fst (sc_salter c))) (tier_used temp (sc_tier c)) p g /\ stretched kdf (m_raw (fst (sc_salter c))) (tier_used temp (sc_tier c)) q g'.
Proof. exact C91_l. Qed.
Print Assumptions C91_accounts_partial.

Example C91_case : exists c l, salty_new (zeros 16) None None None None = Ok c /\ sc_stem c = [] /\ salty_create toy toy_kdf c None None None (Some 171) None None None None false = Ok l /\
  map (fun g => take 5 (m_raw (g_seed g))) l = [x02 :: s! "ab00"].
Proof. eexists. eexists. split; [vm_compute; reflexivity|]. split; [reflexivity|]. split; [vm_compute; reflexivity|]. vm_compute. reflexivity. Qed.

(** Exactly when two keys of one creator with the same stem share a path: when the hexadecimal digits of rotation index and key index (plus position), written one
   after the other, are the same in number and value. Then the two keys have the same seed, and otherwise they are stretched from different paths. *)
Theorem C70_rotations_exactly :
  forall (cr : crypto) (kdf : bytes -> bytes -> N -> N -> N -> option bytes) (c : salty) (codes codes' : option (list bytes)) (count count' : option N) (code code' : option bytes)
    (pidx pidx' ridx ridx' kidx kidx' : option N) (stem stem' : option bytes) (transferable transferable' : option bool) (temp : bool) (l l' : list signer) (i j : nat) (g g' : signer) (st : bytes),
  correct cr -> sized_kdf kdf ->
  salty_create cr kdf c codes count code pidx ridx kidx stem transferable temp = Ok l -> nth_error l i = Some g ->
  salty_create cr kdf c codes' count' code' pidx' ridx' kidx' stem' transferable' temp = Ok l' -> nth_error l' j = Some g' ->
  by_default pidx < 2 ^ 16 -> by_default pidx' < 2 ^ 16 -> by_default ridx < 2 ^ 16 -> by_default ridx' < 2 ^ 16 ->
  stem_used (sc_stem c) stem (by_default pidx) st -> stem_used (sc_stem c) stem' (by_default pidx') st ->
  let digits := joined [by_default ridx; by_default kidx + N.of_nat i mod 2 ^ 16] in
  let digits' := joined [by_default ridx'; by_default kidx' + N.of_nat j mod 2 ^ 16] in
  let path p g := stretched kdf (m_raw (fst (sc_salter c))) (tier_used temp (sc_tier c)) p g in
  (digits = digits' -> m_raw (g_seed g) = m_raw (g_seed g')) /\ (digits <> digits' -> exists p q, p <> q /\ path p g /\ path q g').
Proof. exact C70_exact_l. Qed.
Print Assumptions C70_rotations_exactly.

Example C70_exactly_case : joined [1; 17] = joined [17; 1] /\ joined [0; 1] <> joined [1; 0] /\ joined [10; 256] = joined [2576; 0] /\ joined [10; 256] <> joined [160; 256].
Proof. vm_compute. split; [reflexivity|]. split; [discriminate|]. split; [reflexivity|discriminate]. Qed.

(** Exactly when two keys of a creator without any stem share a path: when the digits of account index, rotation index and key index (plus position), written one
   after the other, are the same in number and value. *)
Theorem C91_accounts_exactly :
  forall (cr : crypto) (kdf : bytes -> bytes -> N -> N -> N -> option bytes) (c : salty) (codes codes' : option (list bytes)) (count count' : option N) (code code' : option bytes)
    (pidx pidx' ridx ridx' kidx kidx' : option N) (transferable transferable' : option bool) (temp : bool) (l l' : list signer) (i j : nat) (g g' : signer),
  correct cr -> sized_kdf kdf -> sc_stem c = [] ->
  salty_create cr kdf c codes count code pidx ridx kidx None transferable temp = Ok l -> nth_error l i = Some g ->
  salty_create cr kdf c codes' count' code' pidx' ridx' kidx' None transferable' temp = Ok l' -> nth_error l' j = Some g' ->
  by_default pidx < 2 ^ 16 -> by_default pidx' < 2 ^ 16 -> by_default ridx < 2 ^ 16 -> by_default ridx' < 2 ^ 16 ->
  let digits := joined [by_default pidx; by_default ridx; by_default kidx + N.of_nat i mod 2 ^ 16] in
  let digits' := joined [by_default pidx'; by_default ridx'; by_default kidx' + N.of_nat j mod 2 ^ 16] in
  let path p g := stretched kdf (m_raw (fst (sc_salter c))) (tier_used temp (sc_tier c)) p g in
  (digits = digits' -> m_raw (g_seed g) = m_raw (g_seed g')) /\ (digits <> digits' -> exists p q, p <> q /\ path p g /\ path q g').
Proof. exact C91_exact_l. Qed.
Print Assumptions C91_accounts_exactly.

Example C91_exactly_case : joined [1; 17; 0] = joined [17; 1; 0] /\ joined [1; 0; 0] <> joined [2; 0; 0] /\ joined [1; 2; 3] <> joined [18; 3; 0].
Proof. vm_compute. split; [reflexivity|]. split; discriminate. Qed.

(** A signer derived from a salter is stretched at the tier asked for, or else at the tier the salter was built with (low if none was given), or at the lowest if
   temporary; with an unknown tier the call fails. *)
Theorem C71_salter_tier :
  forall (cr : crypto) (kdf : bytes -> bytes -> N -> N -> N -> option bytes) (random : bytes) (own scode raw qb64b qb64 qb2 : option bytes) (s : matter * bytes) (code : option bytes)
    (transferable : option bool) (path tier : option bytes) (temp : option bool),
  correct cr -> sized_kdf kdf -> salter_new random own scode raw qb64b qb64 qb2 = Ok s ->
  let used := tier_used (match temp with Some t => t | None => false end) (match tier with Some t => t | None => match own with Some t => t | None => s! "low" end end) in
  (forall g, salter_signer cr kdf s code transferable path tier temp = Ok g ->
     stretched kdf (m_raw (fst s)) used (match path with Some p => p | None => [] end) g /\ m_code (g_seed g) = match code with Some c => c | None => s! "A" end /\
     key_code (m_code (g_seed g)) (match transferable with Some t => t | None => true end) (m_code (g_verfer g))) /\
  (~ In used (map fst tiers) -> is_err (salter_signer cr kdf s code transferable path tier temp) = true).
Proof. exact C71a_l. Qed.
Print Assumptions C71_salter_tier.

Example C71_salter_case : exists s g, salter_new (zeros 16) (Some (s! "high")) None None None None None = Ok s /\ salter_signer toy toy_kdf s None None (Some (s! "p")) None None = Ok g /\
  take 2 (m_raw (g_seed g)) = x04 :: s! "p" /\ is_err (salter_signer toy toy_kdf s None None None (Some (s! "higher")) None) = true.
Proof. eexists. eexists. split; [vm_compute; reflexivity|]. split; [vm_compute; reflexivity|]. split; vm_compute; reflexivity. Qed.

(** False as stated for creators: whatever tier a creator is built with, its keys are stretched at tier low (lowest if temporary). With a key stretching that depends on
   the cost, the keys of a creator built at tier high are not stretched at tier high. *)
Theorem C71_creator_tier_refuted :
  (forall cr kdf random salt stem tier salter c codes count code pidx ridx kidx astem transferable temp l g, correct cr -> sized_kdf kdf ->
    salty_new random salt stem tier salter = Ok c -> salty_create cr kdf c codes count code pidx ridx kidx astem transferable temp = Ok l -> In g l ->
    exists path, stretched kdf (m_raw (fst (sc_salter c))) (tier_used temp (s! "low")) path g) /\
  exists c g, salty_new (zeros 16) None None (Some (s! "high")) None = Ok c /\ salty_create toy toy_kdf c None None None None None None None None false = Ok [g] /\
    forall path, ~ stretched toy_kdf (m_raw (fst (sc_salter c))) (s! "high") path g.
Proof. exact C71_no_l. Qed.
Print Assumptions C71_creator_tier_refuted.

(** What holds: a creator built at tier low, or with none given, stretches its keys at that tier. Full statement: at every tier; see C71_creator_tier_refuted. *)
Theorem C71_creator_tier_partial :
  forall (cr : crypto) (kdf : bytes -> bytes -> N -> N -> N -> option bytes) (random : bytes) (salt stem tier : option bytes) (c : salty) (codes : option (list bytes)) (count : option N)
    (code : option bytes) (pidx ridx kidx : option N) (astem : option bytes) (transferable : option bool) (temp : bool) (l : list signer) (g : signer),
  correct cr -> sized_kdf kdf -> tier = None \/ tier = Some (s! "low") -> salty_new random salt stem tier None = Ok c ->
  salty_create cr kdf c codes count code pidx ridx kidx astem transferable temp = Ok l -> In g l ->
  exists path, stretched kdf (m_raw (fst (sc_salter c))) (tier_used temp (snd (sc_salter c))) path g.
Proof. exact C71b_l. Qed.
Print Assumptions C71_creator_tier_partial.

Example C71_creator_case : exists c l, salty_new (zeros 16) None None (Some (s! "low")) None = Ok c /\ salty_create toy toy_kdf c None (Some 3) None None None None None None false = Ok l /\ len l = 3.
Proof. eexists. eexists. split; [vm_compute; reflexivity|]. split; [vm_compute; reflexivity|]. reflexivity. Qed.

(** False as stated: building a creator from a malformed salt panics although the constructor returns a result, and so does creating a key of an unknown code. *)
Theorem C92_creator_panics_refuted :
  (forall random, len random = 16 -> salty_new random (Some (s! "salt")) None None None = Panic) /\
  (forall cr kdf c, salty_create cr kdf c (Some [s! "B"]) None None None None None None None false = Panic).
Proof. exact C92_no_l. Qed.
Print Assumptions C92_creator_panics_refuted.

(** Building a creator panics exactly when no salter is given and the salt does not build one; it never returns an error. Creating keys panics exactly when some
   position is given no key: the key index plus the position (modulo 2^16) exceeds 16 bits, or its signer cannot be derived. Full statement: never; see
   C92_creator_panics_refuted. *)
Theorem C92_creator_panics_partial :
  forall (cr : crypto) (kdf : bytes -> bytes -> N -> N -> N -> option bytes) (random : bytes) (salt stem tier : option bytes) (salter : option (matter * bytes)) (c : salty)
    (codes : option (list bytes)) (count : option N) (code : option bytes) (pidx ridx kidx : option N) (astem : option bytes) (transferable : option bool) (temp : bool),
  len random = 16 ->
  (salty_new random salt stem tier salter = Panic <-> salter = None /\ forall s, salter_new random tier None None None salt None <> Ok s) /\
  (salty_new random salt stem tier salter = Panic \/ exists c, salty_new random salt stem tier salter = Ok c) /\
  (salty_create cr kdf c codes count code pidx ridx kidx astem transferable temp = Panic \/ exists l, salty_create cr kdf c codes count code pidx ridx kidx astem transferable temp = Ok l) /\
  (by_default pidx < 2 ^ 16 -> by_default ridx < 2 ^ 16 -> forall st r, stem_used (sc_stem c) astem (by_default pidx) st -> numeral (by_default ridx) r ->
   ((exists l, salty_create cr kdf c codes count code pidx ridx kidx astem transferable temp = Ok l) <->
    forall i cd, nth_error (asked codes count code) i = Some cd -> by_default kidx + N.of_nat i mod 2 ^ 16 < 2 ^ 16 /\
      exists k g, numeral (by_default kidx + N.of_nat i mod 2 ^ 16) k /\
        salter_signer cr kdf (sc_salter c) (Some cd) (Some (match transferable with Some t => t | None => true end)) (Some (st ++ r ++ k)) (Some (sc_tier c)) (Some temp) = Ok g)).
Proof. exact C92_l. Qed.
Print Assumptions C92_creator_panics_partial.

Example C92_case : exists c l, salty_new (zeros 16) (Some (s! "0AAwMTIzNDU2Nzg5YWJjZGVm")) None None None = Ok c /\
  salty_create toy toy_kdf c (Some [s! "A"; s! "J"; s! "Q"]) None None None None (Some 65533) None None true = Ok l /\ len l = 3 /\
  salty_create toy toy_kdf c (Some [s! "A"; s! "J"; s! "Q"]) None None None None (Some 65534) None None true = Panic.
Proof. eexists. eexists. split; [vm_compute; reflexivity|]. split; [vm_compute; reflexivity|]. split; [reflexivity|vm_compute; reflexivity]. Qed.

(** A creator returns exactly as many signers as codes were asked for (one of the default code if nothing was asked), in order, each of its code and with a key of the
   same scheme, transferable or not as asked. *)
Theorem C93_created_as_asked :
  forall (cr : crypto) (kdf : bytes -> bytes -> N -> N -> N -> option bytes) (c : salty) (codes : option (list bytes)) (count : option N) (code : option bytes)
    (pidx ridx kidx : option N) (stem : option bytes) (transferable : option bool) (temp : bool) (l : list signer),
  correct cr -> sized_kdf kdf -> salty_create cr kdf c codes count code pidx ridx kidx stem transferable temp = Ok l ->
  map (fun g => m_code (g_seed g)) l = asked codes count code /\
  forall g, In g l -> key_code (m_code (g_seed g)) (match transferable with Some t => t | None => true end) (m_code (g_verfer g)).
Proof. exact C93a_l. Qed.
Print Assumptions C93_created_as_asked.

Example C93_case : asked None (Some 2) (Some (s! "J")) = [s! "J"; s! "J"] /\ asked (Some []) None None = [s! "A"] /\ asked (Some [s! "Q"; s! "A"]) (Some 9) None = [s! "Q"; s! "A"].
Proof. repeat split. Qed.

(** The same for randomly drawn keys; the seed at each position is the one drawn for it. *)
Theorem C93_random_as_asked :
  forall (crs : N -> crypto) (codes : option (list bytes)) (count : option N) (code : option bytes) (transferable : option bool) (l : list signer),
  (forall i, correct (crs i)) -> randy_create crs codes count code transferable = Ok l ->
  map (fun g => m_code (g_seed g)) l = asked codes count code /\
  (forall g, In g l -> key_code (m_code (g_seed g)) (match transferable with Some t => t | None => true end) (m_code (g_verfer g))) /\
  forall i g, nth_error l i = Some g -> exists s d b sg, In (m_code (g_seed g), (s, d, b, sg)) seed_table /\ m_raw (g_seed g) = cr_random (crs (N.of_nat i)) s.
Proof. exact C93b_l. Qed.
Print Assumptions C93_random_as_asked.

Example C93_random_case : exists l, randy_create (fun _ => toy) (Some [s! "Q"; s! "A"]) None None (Some false) = Ok l /\ map (fun g => m_code (g_verfer g)) l = [s! "1AAI"; s! "B"].
Proof. eexists. split; [vm_compute; reflexivity|]. reflexivity. Qed.
