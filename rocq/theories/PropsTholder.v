(** Properties C41-C47, C82. Theorem statements only; the proofs are in [TholderThms]. *)
From Coq Require Import String.
From Coq Require Import NArith ZArith QArith Bool List.
From Verif Require Import Base Matter Json Tholder Spec SpecCounter SpecTholder TholderThms BaseFacts.
Import ListNotations.
Open Scope N_scope.

(** The threshold "2" is satisfied by one key signing twice, and the threshold "0" is satisfied by nobody at all. *)
Theorem C41_numeric_threshold_refuted :
  forall (canon : bytes -> option bytes),
  (exists t, tholder_new canon None None (Some (VStr (s! "2"))) = Ok t /\ tholder_num t = Ok (Some 2) /\ satisfy t [0; 0] = Ok true) /\
  (exists t, tholder_new canon None None (Some (VStr (s! "0"))) = Ok t /\ tholder_num t = Ok (Some 0) /\ forall idx, satisfy t idx = Ok false).
Proof. exact C41_refuted_l. Qed.
Print Assumptions C41_numeric_threshold_refuted.

(** A numeric threshold of k, at least one, gives on every list of indices a definite answer: satisfied exactly when the list has at least k entries.
   So on a list without repetitions it is exact, and a list with at least k distinct indices always satisfies it.
   Missing for the full statement: a list with repetitions can satisfy it with fewer than k distinct indices. *)
Theorem C41_numeric_threshold_partial :
  forall (canon : bytes -> option bytes) (thold sith : option value) (limen : option bytes) (t : tholder) (k : N) (idx : list N),
  tholder_new canon thold limen sith = Ok t -> tholder_num t = Ok (Some k) -> 1 <= k ->
  (k <= len idx /\ satisfy t idx = Ok true \/ len idx < k /\ satisfy t idx = Ok false) /\
  (forall distinct, NoDup distinct -> (forall i, In i distinct -> In i idx) -> k <= len distinct -> satisfy t idx = Ok true).
Proof. exact C41_partial_l. Qed.
Print Assumptions C41_numeric_threshold_partial.

Example C41_case : exists t, tholder_new (fun _ => None) None (Some (s! "MAAC")) None = Ok t /\ tholder_num t = Ok (Some 2) /\ satisfy t [5; 1] = Ok true /\
  satisfy t [7] = Ok false.
Proof. exists (Th (VInt 2) false 2 (Some (Mt (s! "M") 0 [x00; x02])) None). repeat split; vm_compute; reflexivity. Qed.

(** A numeric threshold of any size is always evaluated, and its answer is right, that is, yes exactly when at least k different keys signed, on every list
   of indices except in two cases: the threshold is zero, or the list reaches k entries only by repeating some of them. *)
Theorem C41_numeric_threshold_exactly :
  forall (canon : bytes -> option bytes) (thold sith : option value) (limen : option bytes) (t : tholder) (k : N) (idx : list N),
  tholder_new canon thold limen sith = Ok t -> tholder_num t = Ok (Some k) ->
  exists yes, satisfy t idx = Ok yes /\
    ((yes = true <-> k <= len (nodup N.eq_dec idx)) <-> ~ (k = 0 \/ len (nodup N.eq_dec idx) < k /\ k <= len idx)).
Proof. exact C41_exact_l. Qed.
Print Assumptions C41_numeric_threshold_exactly.

Example C41_exactly_case : exists t, tholder_new (fun _ => None) None (Some (s! "MAAC")) None = Ok t /\ tholder_num t = Ok (Some 2) /\ satisfy t [5; 5] = Ok true /\
  len (nodup N.eq_dec [5; 5]) = 1.
Proof. exists (Th (VInt 2) false 2 (Some (Mt (s! "M") 0 [x00; x02])) None). repeat split; vm_compute; reflexivity. Qed.

(** Three weights are accepted for which a subset of the keys cannot be evaluated: adding 1/65537 and 1/65539 overflows 32-bit arithmetic and panics. *)
Theorem C42_weighted_threshold_refuted :
  forall (canon : bytes -> option bytes),
  exists t, tholder_new canon None None (Some (VArr (map VStr [s! "1/65537"; s! "65536/65537"; s! "1/65539"]))) = Ok t /\ satisfy t [0; 1] = Ok true /\ satisfy t [0; 2] = Panic.
Proof. exact C42_refuted_l. Qed.
Print Assumptions C42_weighted_threshold_refuted.

(** A weighted threshold built from a value (nested lists of weights, or one flat list given as sith) is evaluated exactly on indices within its size:
   satisfied if and only if in every clause the exact rational sum of the given weights at the signed positions is at least one, or else the evaluation
   panics. It does not panic when the weights have a small common denominator.
   Missing for the full statement: it can panic by overflow of 32-bit arithmetic (exactly when: C42_evaluation_exactly). *)
Theorem C42_weighted_threshold_partial :
  forall (canon : bytes -> option bytes) (v : value) (ws : list (list Q)) (t : tholder) (idx : list N),
  weights v ws ->
  tholder_new canon (Some v) None None = Ok t \/ tholder_new canon None None (Some v) = Ok t \/
  (exists c, v = VArr [c] /\ keys v > 0 /\ tholder_new canon None None (Some c) = Ok t) ->
  keys v < 2 ^ 32 -> (forall i, In i idx -> i < keys v) ->
  (satisfy t idx = Panic \/ satisfy t idx = Ok true /\ meets idx 0 ws \/ satisfy t idx = Ok false /\ ~ meets idx 0 ws) /\ (small ws -> satisfy t idx <> Panic).
Proof. exact C42_partial_l. Qed.
Print Assumptions C42_weighted_threshold_partial.

Example C42_case : exists t ws, let v := VArr [VArr [VStr (s! "1/2"); VStr (s! "2/4"); VStr (s! "1/4")]; VArr [VStr (s! "1"); VStr (s! "1")]] in
  tholder_new (fun _ => None) (Some v) None None = Ok t /\ weights v ws /\ small ws /\ satisfy t [0; 1; 4] = Ok true /\ satisfy t [0; 2; 4] = Ok false.
Proof.
  eexists. exists [[1 # 2; 2 # 4; 1 # 4]; [1 # 1; 1 # 1]]%Q. cbv zeta. split; [vm_compute; reflexivity|]. split.
  { exists [[s! "1/2"; s! "2/4"; s! "1/4"]; [s! "1"; s! "1"]]. split; [reflexivity|].
    assert (forall b n, decimal b n -> numeral b n) as K by (intros b n Hd; exists b; auto).
    assert (forall c, 48 <= b2n c <= 57 -> decimal [c] (b2n c - 48)) as D by (intros c Hc; split; [discriminate|]; split; [repeat constructor; apply Hc|reflexivity]).
    assert (forall c, 48 <= b2n c <= 57 -> numeral [c] (b2n c - 48)) as M by auto.
    assert (weight_text (s! "1/2") (1 # 2)) as W1 by (apply (weight_frac [x31] [x32] 1 2); [apply (M x31)|apply (M x32)]; split; discriminate).
    assert (weight_text (s! "2/4") (2 # 4)) as W2 by (apply (weight_frac [x32] [x34] 2 4); [apply (M x32)|apply (M x34)]; split; discriminate).
    assert (weight_text (s! "1/4") (1 # 4)) as W3 by (apply (weight_frac [x31] [x34] 1 4); [apply (M x31)|apply (M x34)]; split; discriminate).
    assert (weight_text (s! "1") (1 # 1)) as W4 by (apply (weight_int [x31] 1); apply (D x31); split; discriminate).
    constructor; [|constructor; [|constructor]]; repeat (constructor; [assumption|]); constructor. }
  split. { intros c Hc. exists 4. split; [reflexivity|]. split; [|destruct Hc as [<-|[<-|[]]]; reflexivity].
    intros w Hw. destruct Hc as [<-|[<-|[]]]; repeat (destruct Hw as [<-|Hw]; [first [exists 1%Z; reflexivity|exists 2%Z; reflexivity|exists 4%Z; reflexivity]|]); destruct Hw. }
  split; vm_compute; reflexivity.
Qed.

(** The same with respect to the weights a threshold reports, however it was built (in particular from its limen form). *)
Theorem C42_accepted_threshold_partial :
  forall (canon : bytes -> option bytes) (thold sith : option value) (limen : option bytes) (t : tholder) (idx : list N),
  tholder_new canon thold limen sith = Ok t -> t_weighted t = true -> keys (t_thold t) < 2 ^ 32 -> (forall i, In i idx -> i < keys (t_thold t)) ->
  exists ws, weights (t_thold t) ws /\ t_size t = keys (t_thold t) /\
  (satisfy t idx = Panic \/ satisfy t idx = Ok true /\ meets idx 0 ws \/ satisfy t idx = Ok false /\ ~ meets idx 0 ws) /\ (small ws -> satisfy t idx <> Panic).
Proof. exact C42_accepted_l. Qed.
Print Assumptions C42_accepted_threshold_partial.

(** A threshold satisfied by its first key cannot be evaluated (panic) when two more keys have signed. *)
Theorem C43_monotone_refuted :
  forall (canon : bytes -> option bytes),
  exists t, tholder_new canon None None (Some (VArr (map VStr [s! "1"; s! "1/65537"; s! "65536/65537"; s! "1/65539"]))) = Ok t /\ satisfy t [0] = Ok true /\ satisfy t [0; 1; 3] = Panic.
Proof. exact C43_refuted_l. Qed.
Print Assumptions C43_monotone_refuted.

(** More signatures never turn the answer "satisfied" into "not satisfied". For a weighted threshold the answer depends only on the set of indices, and
   with weights of a small common denominator more signatures within the size keep it satisfied; a numeric threshold always stays satisfied.
   Missing for the full statement: with other weights the larger list can panic. *)
Theorem C43_monotone_partial :
  forall (canon : bytes -> option bytes) (thold sith : option value) (limen : option bytes) (t : tholder) (idx more : list N),
  tholder_new canon thold limen sith = Ok t ->
  (satisfy t idx = Ok true -> satisfy t (idx ++ more) = Ok true \/ t_weighted t = true /\ satisfy t (idx ++ more) = Panic) /\
  (t_weighted t = true -> forall idx', (forall i, In i idx <-> In i idx') -> satisfy t idx = satisfy t idx') /\
  (t_weighted t = true -> keys (t_thold t) < 2 ^ 32 -> (forall i, In i more -> i < keys (t_thold t)) -> (exists ws, weights (t_thold t) ws /\ small ws) ->
   satisfy t idx = Ok true -> satisfy t (idx ++ more) = Ok true).
Proof. exact C43_partial_l. Qed.
Print Assumptions C43_monotone_partial.

Example C43_case : exists t, tholder_new (fun _ => None) (Some (VArr [VArr [VStr (s! "1/2"); VStr (s! "1/2"); VStr (s! "1/4")]])) None None = Ok t /\ satisfy t [1; 0] = Ok true /\ satisfy t [1; 0; 2; 1] = Ok true.
Proof. eexists. split; [vm_compute; reflexivity|]. split; vm_compute; reflexivity. Qed.

(** The empty list of clauses, given as thold, is an accepted threshold satisfied by no signature at all. *)
Theorem C44_nobody_refuted :
  forall (canon : bytes -> option bytes),
  exists t, tholder_new canon (Some (VArr [])) None None = Ok t /\ satisfy t [] = Ok true.
Proof. exact C44_refuted_l. Qed.
Print Assumptions C44_nobody_refuted.

(** The empty list of clauses given as thold is the only accepted input whose threshold is satisfied by the empty list of signatures. In particular no sith
   and no limen gives such a threshold. *)
Theorem C44_nobody_partial :
  forall (canon : bytes -> option bytes) (thold sith : option value) (limen : option bytes) (t : tholder),
  tholder_new canon thold limen sith = Ok t -> satisfy t [] = Ok true ->
  thold = Some (VArr []) /\ (limen = None \/ limen = Some []) /\ sith = None.
Proof. exact C44_partial_l. Qed.
Print Assumptions C44_nobody_partial.

Example C44_case : exists t, tholder_new (fun _ => None) None (Some (s! "4AACA1s2c1s2")) None = Ok t /\ satisfy t [] = Ok false.
Proof. eexists. split; [vm_compute; reflexivity|]. vm_compute. reflexivity. Qed.

(** Every threshold accepted by the constructors, numeric zero aside, is satisfied when all of its keys have signed, in whatever order. *)
Theorem C45_attainable :
  forall (canon : bytes -> option bytes) (thold sith : option value) (limen : option bytes) (t : tholder) (idx : list N),
  tholder_new canon thold limen sith = Ok t -> t_thold t <> VInt 0 -> keys (t_thold t) < 2 ^ 32 ->
  (forall i, In i idx <-> i < t_size t) -> satisfy t idx = Ok true.
Proof. exact C45_l. Qed.
Print Assumptions C45_attainable.

Example C45_case : exists t, tholder_new (fun _ => None) None None (Some (VStr (s! "[[""1/2"", ""1/3"", ""1/6""], [""1""]]"))) = Ok t /\ t_size t = 4 /\ t_thold t <> VInt 0.
Proof. eexists. split; [vm_compute; reflexivity|]. split; [reflexivity|discriminate]. Qed.

(** Every accepted threshold, other than the empty list of clauses, has a limen (text) and a sith (JSON) form. Building from the limen, from the sith, or
   from the reported value gives an equal threshold. For a weighted threshold so does building from the JSON text of the sith. *)
Theorem C46_serialisations_round_trip :
  forall (canon : bytes -> option bytes) (thold sith : option value) (limen : option bytes) (t : tholder),
  tholder_new canon thold limen sith = Ok t -> t_thold t <> VArr [] -> keys (t_thold t) < 2 ^ 27 ->
  exists l s j, tholder_limen t = Ok l /\ tholder_sith t = Ok s /\ tholder_to_json t = Ok j /\
    tholder_new canon None (Some l) None = Ok t /\ tholder_new canon None None (Some s) = Ok t /\ tholder_new canon (Some (t_thold t)) None None = Ok t /\
    (t_weighted t = true -> tholder_new canon None None (Some (VStr j)) = Ok t).
Proof. exact C46_l. Qed.
Print Assumptions C46_serialisations_round_trip.

Example C46_case : exists t, tholder_new (fun _ => None) None None (Some (VArr [VStr (s! "1/2"); VStr (s! "2/4"); VStr (s! "1")])) = Ok t /\ tholder_limen t = Ok (s! "6AADAAA1s2c1s2c1") /\
  tholder_sith t = Ok (VArr [VStr (s! "1/2"); VStr (s! "1/2"); VStr (s! "1")]) /\ keys (t_thold t) = 3.
Proof. eexists. split; [vm_compute; reflexivity|]. split; [vm_compute; reflexivity|]. split; vm_compute; reflexivity. Qed.

(** Constructing a threshold panics on the weight 0/0, on weights whose sum overflows 32-bit arithmetic, on a limen with a padding character, and on JSON
   text with an integer outside the signed 64-bit range. Evaluating an accepted weighted threshold panics on an index outside its size. *)
Theorem C47_no_panic_refuted :
  forall (canon : bytes -> option bytes),
  tholder_new canon (Some (VArr [VArr [VStr (s! "0/0")]])) None None = Panic /\
  tholder_new canon (Some (VArr [VArr [VStr (s! "1"); VStr (s! "1/65537"); VStr (s! "1/65539")]])) None None = Panic /\
  tholder_new canon None (Some (s! "MAA=")) None = Panic /\
  tholder_new canon None None (Some (VStr (s! "[9223372036854775808]"))) = Panic /\
  exists t, tholder_new canon (Some (VArr [VArr [VStr (s! "1")]])) None None = Ok t /\ satisfy t [1] = Panic.
Proof. exact C47_refuted_l. Qed.
Print Assumptions C47_no_panic_refuted.

(** Constructing a threshold from an integer, from a hexadecimal string, or from a value without zero-over-zero weights, several division signs or large
   denominators does not panic, also when the value is given as JSON text that can be read. Evaluating a numeric threshold never panics. (Evaluating a
   weighted threshold with small denominators on indices within its size does not panic by C42.)
   Missing for the full statement: the inputs of the refutation. C47_panics_exactly says exactly which inputs, limen included, make the constructor panic. *)
Theorem C47_no_panic_partial :
  forall (canon : bytes -> option bytes) (v : value) (z : Z) (s : bytes),
  (safe v -> tholder_new canon (Some v) None None <> Panic) /\
  (safe v -> safe (VArr [v]) -> (forall s, v <> VStr s) -> tholder_new canon None None (Some v) <> Panic) /\
  (value_of_text canon s = Ok v -> safe v -> safe (VArr [v]) -> tholder_new canon None None (Some (VStr s)) <> Panic) /\
  (~ prefix (s! "[") s -> tholder_new canon None None (Some (VStr s)) <> Panic) /\
  tholder_new canon (Some (VInt z)) None None <> Panic /\ tholder_new canon None None (Some (VInt z)) <> Panic /\
  (forall thold limen sith t idx, tholder_new canon thold limen sith = Ok t -> t_weighted t = false -> exists b, satisfy t idx = Ok b).
Proof. exact C47_partial_l. Qed.
Print Assumptions C47_no_panic_partial.

Example C47_case : safe (VArr [VArr [VStr (s! "1/0"); VNull]; VBool true]) /\ tholder_new (fun _ => None) (Some (VArr [VArr [VStr (s! "1/0"); VNull]; VBool true])) None None = Err EValue.
Proof.
  split; [|vm_compute; reflexivity]. split; [|split; [|reflexivity]].
  - intros s (l & c & E & A & B). inversion E; subst l. destruct A as [A|[A|[]]]; inversion A; subst c. destruct B as [B|[B|[]]]; inversion B; subst s. split; [vm_compute; discriminate|].
    intros (a & b & (d & (D & F & V) & Ha) & _ & E'). destruct Ha as [->|[->|(_ & ->)]]; [|discriminate|discriminate]. destruct d as [|x d]; [congruence|]. inversion E' as [[Ex Er]]. subst x.
    destruct d as [|y d]; [vm_compute in V; discriminate|]. injection Er. intros _ <-. inversion F as [|? ? _ F']; subst. inversion F' as [|? ? Q _]; subst. destruct Q as [Q _]. vm_compute in Q. now apply Q.
  - intros ws (ts & E & _). unfold texts in E. destruct ts as [|t [|t' ts]]; discriminate.
Qed.

(** The text 1/x/y is accepted as a weight and counts as one. *)
Theorem C82_weight_texts_refuted :
  forall (canon : bytes -> option bytes),
  exists t, tholder_new canon (Some (VArr [VArr [VStr (s! "1/x/y")]])) None None = Ok t /\ satisfy t [0] = Ok true.
Proof. exact C82_refuted_l. Qed.
Print Assumptions C82_weight_texts_refuted.

(** A weight text with at most one division sign occurring in an accepted threshold is an integer or a fraction of integers with a value from zero to one.
   Conversely every fraction from zero to one with numerator and denominator below 2^30 is accepted as a weight.
   Missing for the full statement: texts with several division signs, of which only the first part is looked at (see C82_accepted_exactly). *)
Theorem C82_weight_texts_partial :
  forall (canon : bytes -> option bytes) (v : value) (s a b : bytes) (n d : N),
  (forall t, tholder_new canon (Some v) None None = Ok t \/ (exists c, v = VArr [VArr (map VStr c)] /\ c <> [] /\ tholder_new canon None None (Some (VArr (map VStr c))) = Ok t) ->
    weight_in v s -> one_slash s -> exists q, weight_text s q /\ (0 <= q <= 1)%Q) /\
  (numeral a n -> numeral b d -> 1 <= d -> n <= d -> d < 2 ^ 30 ->
    exists t, tholder_new canon (Some (VArr [VArr [VStr (a ++ s! "/" ++ b); VStr (s! "1")]])) None None = Ok t /\ t_size t = 2).
Proof. exact C82_partial_l. Qed.
Print Assumptions C82_weight_texts_partial.

Example C82_case : exists t, tholder_new (fun _ => None) (Some (VArr [VArr [VStr (s! "+3/4"); VStr (s! "2/8")]])) None None = Ok t /\ t_thold t = VArr [VArr [VStr (s! "3/4"); VStr (s! "1/4")]] /\
  tholder_new (fun _ => None) (Some (VArr [VArr [VStr (s! "5/4")]])) None None = Err EValue.
Proof. eexists. split; [vm_compute; reflexivity|]. split; vm_compute; reflexivity. Qed.
