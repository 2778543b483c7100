(** Properties C113-C116: the release profile. Theorem statements only; the proofs are in [ReleaseThms]. *)
From Coq Require Import String.
From Coq Require Import NArith ZArith QArith Bool List.
From Verif Require Import Base B64 Util Tables Matter Indexer IndexerFacts Counter Prims Json Tholder Release Spec SpecCounter SpecIndexer SpecTholder SpecWeigh SpecPanic ReleaseThms BaseFacts.
Import ListNotations.
Open Scope N_scope.

(** A release build reads every text and every binary string, of primitives and of indexed primitives, exactly as a debug build does, errors and panics included. It also builds
   the same indexed primitives and counters, and knows the same raw sizes. *)
Theorem C113_reading :
  forall (s : bytes),
  exfil_in wrapping s = exfil s /\ bexfil_in wrapping s = bexfil s /\ iexfil_in wrapping s = iexfil s /\ ibexfil_in wrapping s = ibexfil s /\
  (forall code index ondex, indexer_of_code_raw_in wrapping code s index ondex = indexer_of_code_raw code s index ondex) /\
  (forall count, counter_of_code_count_in wrapping s count = counter_of_code_count s count) /\ raw_size_in wrapping s = raw_size s.
Proof. exact C113_reading_l. Qed.
Print Assumptions C113_reading.

Example C113_reading_case : exists m, exfil_in wrapping (s! "BKxy2sgzfplyr-tgwIxS19f2OchFHtLwPWD3v4oYimBx") = Ok m /\ exfil_in wrapping (s! "B") = Err EShortage /\ exfil_in wrapping [xc3; xa9] = exfil [xc3; xa9].
Proof. eexists. split; [vm_compute; reflexivity|]. split; vm_compute; reflexivity. Qed.

(** Printing in a release build, whatever the fields of the value hold. It never panics; where a debug build does not panic the result is the same; where printing a text
   panics in a debug build it is an error in a release build. The binary form of a primitive and the text of a counter are the same in both. *)
Theorem C114_printing :
  forall (m : matter) (x : indexer) (c : counter),
  infil_in wrapping m <> Panic /\ binfil_in wrapping m <> Panic /\ iinfil_in wrapping x <> Panic /\ ibinfil_in wrapping x <> Panic /\
  (infil m <> Panic -> infil_in wrapping m = infil m) /\ (infil m = Panic -> exists e, infil_in wrapping m = Err e) /\
  binfil_in wrapping m = binfil m /\
  (iinfil x <> Panic -> iinfil_in wrapping x = iinfil x) /\ (iinfil x = Panic -> exists e, iinfil_in wrapping x = Err e) /\
  (ibinfil x <> Panic -> ibinfil_in wrapping x = ibinfil x) /\
  cinfil_in wrapping c = cinfil c.
Proof. exact C114_printing_l. Qed.
Print Assumptions C114_printing.

Example C114_printing_case : let m := Mt (s! "4B") 4294967295 [] in infil_in wrapping m = Err EInvalidVarSize /\
  infil_in wrapping (Mt (s! "B") 0 []) = infil (Mt (s! "B") 0 []) /\ exists x, indexer_of_code_raw (s! "1z") (repeat x00 54) 1 None = Ok x /\ iinfil x = Panic /\ exists e, iinfil_in wrapping x = Err e.
Proof. split; [vm_compute; reflexivity|]. split; [vm_compute; reflexivity|]. eexists. split; [vm_compute; reflexivity|]. split; [vm_compute; reflexivity|]. eexists. vm_compute. reflexivity. Qed.

(** In a release build every indexed signature that the constructor accepts, the large ones of codes 3A and 3B included, prints in text and in binary and reads back from both; the text is the
   encoding of the binary. (A debug build panics on the binary form of the large ones.) *)
Theorem C114_indexed_signatures :
  forall (x : indexer),
  sig_built x ->
  exists t b, iinfil_in wrapping x = Ok t /\ ibinfil_in wrapping x = Ok b /\ encode b = t /\ iexfil_in wrapping t = Ok x /\ ibexfil_in wrapping b = Ok x.
Proof. exact C114_sig_l. Qed.
Print Assumptions C114_indexed_signatures.

Example C114_indexed_signatures_case : exists x b, sig_built x /\ i_code x = s! "3A" /\ ibinfil x = Panic /\ ibinfil_in wrapping x = Ok b /\ len b = 120.
Proof.
  exists (Ix (s! "3A") (repeat x07 114) 5 5), (ibin (Ix (s! "3A") (repeat x07 114) 5 5) (Isz 2 6 3 160 0)). split.
  { exists (s! "3A"), 114, 3, 3, (repeat x07 114), 5, None. split; [cbn; tauto|]. split; [discriminate|]. vm_compute. reflexivity. }
  split; [reflexivity|]. split; [vm_compute; reflexivity|]. split; vm_compute; reflexivity.
Qed.

(** The reported full size in a release build, whatever the size or index field holds: for a variable-size code it is that of the code part and four characters for each quadlet, modulo 2^32. *)
Theorem C114_full_size :
  forall (m : matter) (x : indexer),
  (In (m_code m) (small_codes ++ large_codes) -> full_size_in wrapping m = Ok ((code_chars (m_code m) + 4 * m_size m) mod 2 ^ 32)) /\
  (full_size m <> Panic -> full_size_in wrapping m = full_size m) /\
  (i_code x = s! "0z" -> ifull_size_in wrapping x = Ok ((4 + 4 * i_index x) mod 2 ^ 32)) /\
  (ifull_size x <> Panic -> ifull_size_in wrapping x = ifull_size x).
Proof. exact C114_size_l. Qed.
Print Assumptions C114_full_size.

Example C114_full_size_case : full_size_in wrapping (Mt (s! "4B") 1073741824 []) = Ok 4 /\ full_size (Mt (s! "4B") 1073741824 []) = Panic /\ full_size_in wrapping (Mt (s! "4B") 3 []) = Ok 16.
Proof. split; [|split]; vm_compute; reflexivity. Qed.

(** A weighted threshold in a release build is sound, whatever its weights: it is never accepted unless the exact sum of the weights of each clause is at least one, and never satisfied by a list of
   indices unless the exact sum of the signed weights of each clause is at least one, although sums wrap around at 32 bits. Its evaluation fails only by a panic, exactly when an index is not below the number of weights.
   (For fewer than 2^32 weights, given as value or as sith, or as reported by a threshold however made.) *)
Theorem C115_sound :
  forall (canon : bytes -> option bytes) (v : value) (ts : list (list bytes)) (ws : list (list Q)) (t : tholder),
  texts v ts -> Forall2 (Forall2 reads) ts ws -> keys v < 2 ^ 32 ->
  release_new canon (Some v) None None = Ok t \/ (exists u, sith_clauses u ts /\ release_new canon None None (Some u) = Ok t) \/
  (exists a b c, release_new canon a b c = Ok t /\ t_weighted t = true /\ t_thold t = v) ->
  Forall (fun c => 1 <= total c)%Q ws /\
  forall idx, (release_satisfy t idx = Panic <-> exists i, In i idx /\ keys v <= i) /\ (forall e, release_satisfy t idx <> Err e) /\
    (release_satisfy t idx = Ok true -> (forall i, In i idx -> i < keys v) /\ meets idx 0 ws).
Proof. exact C115_sound_l. Qed.
Print Assumptions C115_sound.

Example C115_sound_case : exists t, let v := VArr [VArr [VStr (s! "1"); VStr (s! "1/65537"); VStr (s! "1/65539"); VStr (s! "1")]] in
  release_new (fun _ => None) (Some v) None None = Ok t /\ release_satisfy t [0; 1] = Ok true /\ release_satisfy t [1; 2] = Ok false /\ release_satisfy t [4] = Panic /\
  tholder_new (fun _ => None) (Some v) None None = Panic /\ Forall2 reads [s! "1"; s! "1/65537"; s! "1/65539"; s! "1"] [1; 1 # 65537; 1 # 65539; 1]%Q.
Proof.
  eexists. cbv zeta. split; [vm_compute; reflexivity|]. do 4 (split; [vm_compute; reflexivity|]).
  assert (reads (s! "1") 1) by (right; split; [vm_compute; discriminate|]; exists (s! "1"); auto).
  assert (forall d n, decimal d n -> numeral d n) as D by (intros d n H'; exists d; auto).
  assert (reads (s! "1/65537") (1 # 65537)) by (left; exists (s! "1"), (s! "65537"), 1, 65537%positive; split; [reflexivity|];
    do 2 (split; [apply D; split; [discriminate|]; split; [repeat constructor; vm_compute; discriminate|]; split; reflexivity|]); split; [vm_compute; discriminate|]; split; reflexivity).
  assert (reads (s! "1/65539") (1 # 65539)) by (left; exists (s! "1"), (s! "65539"), 1, 65539%positive; split; [reflexivity|];
    do 2 (split; [apply D; split; [discriminate|]; split; [repeat constructor; vm_compute; discriminate|]; split; reflexivity|]); split; [vm_compute; discriminate|]; split; reflexivity).
  apply Forall2_cons; [assumption|]. apply Forall2_cons; [assumption|]. apply Forall2_cons; [assumption|]. apply Forall2_cons; [assumption|]. apply Forall2_nil.
Qed.

(** Every weighted threshold made in a release build reports clauses of texts that can be read, so the soundness above applies to it. *)
Theorem C115_reported :
  forall (canon : bytes -> option bytes) (thold sith : option value) (limen : option bytes) (t : tholder),
  release_new canon thold limen sith = Ok t -> t_weighted t = true -> exists ts ws, texts (t_thold t) ts /\ Forall2 (Forall2 reads) ts ws.
Proof. exact C115_reported_l. Qed.
Print Assumptions C115_reported.

Example C115_reported_case : exists t, release_new (fun _ => None) None None (Some (VArr [VStr (s! "2/4"); VStr (s! "1/2")])) = Ok t /\ t_weighted t = true /\ texts (t_thold t) [[s! "1/2"; s! "1/2"]].
Proof. eexists. split; [vm_compute; reflexivity|]. split; reflexivity. Qed.

(** Which threshold values panic in a release build: exactly those whose first entry that is not a weight is zero over zero. No sum of weights makes it panic. (For fewer than 2^27 weights.) *)
Theorem C115_construction_panics :
  forall (canon : bytes -> option bytes) (v : value),
  keys v < 2 ^ 27 ->
  release_new canon (Some v) None None = Panic <->
  exists ts qs t q s rest more, v = VArr (map (fun c => VArr (map VStr c)) ts ++ VArr (map VStr t ++ VStr s :: rest) :: more) /\
    Forall2 (Forall2 reads) ts qs /\ Forall2 reads t q /\ zero_over_zero s.
Proof. exact C115_panics_l. Qed.
Print Assumptions C115_construction_panics.

Example C115_construction_case : release_new (fun _ => None) (Some (VArr [VArr [VStr (s! "1"); VStr (s! "0/0")]])) None None = Panic /\
  release_new (fun _ => None) (Some (VArr [VArr [VStr (s! "1/65537"); VStr (s! "1/65539")]])) None None = Err EValue.
Proof. split; vm_compute; reflexivity. Qed.

(** False as stated in a release build: with wrapped sums, an accepted threshold is not satisfied by indices whose weights are exactly enough; more signatures can undo a satisfied threshold; and
   a threshold value whose weights exceed one is rejected. *)
Theorem C116_complete_refuted :
  forall (canon : bytes -> option bytes),
  (exists v t ws, weights v ws /\ release_new canon (Some v) None None = Ok t /\ meets [0; 1] 0 ws /\ release_satisfy t [0; 1] = Ok false) /\
  (exists v t, release_new canon (Some v) None None = Ok t /\ release_satisfy t [0] = Ok true /\ release_satisfy t [0; 1; 2] = Ok false) /\
  (exists v ws, weights v ws /\ Forall (fun c => 1 < total c)%Q ws /\ release_new canon (Some v) None None = Err EValue).
Proof. exact C116_no_l. Qed.
Print Assumptions C116_complete_refuted.

(** A weighted threshold in a release build is satisfied exactly when the exact sum of the signed weights of each clause is at least one, provided no sum of signed weights needs more than 31 bits at a step.
   And where a debug build does not panic, building and evaluating any threshold give the same result in a release build.
   Missing for the full statement: sums that need more bits, for which only soundness holds (C115). *)
Theorem C116_complete_partial :
  forall (canon : bytes -> option bytes) (v : value) (ts : list (list bytes)) (ws : list (list Q)) (t : tholder) (idx : list N),
  (texts v ts -> Forall2 (Forall2 reads) ts ws -> keys v < 2 ^ 32 ->
   release_new canon (Some v) None None = Ok t \/ (exists u, sith_clauses u ts /\ release_new canon None None (Some u) = Ok t) \/
   (exists a b c, release_new canon a b c = Ok t /\ t_weighted t = true /\ t_thold t = v) ->
   (forall i, In i idx -> i < keys v) -> (forall c, In c (signed_clauses idx 0 ws) -> ~ overflows c) ->
   release_satisfy t idx = Ok true /\ meets idx 0 ws \/ release_satisfy t idx = Ok false /\ ~ meets idx 0 ws) /\
  (forall a b c, tholder_new canon a b c <> Panic -> release_new canon a b c = tholder_new canon a b c) /\
  (satisfy t idx <> Panic -> release_satisfy t idx = satisfy t idx).
Proof. exact C116_partial_l. Qed.
Print Assumptions C116_complete_partial.

Example C116_partial_case : exists t, let v := VArr [VArr [VStr (s! "1/2"); VStr (s! "1/3"); VStr (s! "1/6"); VStr (s! "1")]] in
  release_new (fun _ => None) (Some v) None None = Ok t /\ release_satisfy t [0; 1; 2] = Ok true /\ release_satisfy t [0; 1] = Ok false /\ tholder_new (fun _ => None) (Some v) None None = Ok t /\
  ~ overflows [1 # 2; 1 # 3]%Q.
Proof.
  eexists. cbv zeta. do 4 (split; [vm_compute; reflexivity|]). intros (a & w & b & E & H). destruct a as [|a1 [|a2 a]]; inversion E; subst.
  - destruct H as [H|H]; vm_compute in H; congruence.
  - destruct H as [H|H]; vm_compute in H; congruence.
  - destruct a; discriminate.
Qed.
