(** Properties C136 and C137: witnesses. Theorem statements only; the proofs are in [WitnessThms]. *)
From Coq Require Import String.
From Coq Require Import NArith ZArith QArith Bool List Lia.
From Verif Require Import Base Tables Matter Indexer Prims Json Tholder Common Saider Diger Sadder Signer Prefixer Pather Short Verify Ingest Events Spec SpecPrims SpecJson SpecCommon SpecTholder SpecSaider SpecSadder SpecPrefixer SpecSigner SpecLog SpecIngest SpecWitness World WitnessThms FollowThms FollowFacts SignerThms VerifyThms IngestThms LogThms SadderFacts BaseFacts.
Import ListNotations.
Open Scope N_scope.

(** What holds: an inception built for witnesses without a witness threshold announces one, between 1 and their number, that is safe: any two groups of that many witnesses have
   an honest one in common as long as fewer than a third are faulty. Missing: that the honest witnesses always reach it. *)
Theorem C136_default_threshold_partial :
  forall (canon : bytes -> option bytes) (hash : bytes -> bytes -> bytes) (keys : list bytes) (sith : option value) (ndigs : option (list bytes)) (nsith : option value) (wits : list bytes)
    (cnfg : option (list bytes)) (data : option (list value)) (ver : option version) (kind code : option bytes) (intive : option bool) (delpre : option bytes) (e : sadder),
  sized_hash hash -> incept canon hash keys sith ndigs nsith None (Some wits) cnfg data ver kind code intive delpre = Ok e -> wits <> [] ->
  field_of (d_ked e) (s! "b") (VArr (map VStr wits)) /\ exists m, witness_threshold e m /\ 1 <= m /\ m <= len wits /\ safe (len wits) m.
Proof. exact C136_l. Qed.
Print Assumptions C136_default_threshold_partial.

Example C136_case : exists e, incept no_floats mix [s! "DAAAAAAAAAAAAAAAAAAAAAAAAAAAAAAAAAAAAAAAAAAA"] None None None None (Some [s! "a"; s! "b"; s! "c"; s! "d"; s! "e"]) None None None None None None None = Ok e /\ witness_threshold e 4 /\ safe 5 4 /\ live 5 4.
Proof.
  eexists. split; [vm_compute; reflexivity|]. split; [right; exists (s! "4"); split; [apply field_assoc; vm_compute; reflexivity|]|split; [reflexivity|vm_compute; discriminate]].
  split; [discriminate|]. exists [], (s! "4"). split; [reflexivity|]. split; [now left|]. split; [discriminate|]. split; [|reflexivity]. intros c [<-|[]]. vm_compute. auto 10.
Qed.

(** False as stated: the default for four witnesses is four, though one of four may be faulty. *)
Theorem C136_default_threshold_refuted :
  exists e, incept no_floats mix [s! "DAAAAAAAAAAAAAAAAAAAAAAAAAAAAAAAAAAAAAAAAAAA"] None None None None (Some [s! "a"; s! "b"; s! "c"; s! "d"]) None None None None None None None = Ok e /\
  field_of (d_ked e) (s! "bt") (VStr (s! "4")) /\ ~ live 4 4 /\ safe 4 3 /\ live 4 3.
Proof. exact C136_no_l. Qed.
Print Assumptions C136_default_threshold_refuted.

(** Exactly when the honest witnesses reach the default threshold: if their number is one, or does not leave the remainder one when divided by three. So for inceptions, and for
   rotations with the number of witnesses that remain after cutting and adding. *)
Theorem C136_default_threshold_exactly :
  forall (canon : bytes -> option bytes) (hash : bytes -> bytes -> bytes),
  sized_hash hash ->
  (forall keys sith ndigs nsith wits cnfg data ver kind code intive delpre e,
    incept canon hash keys sith ndigs nsith None (Some wits) cnfg data ver kind code intive delpre = Ok e -> wits <> [] ->
    exists m, witness_threshold e m /\ (live (len wits) m <-> len wits mod 3 <> 1 \/ len wits = 1)) /\
  (forall pre keys dig ilk sn sith ndigs nsith wits cuts adds data ver kind intive e,
    rotate canon hash pre keys dig ilk sn sith ndigs nsith None (Some wits) (Some cuts) (Some adds) data ver kind intive = Ok e ->
    exists gone n m, cut_out cuts wits gone /\ n + len gone = len wits + len adds /\ witness_threshold e m /\ (n = 0 -> m = 0) /\
      (1 <= n -> 1 <= m /\ m <= n /\ safe n m /\ (live n m <-> n mod 3 <> 1 \/ n = 1))).
Proof. exact C136_exactly_l. Qed.
Print Assumptions C136_default_threshold_exactly.

Example C136_exactly_case : 5 mod 3 <> 1 /\ 4 mod 3 = 1 /\ exists e, incept no_floats mix [s! "DAAAAAAAAAAAAAAAAAAAAAAAAAAAAAAAAAAAAAAAAAAA"] None None None None (Some [s! "a"; s! "b"; s! "c"; s! "d"; s! "e"]) None None None None None None None = Ok e.
Proof. split; [discriminate|]. split; [reflexivity|]. eexists. vm_compute. reflexivity. Qed.

(** What holds: a rotation that was built lists the cuts and the additions it was given, and its witness threshold, the one given if one was given, is from 1 to the number of
   witnesses left after cutting those that are to be cut and adding the new ones, or zero if none is left. Missing: that every rotation with such a threshold is built, and
   that only present witnesses are cut. *)
Theorem C137_cutting_witnesses_partial :
  forall (canon : bytes -> option bytes) (hash : bytes -> bytes -> bytes) (pre : bytes) (keys : list bytes) (dig : bytes) (ilk : option bytes) (sn : N) (sith : option value) (ndigs : option (list bytes))
    (nsith : option value) (toad : option N) (wits cuts adds : list bytes) (data : option (list value)) (ver : option version) (kind : option bytes) (intive : option bool) (e : sadder),
  sized_hash hash -> (forall t, toad = Some t -> t < 2 ^ 128) ->
  rotate canon hash pre keys dig ilk sn sith ndigs nsith toad (Some wits) (Some cuts) (Some adds) data ver kind intive = Ok e ->
  exists m gone n, witness_threshold e m /\ cut_out cuts wits gone /\ n + len gone = len wits + len adds /\ (n = 0 -> m = 0) /\ (1 <= n -> 1 <= m /\ m <= n) /\ (forall t, toad = Some t -> m = t) /\
    field_of (d_ked e) (s! "br") (VArr (map VStr cuts)) /\ field_of (d_ked e) (s! "ba") (VArr (map VStr adds)).
Proof. exact C137_l. Qed.
Print Assumptions C137_cutting_witnesses_partial.

Example C137_case : exists e, rotate no_floats mix pre0 [s! "DAAAAAAAAAAAAAAAAAAAAAAAAAAAAAAAAAAAAAAAAAAA"] pre0 None 1 None (Some [s! "x"]) None (Some 2) (Some [s! "a"; s! "b"; s! "c"]) (Some [s! "b"]) (Some [s! "d"]) None None None None = Ok e /\
  cut_out [s! "b"] [s! "a"; s! "b"; s! "c"] [s! "b"].
Proof.
  eexists. split; [vm_compute; reflexivity|]. apply those_no; [intros [X|[]]; discriminate X|]. apply those_yes; [now left|]. apply those_no; [intros [X|[]]; discriminate X|]. constructor.
Qed.

(** False as stated: cutting the last two of three witnesses panics; and a rotation that cuts a witness the identifier does not have is built. *)
Theorem C137_cutting_witnesses_refuted :
  rotate no_floats mix pre0 [s! "DAAAAAAAAAAAAAAAAAAAAAAAAAAAAAAAAAAAAAAAAAAA"] pre0 None 1 None (Some [s! "x"]) None (Some 1) (Some [s! "a"; s! "b"; s! "c"]) (Some [s! "b"; s! "c"]) None None None None None = Panic /\
  exists e, rotate no_floats mix pre0 [s! "DAAAAAAAAAAAAAAAAAAAAAAAAAAAAAAAAAAAAAAAAAAA"] pre0 None 1 None (Some [s! "x"]) None (Some 1) (Some [s! "a"; s! "b"; s! "c"]) (Some [s! "z"]) None None None None None = Ok e.
Proof. exact C137_no_l. Qed.
Print Assumptions C137_cutting_witnesses_refuted.

(** Exactly which cuts the code cannot carry out: those with a witness that has fewer witnesses behind it than are cut besides it. No such rotation is ever built; and where the
   rotation is built with no cuts (and no witness threshold), it panics with such cuts, if they are distinct and none is to be added as well. *)
Theorem C137_cutting_witnesses_exactly :
  forall (canon : bytes -> option bytes) (hash : bytes -> bytes -> bytes) (pre : bytes) (keys : list bytes) (dig : bytes) (ilk : option bytes) (sn : N) (sith : option value) (ndigs : option (list bytes))
    (nsith : option value) (toad : option N) (wits cuts adds : list bytes) (data : option (list value)) (ver : option version) (kind : option bytes) (intive : option bool),
  cut_too_far cuts wits ->
  is_ok (rotate canon hash pre keys dig ilk sn sith ndigs nsith toad (Some wits) (Some cuts) (Some adds) data ver kind intive) = false /\
  (NoDup cuts -> (forall w, In w cuts -> ~ In w adds) ->
   is_ok (rotate canon hash pre keys dig ilk sn sith ndigs nsith None (Some wits) None (Some adds) data ver kind intive) = true ->
   rotate canon hash pre keys dig ilk sn sith ndigs nsith toad (Some wits) (Some cuts) (Some adds) data ver kind intive = Panic).
Proof. exact C137_exactly_l. Qed.
Print Assumptions C137_cutting_witnesses_exactly.

Example C137_exactly_case : cut_too_far [s! "b"; s! "c"] [s! "a"; s! "b"; s! "c"] /\
  exists e, rotate no_floats mix pre0 [s! "DAAAAAAAAAAAAAAAAAAAAAAAAAAAAAAAAAAAAAAAAAAA"] pre0 None 1 None (Some [s! "x"]) None None (Some [s! "a"; s! "b"; s! "c"]) None (Some []) None None None None = Ok e.
Proof.
  split; [|eexists; vm_compute; reflexivity]. exists [s! "a"; s! "b"], (s! "c"), [], [s! "b"; s! "c"]. split; [reflexivity|]. split; [right; now left|]. split; [|reflexivity].
  apply those_no; [intros [X|[X|[]]]; discriminate X|]. apply those_yes; [now left|]. apply those_yes; [right; now left|]. constructor.
Qed.
