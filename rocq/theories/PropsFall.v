(** Properties C161 and C162, exactly: which attachments bring the verification of an acceptable credential down, and which it is accepted with. Theorem statements only; the proofs are in [FallThms]. *)
From Coq Require Import String.
From Coq Require Import NArith ZArith QArith Bool List Lia.
From Verif Require Import Base Tables Matter Indexer Prims Json Tholder Common Saider Diger Sadder Signer Prefixer Pather Short Verify Ingest Events SpecPrims SpecTholder SpecSaider SpecSadder SpecSigner SpecLog SpecIngest SpecCred SpecExtra SpecEndorse SpecAgain SpecFall World Forgery Chain SadderFacts VerifyThms CredThms IngestThms ChainThms AgainThms EndorseThms DepthThms FallThms.
Import ListNotations.
Open Scope N_scope.

(** Which attachments bring the verification of a credential down, exactly. Take a credential that is accepted with some attachments and attach instead any groups whatsoever, with the store trusted: verification panics if
   and only if, reading the groups from the front, among the signatures of a stored key event on the whole credential one has the number of the keys of that event as its index, before any signature that cannot be
   checked, any group of another kind, and any group about the whole that does not endorse it. Paths must have texts; the store must answer about the events named, if it has them with thresholds that give each key
   a weight with a small denominator. *)
Theorem C161_credential_verification_answers_exactly :
  forall (canon : bytes -> option bytes) (hash : bytes -> bytes -> bytes) (cr : crypto) (messages_of : bytes -> R (list message)) (schema_check : bytes -> bytes -> R bool) (age : bytes -> R Z)
    (fuel : nat) (st : store) (e : sadder) (g g' : list group) (seen : list bytes) (r : bool * list bytes),
  verify_acdc canon hash cr messages_of schema_check age fuel st e g (Some false) seen = Ok r ->
  (forall l p, In (GPaths l) g' -> In p l -> exists path, bext_of (sp_pather p) = Ok path) -> (forall p, about_all g' p -> placed canon st p) ->
  (verify_acdc canon hash cr messages_of schema_check age fuel st e g' (Some false) seen = Panic <-> falls canon cr st (d_raw e) g').
Proof. exact C161_exactly_l. Qed.
Print Assumptions C161_credential_verification_answers_exactly.

Example C161_exactly_case : verify_acdc no_floats mix toy runic accepts_all young 9 (view no_floats issued) cred0 [GPaths [csigs0]] (Some false) [] = Ok (true, []) /\
  (forall x, placed no_floats (view no_floats issued) (lone x)) /\ placed no_floats (view no_floats issued) csigs0 /\ placed no_floats (view no_floats issued) csigs_m /\
  verify_acdc no_floats mix toy runic accepts_all young 9 (view no_floats issued) cred0 [GPaths [csigs0; lone (Ix (s! "A") [] 2 2)]; GOther] (Some false) [] = Panic /\
  verify_acdc no_floats mix toy runic accepts_all young 9 (view no_floats issued) cred0 [GPaths [csigs0; lone (Ix (s! "A") [] 3 3)]; GPaths [lone (Ix (s! "A") [] 2 2)]] (Some false) [] = Err EVerification /\
  verify_acdc no_floats mix toy runic accepts_all young 9 (view no_floats issued) cred0 [GPaths [csigs0]; GPaths [csigs_m]; GPaths [lone (Ix (s! "A") [] 2 2)]] (Some false) [] = Err EForeign.
Proof.
  split; [exact issued_accepted|]. destruct issued_refers as (ks & t & A & B & C). assert (steady t (len ks)) as ST by (intros W; congruence).
  split; [intros x; right; right; exists event0, ks, t; split; [exact A|exact ST]|]. split; [right; right; exists event0, ks, t; split; [exact A|exact ST]|].
  split. { left. exists pre_m, 0, EForeign. split; [vm_compute; reflexivity|]. split; vm_compute; reflexivity. } split; [vm_compute; reflexivity|]. split; vm_compute; reflexivity.
Qed.

(** The same at any depth, once the recursion may be deep enough, in a ledger taken in from an empty one with verification on, if every credential in the chains that start from this one is in good standing. *)
Theorem C161_credential_verification_answers_exactly_at_depth :
  forall (canon : bytes -> option bytes) (hash : bytes -> bytes -> bytes) (cr : crypto) (messages_of : bytes -> R (list message)) (group_text : group -> R bytes)
    (schema_check : bytes -> bytes -> R bool) (age : bytes -> R Z) (seen_said : ledger -> bytes -> bool) (l : ledger) (age' : bytes -> R Z) (e : sadder) (g g' : list group) (r : bool * list bytes),
  sized_hash hash -> finds_all canon seen_said -> textual group_text -> reads_back messages_of group_text -> reached canon hash cr messages_of group_text schema_check age seen_said l ->
  (forall pre, len (l_tel l pre) <= 2 ^ 32) -> (forall s, descends canon (view canon l) (d_ked e) s -> standing canon age' (view canon l) s) ->
  verify_acdc canon hash cr messages_of schema_check age' 1 (view canon l) e g (Some false) [] = Ok r ->
  (forall l0 p, In (GPaths l0) g' -> In p l0 -> exists path, bext_of (sp_pather p) = Ok path) -> (forall p, about_all g' p -> placed canon (view canon l) p) ->
  exists bound, forall fuel deep seen, (bound <= fuel)%nat ->
    (verify_acdc canon hash cr messages_of schema_check age' fuel (view canon l) e g' deep seen = Panic <-> falls canon cr (view canon l) (d_raw e) g').
Proof. exact C161_at_depth_l. Qed.
Print Assumptions C161_credential_verification_answers_exactly_at_depth.

Example C161_at_depth_case : sized_hash mix /\ finds_all no_floats (fun _ _ => true) /\ textual own_knot /\ reads_back knotted own_knot /\
  reached no_floats mix toy knotted own_knot accepts_all young (fun _ _ => true) own_chain /\ (forall pre, len (l_tel own_chain pre) <= 2 ^ 32) /\
  verify_acdc no_floats mix toy knotted accepts_all young 1 (view no_floats own_chain) cred_b [GPaths [csigs_b]] (Some false) [] = Ok (true, []) /\ (forall x, placed no_floats (view no_floats own_chain) (lone x)) /\
  verify_acdc no_floats mix toy knotted accepts_all young 9 (view no_floats own_chain) cred_b [GPaths [csigs_b; lone (Ix (s! "A") [] 2 2)]] None [] = Panic /\
  is_err (verify_acdc no_floats mix toy knotted accepts_all young 9 (view no_floats own_chain) cred_b [GPaths [csigs_b; lone (Ix (s! "A") [] 3 3)]] None []) = true.
Proof.
  split; [exact mix_sized|]. split; [intros l said _; reflexivity|]. split; [exact knot_textual|]. split; [exact knot_read|]. split; [exact chain_reached|]. split; [exact own_short|]. split; [exact own_accepted|].
  split; [|split; vm_compute; reflexivity]. intros x. right. right. destruct issued_refers as (ks & t & (pre & n & said & A1 & A2 & A3 & (text & A4 & A5 & A6) & A7 & A8) & B & C). exists event0, ks, t. split; [|intros W; congruence].
  exists pre0, 0, (World.got [] (sad_said event0)). split; [vm_compute; reflexivity|]. split; [vm_compute; reflexivity|]. split; [vm_compute; reflexivity|]. split; [|split; [exact A7|exact A8]].
  exists (World.got [] (get_key_event (view no_floats own_chain) pre0 (asked_for 0))). split; [vm_compute; reflexivity|]. split; vm_compute; reflexivity.
Qed.

(** Which attachments an acceptable credential is accepted with, exactly. Take a credential that is accepted with some attachments and attach instead any groups, with the store trusted: it is accepted, with the same
   answer, if and only if all groups are of signatures on parts of it, one at least is about the whole, and each of these names a stored key event and has enough good signatures by its keys. So a further
   endorsement does no harm exactly if it is good. *)
Theorem C162_further_endorsements_exactly :
  forall (canon : bytes -> option bytes) (hash : bytes -> bytes -> bytes) (cr : crypto) (messages_of : bytes -> R (list message)) (schema_check : bytes -> bytes -> R bool) (age : bytes -> R Z)
    (fuel : nat) (st : store) (e : sadder) (g g' : list group) (seen : list bytes) (r : bool * list bytes),
  verify_acdc canon hash cr messages_of schema_check age fuel st e g (Some false) seen = Ok r ->
  (verify_acdc canon hash cr messages_of schema_check age fuel st e g' (Some false) seen = Ok r <->
   Forall on_parts g' /\ (exists p, about_all g' p) /\ forall p, about_all g' p -> endorsed canon cr st (d_raw e) p).
Proof. exact C162_exactly_l. Qed.
Print Assumptions C162_further_endorsements_exactly.

Example C162_exactly_case : verify_acdc no_floats mix toy runic accepts_all young 9 (view no_floats issued) cred0 [GPaths [csigs0]] (Some false) [] = Ok (true, []) /\
  verify_acdc no_floats mix toy runic accepts_all young 9 (view no_floats issued) cred0 [GPaths [csigs0]; GPaths [csigs0]] (Some false) [] = Ok (true, []) /\
  verify_acdc no_floats mix toy runic accepts_all young 9 (view no_floats issued) cred0 [] (Some false) [] = Err EVerification /\
  verify_acdc no_floats mix toy runic accepts_all young 9 (view no_floats issued) cred0 [GPaths [csigs0]; GOther] (Some false) [] = Err EDecoding.
Proof. split; [exact issued_accepted|]. split; [vm_compute; reflexivity|]. split; vm_compute; reflexivity. Qed.

(** The same at any depth, once the recursion may be deep enough, in a ledger taken in from an empty one with verification on, if every credential in the chains that start from this one is in good standing. *)
Theorem C162_further_endorsements_exactly_at_depth :
  forall (canon : bytes -> option bytes) (hash : bytes -> bytes -> bytes) (cr : crypto) (messages_of : bytes -> R (list message)) (group_text : group -> R bytes)
    (schema_check : bytes -> bytes -> R bool) (age : bytes -> R Z) (seen_said : ledger -> bytes -> bool) (l : ledger) (age' : bytes -> R Z) (e : sadder) (g g' : list group) (there : bool),
  sized_hash hash -> finds_all canon seen_said -> textual group_text -> reads_back messages_of group_text -> reached canon hash cr messages_of group_text schema_check age seen_said l ->
  (forall pre, len (l_tel l pre) <= 2 ^ 32) -> (forall s, descends canon (view canon l) (d_ked e) s -> standing canon age' (view canon l) s) ->
  verify_acdc canon hash cr messages_of schema_check age' 1 (view canon l) e g (Some false) [] = Ok (there, []) ->
  exists bound, forall fuel deep seen, (bound <= fuel)%nat ->
    ((exists seen', verify_acdc canon hash cr messages_of schema_check age' fuel (view canon l) e g' deep seen = Ok (there, seen')) <->
     Forall on_parts g' /\ (exists p, about_all g' p) /\ forall p, about_all g' p -> endorsed canon cr (view canon l) (d_raw e) p).
Proof. exact C162_at_depth_l. Qed.
Print Assumptions C162_further_endorsements_exactly_at_depth.

Example C162_at_depth_case : sized_hash mix /\ finds_all no_floats (fun _ _ => true) /\ textual own_knot /\ reads_back knotted own_knot /\
  reached no_floats mix toy knotted own_knot accepts_all young (fun _ _ => true) own_chain /\ (forall pre, len (l_tel own_chain pre) <= 2 ^ 32) /\
  verify_acdc no_floats mix toy knotted accepts_all young 1 (view no_floats own_chain) cred_b [GPaths [csigs_b]] (Some false) [] = Ok (true, []) /\
  verdict (verify_acdc no_floats mix toy knotted accepts_all young 9 (view no_floats own_chain) cred_b [GPaths [csigs_b]; GPaths [csigs_b]] None []) = Ok true.
Proof.
  split; [exact mix_sized|]. split; [intros l said _; reflexivity|]. split; [exact knot_textual|]. split; [exact knot_read|]. split; [exact chain_reached|]. split; [exact own_short|]. split; [exact own_accepted|]. vm_compute. reflexivity.
Qed.
