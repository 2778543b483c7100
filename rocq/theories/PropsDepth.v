(** Property C170: stored credentials stand or fall with their chains. Theorem statements only; the proofs are in [DepthThms]. *)
From Coq Require Import String.
From Coq Require Import NArith ZArith QArith Bool List Lia.
From Verif Require Import Base Tables Matter Indexer Prims Json Common Saider Sadder Signer Prefixer Pather Short Verify Ingest Events SpecPrims SpecSaider SpecSadder SpecSigner SpecLog SpecIngest SpecCred SpecAgain World Forgery Chain SadderFacts VerifyThms IngestThms ChainThms EndorseThms AgainThms DepthThms.
Import ListNotations.
Open Scope N_scope.

(** Every credential that was taken into a ledger from an empty one, with verification on, holds with it the attachments it came with, and verifying it with them against the ledger as it now is, whenever that is, with
   the store trusted, succeeds exactly as long as the credential is in good standing: the last event of its log is no revocation and is not too old. Nothing else that was taken in since can make it fail. *)
Theorem C170_stored_credentials_stand_until_revoked :
  forall (canon : bytes -> option bytes) (hash : bytes -> bytes -> bytes) (cr : crypto) (messages_of : bytes -> R (list message)) (group_text : group -> R bytes)
    (schema_check : bytes -> bytes -> R bool) (age : bytes -> R Z) (seen_said : ledger -> bytes -> bool) (l : ledger) (age' : bytes -> R Z) (n : nat) (text : bytes),
  finds_all canon seen_said -> textual group_text -> reached canon hash cr messages_of group_text schema_check age seen_said l -> nth_error (l_acdc l) n = Some text ->
  exists e value rest said, text = d_raw e ++ rest /\ group_text (GQuadlets value) = Ok rest /\ creder_with_raw canon text = Ok e /\ sad_said e = Ok said /\ get_acdc (view canon l) said = Ok text /\
    forall fuel seen, verify_acdc canon hash cr messages_of schema_check age' (S fuel) (view canon l) e value (Some false) seen = Ok (true, seen) <-> standing canon age' (view canon l) said.
Proof. exact C170_l. Qed.
Print Assumptions C170_stored_credentials_stand_until_revoked.

Example C170_stand_case : finds_all no_floats (fun _ _ => true) /\ textual own_knot /\
  reached no_floats mix toy knotted own_knot accepts_all young (fun _ _ => true) own_chain /\ length (l_acdc own_chain) = 2%nat /\
  standing no_floats young (view no_floats own_chain) csaid_a /\ ~ standing no_floats (fun _ => Ok 36000000001%Z) (view no_floats own_chain) csaid_a.
Proof.
  split; [intros l said _; reflexivity|]. split; [exact knot_textual|]. split; [exact chain_reached|]. split; [now rewrite own_acdc|]. split; [exact (proj1 own_stands)|].
  intros (state & ilk & dt & secs & _ & _ & _ & _ & _ & [= <-] & L). lia.
Qed.

(** At depth, which is the default, the same credential verifies, once the recursion may be deep enough, exactly as long as it and every credential in the chains that start from it are in good standing. So one
   revocation anywhere up the chain, and nothing else, makes a stored credential fail. This is for a ledger in which no event has the identifier of a credential; the parser reads back groups that were printed. *)
Theorem C170_stored_credentials_stand_with_their_chains :
  forall (canon : bytes -> option bytes) (hash : bytes -> bytes -> bytes) (cr : crypto) (messages_of : bytes -> R (list message)) (group_text : group -> R bytes)
    (schema_check : bytes -> bytes -> R bool) (age : bytes -> R Z) (seen_said : ledger -> bytes -> bool) (l : ledger) (age' : bytes -> R Z) (n : nat) (text : bytes) (deep : option bool),
  sized_hash hash -> finds_all canon seen_said -> textual group_text -> reads_back messages_of group_text -> reached canon hash cr messages_of group_text schema_check age seen_said l ->
  (forall pre, len (l_tel l pre) <= 2 ^ 32) -> (forall s x, an_event canon (view canon l) s -> ~ held canon (view canon l) s x) -> deep <> Some false -> nth_error (l_acdc l) n = Some text ->
  exists e value rest more said, text = d_raw e ++ rest /\ messages_of rest = Ok (MGroup (GQuadlets value) :: more) /\ creder_with_raw canon text = Ok e /\ sad_said e = Ok said /\
    (forall fuel r, verify_acdc canon hash cr messages_of schema_check age' fuel (view canon l) e value deep [] = Ok r ->
      standing canon age' (view canon l) said /\ forall s, descends canon (view canon l) (d_ked e) s -> standing canon age' (view canon l) s) /\
    (standing canon age' (view canon l) said -> (forall s, descends canon (view canon l) (d_ked e) s -> standing canon age' (view canon l) s) ->
      exists bound, forall fuel seen, (bound <= fuel)%nat -> exists seen', verify_acdc canon hash cr messages_of schema_check age' fuel (view canon l) e value deep seen = Ok (true, seen')).
Proof. exact C170c_l. Qed.
Print Assumptions C170_stored_credentials_stand_with_their_chains.

Example C170_chain_case : sized_hash mix /\ finds_all no_floats (fun _ _ => true) /\ textual own_knot /\ reads_back knotted own_knot /\
  reached no_floats mix toy knotted own_knot accepts_all young (fun _ _ => true) own_chain /\ (forall pre, len (l_tel own_chain pre) <= 2 ^ 32) /\
  (forall s x, an_event no_floats (view no_floats own_chain) s -> ~ held no_floats (view no_floats own_chain) s x) /\
  nth_error (l_acdc own_chain) 1 = Some (d_raw cred_b ++ s! "h") /\ descends no_floats (view no_floats own_chain) (d_ked cred_b) csaid_a /\
  standing no_floats young (view no_floats own_chain) csaid_a /\ standing no_floats young (view no_floats own_chain) csaid_b.
Proof.
  split; [exact mix_sized|]. split; [intros l said _; reflexivity|]. split; [exact knot_textual|]. split; [exact knot_read|]. split; [exact chain_reached|]. split; [exact own_short|]. split; [exact own_apart|]. split; [now rewrite own_acdc|].
  split; [|exact own_stands]. apply descends_edge. exists edge_b. split; [|apply index_field; reflexivity].
  exists (s! "auth"), [(s! "d", VStr []); (s! "auth", edge_b)]. split; [right; now left|]. split; [discriminate|]. split; [discriminate|]. left. apply index_field. vm_compute. reflexivity.
Qed.

(** For any credential, new or stored, good or bad, with any attachments: if every credential in the chains that start from it is in good standing, verification at any depth, once the recursion may be deep enough,
   gives exactly what verification that trusts the store gives: the same answer, the same error, or a panic as well. So what C161, C163 and C164 say of verification that trusts the store holds at depth for such a ledger. *)
Theorem C170_depth_adds_nothing :
  forall (canon : bytes -> option bytes) (hash : bytes -> bytes -> bytes) (cr : crypto) (messages_of : bytes -> R (list message)) (group_text : group -> R bytes)
    (schema_check : bytes -> bytes -> R bool) (age : bytes -> R Z) (seen_said : ledger -> bytes -> bool) (l : ledger) (age' : bytes -> R Z) (e : sadder) (g : list group),
  sized_hash hash -> finds_all canon seen_said -> textual group_text -> reads_back messages_of group_text -> reached canon hash cr messages_of group_text schema_check age seen_said l ->
  (forall pre, len (l_tel l pre) <= 2 ^ 32) -> (forall s, descends canon (view canon l) (d_ked e) s -> standing canon age' (view canon l) s) ->
  exists bound, forall fuel deep seen, (bound <= fuel)%nat ->
    verdict (verify_acdc canon hash cr messages_of schema_check age' fuel (view canon l) e g deep seen) = verdict (verify_acdc canon hash cr messages_of schema_check age' 1 (view canon l) e g (Some false) []).
Proof. exact C170d_l. Qed.
Print Assumptions C170_depth_adds_nothing.

Example C170_depth_case : sized_hash mix /\ finds_all no_floats (fun _ _ => true) /\ textual own_knot /\ reads_back knotted own_knot /\
  reached no_floats mix toy knotted own_knot accepts_all young (fun _ _ => true) own_chain /\ (forall pre, len (l_tel own_chain pre) <= 2 ^ 32) /\
  verify_acdc no_floats mix toy knotted accepts_all young 1 (view no_floats own_chain) cred_b [GPaths [csigs_b]] (Some false) [] = Ok (true, []) /\
  verdict (verify_acdc no_floats mix toy knotted accepts_all young 9 (view no_floats own_chain) cred_b [] None []) = verdict (verify_acdc no_floats mix toy knotted accepts_all young 1 (view no_floats own_chain) cred_b [] (Some false) []) /\
  is_err (verify_acdc no_floats mix toy knotted accepts_all young 9 (view no_floats own_chain) cred_b [] None []) = true.
Proof.
  split; [exact mix_sized|]. split; [intros l said _; reflexivity|]. split; [exact knot_textual|]. split; [exact knot_read|]. split; [exact chain_reached|]. split; [exact own_short|]. split; [exact own_accepted|]. split; vm_compute; reflexivity.
Qed.
