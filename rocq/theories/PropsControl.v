(** Property C141, continued: who lived the life of an identifier controls it in the ledger, and can set up registries there. Theorem statements only; the proofs are in [ControlThms]. *)
From Coq Require Import String.
From Coq Require Import NArith ZArith QArith Bool List Lia.
From Verif Require Import Base Tables Matter Indexer Prims Json Tholder Common Saider Diger Sadder Signer Prefixer Pather Short Verify Ingest Events Issue Spec SpecPrims SpecJson SpecCommon SpecTholder SpecSaider SpecSadder SpecPrefixer SpecSigner SpecLog SpecIngest SpecCred SpecBuild SpecLife SpecIssue World Issued IssueCases LifeThms FollowThms FollowFacts SignerThms VerifyThms ControlThms.
Import ListNotations.
Open Scope N_scope.

(** Who lived the life of an identifier as in C141 controls it in the ledger that took the life in: the last event there is the last of this life, and the keys in force are those of their key set. So everything C142, C143 and
   C144 say about a controller in a ledger holds for them: they can set up registries, issue and revoke. The events of others, the registries and the credentials in the ledger are as before. *)
Theorem C141_life_gives_control :
  forall (canon : bytes -> option bytes) (hash : bytes -> bytes -> bytes) (cr : crypto) (messages_of : bytes -> R (list message)) (group_text : group -> R bytes)
    (schema_check : bytes -> bytes -> R bool) (age : bytes -> R Z) (seen_said : ledger -> bytes -> bool) (fuel : nat) (deep verify : option bool) (l : ledger)
    (pre : bytes) (n : N) (dig : bytes) (k : keyset) (nk : option keyset) (evs : list (sadder * list indexer)) (keys : bytes -> R keyset),
  correct cr -> sized_hash hash -> textual group_text -> life canon hash cr pre n dig k nk evs -> n <= 2 ^ 32 ->
  (forall e sigs, In (e, sigs) evs -> readable e /\ exists t, group_text (GQuadlets [GSigs sigs]) = Ok t) ->
  l_kel l pre = [] -> deep <> Some true -> verify <> Some false ->
  exists l', fed canon hash cr messages_of group_text schema_check age seen_said (S fuel) deep verify l evs l' /\ controls canon hash cr l' pre k /\ len (l_kel l' pre) = n /\ w_said (purse canon keys l') pre = Ok dig /\
    (forall other, other <> pre -> l_kel l' other = l_kel l other) /\ l_tel l' = l_tel l /\ l_acdc l' = l_acdc l.
Proof. exact C141_control_l. Qed.
Print Assumptions C141_life_gives_control.

Example C141_control_case : exists l, l_kel l pre0 = [] /\ (forall pre, l_tel l pre = []) /\ life no_floats mix toy pre0 1 pre0 keys0 (Some keys1) [(event0, sigs0)] /\ readable event0.
Proof.
  exists empty. split; [reflexivity|]. split; [reflexivity|]. split.
  - refine (life_begun no_floats mix toy keys0 (Some keys1) (got [] (ks_verfers_qb64 toy keys0)) (Some (VStr (s! "2"))) (Some (got [] (ks_digers_qb64 mix toy keys1))) (Some (VStr (s! "2"))) None None None None None None None (fun _ => []) event0 (got [] (ks_sign mix toy (fun _ => []) keys0 (d_raw event0) None)) pre0 _ _ _ _ _ _ _).
    + reflexivity.
    + vm_compute. reflexivity.
    + intros x t [= <-] T. vm_compute in T. injection T as <-. split; discriminate.
    + eexists. split; [reflexivity|]. split; [vm_compute; discriminate|]. split; [vm_compute; reflexivity|]. split; [vm_compute; reflexivity|]. intros x t [= <-] T. vm_compute in T. injection T as <-. split; discriminate.
    + vm_compute. reflexivity.
    + vm_compute. reflexivity.
    + vm_compute. reflexivity.
  - split; [apply data_checked; vm_compute; reflexivity|]. split; [apply nests_checked; vm_compute; reflexivity|vm_compute; reflexivity].
Qed.

(** From nothing to a registry: who lived the life of an identifier makes a registry, an event of theirs that anchors it, with the number and the identifier of the last event from their own life and
   not from any ledger, and the text of the registry. Then any ledger without events of the identifier takes in the life, then the anchor, then the registry, all without an error; in the end
   they control the identifier there and own the registry. *)
Theorem C141_life_then_registry :
  forall (canon : bytes -> option bytes) (hash : bytes -> bytes -> bytes) (cr : crypto) (messages_of : bytes -> R (list message)) (group_text : group -> R bytes)
    (schema_check : bytes -> bytes -> R bool) (age : bytes -> R Z) (seen_said : ledger -> bytes -> bool) (fuel : nat) (deep verify : option bool) (l : ledger)
    (pre : bytes) (n : N) (dig : bytes) (k : keyset) (nk : option keyset) (evs : list (sadder * list indexer)) (rng : N -> bytes) (registry event anchor ixn text : bytes),
  correct cr -> sized_hash hash -> textual group_text -> life canon hash cr pre n dig k nk evs -> n < 2 ^ 32 ->
  (forall e sigs, In (e, sigs) evs -> readable e /\ exists t, group_text (GQuadlets [GSigs sigs]) = Ok t) ->
  l_kel l pre = [] -> l_tel l registry = [] -> deep <> Some true -> verify <> Some false ->
  registry_incept canon hash pre = Ok (registry, event) -> do_interact hash cr canon rng k pre dig n (one_seal registry (s! "0") registry) = Ok (anchor, ixn) ->
  anchored_text event n anchor = Ok text -> len ixn < 2 ^ 32 ->
  exists e1 g1 t1 e2 g2 t2, ixn = d_raw e1 ++ t1 /\ written g1 t1 /\ text = d_raw e2 ++ t2 /\ written g2 t2 /\
    (readable e1 -> readable e2 -> carried messages_of group_text (d_raw e1) g1 t1 -> carried messages_of group_text (d_raw e2) g2 t2 ->
     exists l0 l1 l2, fed canon hash cr messages_of group_text schema_check age seen_said (S (S fuel)) deep verify l evs l0 /\
       ingest_messages canon hash cr messages_of group_text schema_check age seen_said (S (S fuel)) l0 ixn (Some false) verify = (l1, Ok tt) /\
       ingest_messages canon hash cr messages_of group_text schema_check age seen_said (S (S fuel)) l1 text (Some false) verify = (l2, Ok tt) /\
       controls canon hash cr l2 pre k /\ owns canon l2 pre registry).
Proof. exact C141_registry_l. Qed.
Print Assumptions C141_life_then_registry.

Example C141_registry_case : life no_floats mix toy pre0 1 pre0 keys0 (Some keys1) [(event0, sigs0)] /\ l_kel empty pre0 = [] /\ l_tel empty rpre0 = [] /\ registry_incept no_floats mix pre0 = Ok (rpre0, d_raw e_r2) /\
  do_interact mix toy no_floats no_rng keys0 pre0 pre0 1 (one_seal rpre0 (s! "0") rpre0) = Ok anchor_text1 /\ anchored_text (d_raw e_r2) 1 (fst anchor_text1) = Ok registry_text /\ len (snd anchor_text1) < 2 ^ 32.
Proof.
  split; [destruct C141_control_case as (l & _ & _ & H & _); exact H|]. split; [reflexivity|]. split; [reflexivity|]. destruct registry_done as (D1 & D2 & D3). split; [exact D1|].
  split; [assert (got [] (sad_said event0) = pre0) as <- by (vm_compute; reflexivity); exact D2|]. split; [exact D3|]. vm_compute. reflexivity.
Qed.
