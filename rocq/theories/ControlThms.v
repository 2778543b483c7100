(** Property C141, continued: who lived an identifier's life controls it in the ledger. *)
From Coq Require Import String.
From Coq Require Import NArith ZArith QArith Bool List Lia.
From Verif Require Import Base Util Tables Matter Indexer Prims Json Tholder Common Saider Diger Sadder Signer Prefixer Pather Short Verify Ingest Events Issue.
From Verif Require Import Spec SpecPrims SpecJson SpecCommon SpecTholder SpecSaider SpecSadder SpecPrefixer SpecSigner SpecLog SpecIngest SpecCred SpecBuild SpecLife SpecIssue World.
From Verif Require Import BaseFacts SadderFacts SaiderFacts VerifyFacts VerifyThms LogThms IngestThms FollowFacts FollowThms SignerThms LifeThms IssueThms.
Import ListNotations.
Open Scope N_scope.

Lemma life_prefix canon hash cr pre n dig k nk evs : sized_hash hash -> life canon hash cr pre n dig k nk evs -> exists p, prefixer_with_qb64 hash pre = Ok p /\ infil p = Ok pre.
Proof.
  intros SH LF. induction LF as [k nk keys sith ndigs nsith toad wits cnfg data ver kind intive rng e sigs pre O KS CV AN H SG PR| |]; auto.
  destruct (incept_shape _ _ _ _ _ _ _ _ _ _ _ _ _ _ SH H) as (vs & pre' & p & th & nu & xt & toader & kt & nt & bt & _ & _ & _ & _ & _ & _ & _ & _ & _ & _ & K & IP & XP & _).
  assert (pre' = pre) as <-. { unfold serder_pre in PR. rewrite K in PR. vm_compute in PR. congruence. } exists p. split; [unfold prefixer_with_qb64, prefixer_new; exact XP|exact IP].
Qed.

(*# C141_life_gives_control
   Who lived the life of an identifier as in C141 controls it in the ledger that took the life in: the last event there is the last of this life, and the keys in force are those of their key set. So everything C142, C143 and
   C144 say about a controller in a ledger holds for them: they can set up registries, issue and revoke. The events of others, the registries and the credentials in the ledger are as before.
##
Example C141_control_case : exists l, l_kel l pre0 = [] /\ (forall pre, l_tel l pre = []) /\ life no_floats mix toy pre0 1 pre0 keys0 (Some keys1) [(event0, sigs0)] /\ readable event0.
Proof.
  exists empty. split; [reflexivity|]. split; [reflexivity|]. split.
  - refine (life_begun no_floats mix toy keys0 (Some keys1) (got [] (ks_verfers_qb64 toy keys0)) (Some (VStr (s! "2"))) (Some (got [] (ks_digers_qb64 mix toy keys1))) (Some (VStr (s! "2"))) None None None None None None None (fun _ => []) event0 (got [] (ks_sign mix toy (fun _ => []) keys0 (d_raw event0) None)) pre0 _ _ _ _ _ _ _).
    + reflexivity.
    + vm_compute. reflexivity.
    + intros x t [= <-] T. vm_compute in T. injection T as <-. split; discriminate.
    + eexists. split; [reflexivity|]. split; [vm_compute; discriminate|]. split; [vm_compute; reflexivity|]. split; [vm_compute; reflexivity|]. intros x t [= <-] T. vm_compute in T. injection T as <-. split; discriminate.
    + vm_compute. reflexivity.
    + vm_compute. reflexivity.
    + vm_compute. reflexivity.
  - split; [apply data_checked; vm_compute; reflexivity|]. split; [apply nests_checked; vm_compute; reflexivity|vm_compute; reflexivity].
Qed.
#*)
Lemma C141_control_l (canon : bytes -> option bytes) (hash : bytes -> bytes -> bytes) (cr : crypto) (messages_of : bytes -> R (list message)) (group_text : group -> R bytes)
    (schema_check : bytes -> bytes -> R bool) (age : bytes -> R Z) (seen_said : ledger -> bytes -> bool) (fuel : nat) (deep verify : option bool) (l : ledger)
    (pre : bytes) (n : N) (dig : bytes) (k : keyset) (nk : option keyset) (evs : list (sadder * list indexer)) (keys : bytes -> R keyset) :
  correct cr -> sized_hash hash -> textual group_text -> life canon hash cr pre n dig k nk evs -> n <= 2 ^ 32 ->
  (forall e sigs, In (e, sigs) evs -> readable e /\ exists t, group_text (GQuadlets [GSigs sigs]) = Ok t) ->
  l_kel l pre = [] -> deep <> Some true -> verify <> Some false ->
  exists l', fed canon hash cr messages_of group_text schema_check age seen_said (S fuel) deep verify l evs l' /\ controls canon hash cr l' pre k /\ len (l_kel l' pre) = n /\ w_said (purse canon keys l') pre = Ok dig /\
    (forall other, other <> pre -> l_kel l' other = l_kel l other) /\ l_tel l' = l_tel l /\ l_acdc l' = l_acdc l.
Proof.
  intros CR SH TX LF B RD E D V. assert (forall e sigs, In (e, sigs) evs -> serder_with_raw canon (d_raw e) = Ok e /\ exists t, group_text (GQuadlets [GSigs sigs]) = Ok t) as RD'.
  { intros e sigs I. destruct (RD e sigs I) as ((DA & NE & L) & G). split; auto. apply back; auto. exact (life_made _ _ _ _ _ _ _ _ _ SH LF e sigs I). }
  destruct (C141_follows canon hash cr messages_of group_text schema_check age seen_said fuel deep verify l pre n dig k nk evs CR SH TX LF B RD' E D V) as (l' & F & [_ F1 C O (pe & ilk & ee & ks & LG & _ & ES & _ & KS & SK & _)] & _ & OT & TL & AL).
  exists l'. split; [exact F|]. split; [|split; [exact C|split; [|split; [exact OT|split; [exact TL|exact AL]]]]].
  - split; [exact (life_prefix _ _ _ _ _ _ _ _ _ SH LF)|]. split; [exact O|]. exists (n - 1), pe, dig, ee, ks. split; [lia|]. auto.
  - destruct LG as (text & GT & ST & SA). cbn [purse w_said]. cbn [view get_key_event] in GT. unfold at_sn in GT. destruct (nth_error (l_kel l' pre) (N.to_nat (n - 1))) as [x|] eqn:NX; [|discriminate]. injection GT as ->.
    apply nth_error_split in NX as (a & b & EL & LA). assert (b = []) as ->. { rewrite EL in C. unfold len in C. rewrite app_length in C. cbn [length] in C. destruct b; [reflexivity|cbn [length] in C; lia]. }
    rewrite EL, last_of_snoc, bind_Ok. unfold said_in. rewrite ST, bind_Ok. exact SA.
Qed.

(*# C141_life_then_registry
   From nothing to a registry: who lived the life of an identifier makes a registry, an event of theirs that anchors it, with the number and the identifier of the last event from their own life and
   not from any ledger, and the text of the registry. Then any ledger without events of the identifier takes in the life, then the anchor, then the registry, all without an error; in the end
   they control the identifier there and own the registry.
##
Example C141_registry_case : life no_floats mix toy pre0 1 pre0 keys0 (Some keys1) [(event0, sigs0)] /\ l_kel empty pre0 = [] /\ l_tel empty rpre0 = [] /\ registry_incept no_floats mix pre0 = Ok (rpre0, d_raw e_r2) /\
  do_interact mix toy no_floats no_rng keys0 pre0 pre0 1 (one_seal rpre0 (s! "0") rpre0) = Ok anchor_text1 /\ anchored_text (d_raw e_r2) 1 (fst anchor_text1) = Ok registry_text /\ len (snd anchor_text1) < 2 ^ 32.
Proof.
  split; [destruct C141_control_case as (l & _ & _ & H & _); exact H|]. split; [reflexivity|]. split; [reflexivity|]. destruct registry_done as (D1 & D2 & D3). split; [exact D1|].
  split; [assert (got [] (sad_said event0) = pre0) as <- by (vm_compute; reflexivity); exact D2|]. split; [exact D3|]. vm_compute. reflexivity.
Qed.
#*)
Lemma C141_registry_l (canon : bytes -> option bytes) (hash : bytes -> bytes -> bytes) (cr : crypto) (messages_of : bytes -> R (list message)) (group_text : group -> R bytes)
    (schema_check : bytes -> bytes -> R bool) (age : bytes -> R Z) (seen_said : ledger -> bytes -> bool) (fuel : nat) (deep verify : option bool) (l : ledger)
    (pre : bytes) (n : N) (dig : bytes) (k : keyset) (nk : option keyset) (evs : list (sadder * list indexer)) (rng : N -> bytes) (registry event anchor ixn text : bytes) :
  correct cr -> sized_hash hash -> textual group_text -> life canon hash cr pre n dig k nk evs -> n < 2 ^ 32 ->
  (forall e sigs, In (e, sigs) evs -> readable e /\ exists t, group_text (GQuadlets [GSigs sigs]) = Ok t) ->
  l_kel l pre = [] -> l_tel l registry = [] -> deep <> Some true -> verify <> Some false ->
  registry_incept canon hash pre = Ok (registry, event) -> do_interact hash cr canon rng k pre dig n (one_seal registry (s! "0") registry) = Ok (anchor, ixn) ->
  anchored_text event n anchor = Ok text -> len ixn < 2 ^ 32 ->
  exists e1 g1 t1 e2 g2 t2, ixn = d_raw e1 ++ t1 /\ written g1 t1 /\ text = d_raw e2 ++ t2 /\ written g2 t2 /\
    (readable e1 -> readable e2 -> carried messages_of group_text (d_raw e1) g1 t1 -> carried messages_of group_text (d_raw e2) g2 t2 ->
     exists l0 l1 l2, fed canon hash cr messages_of group_text schema_check age seen_said (S (S fuel)) deep verify l evs l0 /\
       ingest_messages canon hash cr messages_of group_text schema_check age seen_said (S (S fuel)) l0 ixn (Some false) verify = (l1, Ok tt) /\
       ingest_messages canon hash cr messages_of group_text schema_check age seen_said (S (S fuel)) l1 text (Some false) verify = (l2, Ok tt) /\
       controls canon hash cr l2 pre k /\ owns canon l2 pre registry).
Proof.
  intros CR SH TX LF B RD E T D V RI DI AT LX.
  destruct (C141_control_l canon hash cr messages_of group_text schema_check age seen_said (S fuel) deep verify l pre n dig k nk evs (fun _ => Ok k) CR SH TX LF ltac:(lia) RD E D V) as (l0 & F & CT & C & DG & _ & TL & AL).
  rewrite <- C in B, DI, AT. rewrite <- TL in T.
  destruct (C144_l canon hash cr l0 k rng pre dig registry event anchor ixn text CR SH CT B T RI DG DI AT LX) as (e1 & g1 & t1 & e2 & g2 & t2 & X1 & W1 & X2 & W2 & H).
  exists e1, g1, t1, e2, g2, t2. split; [exact X1|]. split; [exact W1|]. split; [exact X2|]. split; [exact W2|]. intros R1 R2 C1 C2.
  destruct (H messages_of group_text schema_check age seen_said fuel verify R1 R2 TX C1 C2 V) as (I1 & I2 & CO & OW).
  exists l0, (insert_key_event l0 pre ixn), (insert_transaction_event (insert_key_event l0 pre ixn) registry text). split; [exact F|]. split; [exact I1|]. split; [exact I2|]. split; [exact CO|exact OW].
Qed.
