(** Property C129, continued: any newcomer can revoke any credential. *)
From Coq Require Import String.
From Coq Require Import NArith ZArith QArith Bool List Lia.
From Verif Require Import Base Util Tables Matter Indexer Prims Json Tholder Common Saider Diger Sadder Signer Prefixer Pather Short Verify Ingest Events Issue.
From Verif Require Import Spec SpecPrims SpecJson SpecCommon SpecTholder SpecSaider SpecSadder SpecPrefixer SpecSigner SpecLog SpecIngest SpecCred SpecBuild SpecLife SpecIssue World.
From Verif Require Import BaseFacts SadderFacts SaiderFacts VerifyFacts VerifyThms LogThms IngestThms FollowFacts FollowThms SignerThms LifeThms IssueThms ControlThms.
Import ListNotations.
Open Scope N_scope.

(*# C129_any_newcomer_revokes
   It is false of every credential that only the owner of its registry can revoke it. Take any ledger and anyone who is unknown there, with an identifier they set up themselves as in C141 and a registry of their own. They feed
   the ledger their life, the anchor and the registry, then what revoke_acdc makes for them for any credential issued in the ledger, by whomever in whatever registry: all is taken in without an error, with verification on, no
   event of anybody else is needed or made, and from then on no credential with that identifier is accepted.
##
Example C129_newcomer_case : life no_floats mix toy pre_m 1 pre_m keys_m (Some keys2) [(event_m, sigs_m)] /\ readable event_m /\ l_kel issued pre_m = [] /\ l_tel issued rpre_m = [] /\
  registry_incept no_floats mix pre_m = Ok (rpre_m, d_raw reg_m) /\ (exists p, prefixer_with_qb64 mix csaid0 = Ok p) /\ csaid0 <> rpre_m /\
  verify_acdc no_floats mix toy runic accepts_all young 9 (view no_floats issued) cred0 [GPaths [csigs0]] (Some false) [] = Ok (true, []) /\
  match (let* x := do_interact mix toy no_floats no_rng keys_m pre_m pre_m 1 (one_seal rpre_m (s! "0") rpre_m) in
         let* text := anchored_text (d_raw reg_m) 1 (fst x) in
         revoke_acdc no_floats mix toy (s! "2020-01-02T00:00:00.000000+00:00") (s! "m") no_rng
           (purse no_floats (fun _ => Ok keys_m) (insert_transaction_event (insert_key_event (insert_key_event issued pre_m (d_raw event_m)) pre_m (snd x)) rpre_m text)) rpre_m pre_m csaid0) with Ok _ => True | _ => False end.
Proof.
  split.
  { refine (life_begun no_floats mix toy keys_m (Some keys2) (World.got [] (ks_verfers_qb64 toy keys_m)) (Some (VStr (s! "1"))) (Some (World.got [] (ks_digers_qb64 mix toy keys2))) (Some (VStr (s! "1"))) None None None None None None None (fun _ => []) event_m (World.got [] (ks_sign mix toy (fun _ => []) keys_m (d_raw event_m) None)) pre_m _ _ _ _ _ _ _).
    - reflexivity.
    - vm_compute. reflexivity.
    - intros x t [= <-] T. vm_compute in T. injection T as <-. split; discriminate.
    - eexists. split; [reflexivity|]. split; [vm_compute; discriminate|]. split; [vm_compute; reflexivity|]. split; [vm_compute; reflexivity|]. intros x t [= <-] T. vm_compute in T. injection T as <-. split; discriminate.
    - vm_compute. reflexivity.
    - vm_compute. reflexivity.
    - vm_compute. reflexivity. }
  split. { split; [apply data_checked; vm_compute; reflexivity|]. split; [apply nests_checked; vm_compute; reflexivity|vm_compute; reflexivity]. }
  split; [vm_compute; reflexivity|]. split; [vm_compute; reflexivity|]. split; [vm_compute; reflexivity|]. split. { exists (World.got nothing (prefixer_with_qb64 mix csaid0)). vm_compute. reflexivity. }
  split; [vm_compute; discriminate|]. split; [exact issued_accepted|]. vm_compute. exact I.
Qed.
#*)
Lemma C129_newcomer_l (canon : bytes -> option bytes) (hash : bytes -> bytes -> bytes) (cr : crypto) (messages_of : bytes -> R (list message)) (group_text : group -> R bytes)
    (schema_check : bytes -> bytes -> R bool) (age : bytes -> R Z) (seen_said : ledger -> bytes -> bool) (fuel : nat) (deep verify : option bool) (l : ledger)
    (pre : bytes) (n : N) (dig : bytes) (k : keyset) (nk : option keyset) (evs : list (sadder * list indexer)) (rng : N -> bytes) (registry event anchor ixn text said : bytes) (p : matter) :
  correct cr -> sized_hash hash -> textual group_text -> life canon hash cr pre n dig k nk evs -> n + 1 < 2 ^ 32 ->
  (forall e sigs, In (e, sigs) evs -> readable e /\ exists t, group_text (GQuadlets [GSigs sigs]) = Ok t) ->
  l_kel l pre = [] -> l_tel l registry = [] -> deep <> Some true -> verify <> Some false ->
  registry_incept canon hash pre = Ok (registry, event) -> do_interact hash cr canon rng k pre dig n (one_seal registry (s! "0") registry) = Ok (anchor, ixn) ->
  anchored_text event n anchor = Ok text -> len ixn < 2 ^ 32 -> prefixer_with_qb64 hash said = Ok p -> said <> registry ->
  exists e1 g1 t1 e2 g2 t2, ixn = d_raw e1 ++ t1 /\ written g1 t1 /\ text = d_raw e2 ++ t2 /\ written g2 t2 /\
    (readable e1 -> readable e2 -> carried messages_of group_text (d_raw e1) g1 t1 -> carried messages_of group_text (d_raw e2) g2 t2 ->
     exists l0 l1 l2, fed canon hash cr messages_of group_text schema_check age seen_said (S (S fuel)) deep verify l evs l0 /\
       ingest_messages canon hash cr messages_of group_text schema_check age seen_said (S (S fuel)) l0 ixn (Some false) verify = (l1, Ok tt) /\
       ingest_messages canon hash cr messages_of group_text schema_check age seen_said (S (S fuel)) l1 text (Some false) verify = (l2, Ok tt) /\ l_tel l2 said = l_tel l said /\
       forall now nonce rng' ixn' rev, revoke_acdc canon hash cr now nonce rng' (purse canon (fun _ => Ok k) l2) registry pre said = Ok (ixn', rev) -> len ixn' < 2 ^ 32 ->
         exists e3 g3 t3 e4 g4 t4, ixn' = d_raw e3 ++ t3 /\ written g3 t3 /\ rev = d_raw e4 ++ t4 /\ written g4 t4 /\
           (readable e3 -> readable e4 -> carried messages_of group_text (d_raw e3) g3 t3 -> carried messages_of group_text (d_raw e4) g4 t4 ->
            exists l3 l4, ingest_messages canon hash cr messages_of group_text schema_check age seen_said (S (S fuel)) l2 ixn' (Some false) verify = (l3, Ok tt) /\
              ingest_messages canon hash cr messages_of group_text schema_check age seen_said (S (S fuel)) l3 rev (Some false) verify = (l4, Ok tt) /\
              (forall other, other <> pre -> l_kel l4 other = l_kel l other) /\
              forall c f g deep' seen r, sad_said c = Ok said -> verify_acdc canon hash cr messages_of schema_check age f (view canon l4) c g deep' seen <> Ok r)).
Proof.
  intros CR SH TX LF B RD E T D V RI DI AT LX PX NE.
  destruct (C141_control_l canon hash cr messages_of group_text schema_check age seen_said (S fuel) deep verify l pre n dig k nk evs (fun _ => Ok k) CR SH TX LF ltac:(lia) RD E D V) as (l0 & F & CT & C & DG & OT & TL & AL).
  rewrite <- C in DI, AT. rewrite <- TL in T. assert (len (l_kel l0 pre) < 2 ^ 32) as B0 by lia.
  destruct (C144_l canon hash cr l0 k rng pre dig registry event anchor ixn text CR SH CT B0 T RI DG DI AT LX) as (e1 & g1 & t1 & e2 & g2 & t2 & X1 & W1 & X2 & W2 & H).
  exists e1, g1, t1, e2, g2, t2. split; [exact X1|]. split; [exact W1|]. split; [exact X2|]. split; [exact W2|]. intros R1 R2 C1 C2.
  destruct (H messages_of group_text schema_check age seen_said fuel verify R1 R2 TX C1 C2 V) as (I1 & I2 & CO & OW).
  exists l0, (insert_key_event l0 pre ixn), (insert_transaction_event (insert_key_event l0 pre ixn) registry text). split; [exact F|]. split; [exact I1|]. split; [exact I2|].
  split. { cbn. unfold added. destruct (beq said registry) eqn:Q; [apply beq_eq in Q; contradiction|]. now rewrite TL. }
  intros now nonce rng' ixn' rev RV LX'.
  assert (len (l_kel (insert_transaction_event (insert_key_event l0 pre ixn) registry text) pre) < 2 ^ 32) as B2. { cbn. unfold added. rewrite beq_refl. unfold len in *. rewrite app_length. cbn [length]. lia. }
  destruct (C143_l canon hash cr (fun _ => Ok k) _ k now nonce rng' registry pre said ixn' rev p CR SH CO eq_refl OW B2 PX RV LX') as (e3 & g3 & t3 & e4 & g4 & t4 & X3 & W3 & X4 & W4 & H').
  exists e3, g3, t3, e4, g4, t4. split; [exact X3|]. split; [exact W3|]. split; [exact X4|]. split; [exact W4|]. intros R3 R4 C3 C4.
  destruct (H' messages_of group_text schema_check age seen_said fuel verify R3 R4 TX C3 C4 V) as (I3 & I4 & _ & _ & NV).
  do 2 eexists. split; [exact I3|]. split; [exact I4|]. split; [|exact NV].
  intros other NO. cbn. unfold added. destruct (beq other pre) eqn:Q; [apply beq_eq in Q; contradiction|]. auto.
Qed.
