(** Property C141: a whole life of an identifier is accepted. Theorem statements only; the proofs are in [LifeThms]. *)
From Coq Require Import String.
From Coq Require Import NArith ZArith QArith Bool List Lia.
From Verif Require Import Base Tables Matter Indexer Prims Json Tholder Common Saider Diger Sadder Signer Prefixer Pather Short Verify Ingest Events Spec SpecPrims SpecJson SpecCommon SpecTholder SpecSaider SpecSadder SpecPrefixer SpecSigner SpecLog SpecIngest SpecBuild SpecLife World LifeThms FollowThms FollowFacts SignerThms VerifyThms IngestThms LogThms SadderFacts BaseFacts.
Import ListNotations.
Open Scope N_scope.

(** The whole life of an identifier: its controller incepts it (self-addressing, not delegated), then rotates and interacts in any order and as often as they like, each time with
   the number of the next event and the identifier of the last, signing with the whole current key set, each key set announced by its digests before it is used, thresholds
   being absent or nonzero with a weight for each key. Then any ledger without events of that identifier takes in every message, one after the other, without an error, and
   in the end holds for that identifier exactly these events with their signatures, and for others what it held before. The events are to have no floats, to nest at most 127
   deep and to be shorter than 2^32 bytes, and the numbers to stay below 2^32. *)
Theorem C141_life_accepted :
  forall (canon : bytes -> option bytes) (hash : bytes -> bytes -> bytes) (cr : crypto) (messages_of : bytes -> R (list message)) (group_text : group -> R bytes)
    (schema_check : bytes -> bytes -> R bool) (age : bytes -> R Z) (seen_said : ledger -> bytes -> bool) (fuel : nat) (deep verify : option bool) (l : ledger)
    (pre : bytes) (n : N) (dig : bytes) (k : keyset) (nk : option keyset) (evs : list (sadder * list indexer)),
  correct cr -> sized_hash hash -> textual group_text -> life canon hash cr pre n dig k nk evs -> n <= 2 ^ 32 ->
  (forall e sigs, In (e, sigs) evs -> data (d_ked e) /\ nests 127 (d_ked e) /\ len (d_raw e) < 2 ^ 32 /\ exists t, group_text (GQuadlets [GSigs sigs]) = Ok t) ->
  l_kel l pre = [] -> deep <> Some true -> verify <> Some false ->
  exists l', fed canon hash cr messages_of group_text schema_check age seen_said (S fuel) deep verify l evs l' /\
    Forall2 (fun ev text => exists t, group_text (GQuadlets [GSigs (snd ev)]) = Ok t /\ text = d_raw (fst ev) ++ t) evs (l_kel l' pre) /\ len (l_kel l' pre) = n /\
    forall other, other <> pre -> l_kel l' other = l_kel l other.
Proof. exact C141_l. Qed.
Print Assumptions C141_life_accepted.

Example C141_case : correct toy /\ sized_hash mix /\ textual sigs_text /\ life no_floats mix toy pre0 3 (got [] (sad_said event2)) keys1 (Some keys2) [(event0, sigs0); (event1, sigs1); (event2, sigs2)] /\
  (forall e sigs, In (e, sigs) [(event0, sigs0); (event1, sigs1); (event2, sigs2)] -> data (d_ked e) /\ nests 127 (d_ked e) /\ len (d_raw e) < 2 ^ 32 /\ exists t, sigs_text (GQuadlets [GSigs sigs]) = Ok t).
Proof.
  split; [exact toy_correct|]. split; [exact mix_sized|]. split; [exact sigs_textual|]. split.
  - assert (life no_floats mix toy pre0 1 pre0 keys0 (Some keys1) [(event0, map fst (got [] (ks_sign mix toy (fun _ => []) keys0 (d_raw event0) None)))]) as L0.
    { eapply (life_begun no_floats mix toy keys0 (Some keys1) (got [] (ks_verfers_qb64 toy keys0)) (Some (VStr (s! "2"))) (Some (got [] (ks_digers_qb64 mix toy keys1))) (Some (VStr (s! "2"))) None None None None None None None (fun _ => []) event0).
      - reflexivity.
      - vm_compute. reflexivity.
      - intros x t [= <-] T. vm_compute in T. injection T as <-. split; discriminate.
      - eexists. split; [reflexivity|]. split; [vm_compute; discriminate|]. split; [vm_compute; reflexivity|]. split; [vm_compute; reflexivity|]. intros x t [= <-] T. vm_compute in T. injection T as <-. split; discriminate.
      - vm_compute. reflexivity.
      - vm_compute. reflexivity.
      - vm_compute. reflexivity. }
    assert (life no_floats mix toy pre0 2 (got [] (sad_said event1)) keys1 (Some keys2) [(event0, sigs0); (event1, sigs1)]) as L1.
    { refine (life_rotated no_floats mix toy pre0 1 pre0 keys0 keys1 (Some keys2) [(event0, sigs0)] (got [] (ks_verfers_qb64 toy keys1)) None None (Some (got [] (ks_digers_qb64 mix toy keys2))) None None None None None None None None None (fun _ => []) event1 (got [] (ks_sign mix toy (fun _ => []) keys1 (d_raw event1) None)) (got [] (sad_said event1)) _ _ _ _ _ _ _ _ _).
      - exact L0.
      - reflexivity.
      - vm_compute. reflexivity.
      - intros x t [=].
      - eexists. split; [reflexivity|]. split; [vm_compute; discriminate|]. split; [vm_compute; reflexivity|]. split; [vm_compute; reflexivity|]. intros x t [=].
      - vm_compute. reflexivity.
      - discriminate.
      - vm_compute. reflexivity.
      - vm_compute. reflexivity. }
    refine (life_used no_floats mix toy pre0 2 (got [] (sad_said event1)) keys1 (Some keys2) [(event0, sigs0); (event1, sigs1)] None None None (fun _ => []) event2 (got [] (ks_sign mix toy (fun _ => []) keys1 (d_raw event2) None)) (got [] (sad_said event2)) _ _ _ _).
    + exact L1.
    + vm_compute. reflexivity.
    + vm_compute. reflexivity.
    + vm_compute. reflexivity.
  - intros e sigs I. assert (data_check (d_ked e) = true /\ nests_check 127 (d_ked e) = true /\ len (d_raw e) <? 2 ^ 32 = true /\ is_ok (sigs_text (GQuadlets [GSigs sigs])) = true) as (A & B & C & D).
    { destruct I as [[= <- <-]|[[= <- <-]|[[= <- <-]|[]]]]; (split; [vm_compute; reflexivity|split; [vm_compute; reflexivity|split; vm_compute; reflexivity]]). }
    split; [now apply data_checked|]. split; [now apply nests_checked|]. split; [now apply N.ltb_lt|]. destruct (sigs_text _) as [t| |]; try discriminate. eauto.
Qed.
