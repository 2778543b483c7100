(** Property C121, continued: one signature, repeated, is enough. Theorem statements only; the proofs are in [OneKeyThms]. *)
From Coq Require Import String.
From Coq Require Import NArith ZArith QArith Bool List Lia.
From Verif Require Import Base Tables Matter Indexer Prims Json Tholder Common Saider Diger Sadder Signer Prefixer Pather Short Verify Ingest Events SpecPrims SpecTholder SpecSaider SpecSadder SpecSigner SpecLog SpecIngest SpecExtra World VerifyThms VerifyFacts SadderFacts ExtraThms OneKeyThms.
Import ListNotations.
Open Scope N_scope.

(** How far the threshold of signers is from holding. Take any event that is accepted, whatever it is signed with, where the threshold in force and the announced one are numbers of any size: among the
   signatures attached there is one that is enough alone. Attached as often as there were signatures, or more often, in place of all the others, it has the event accepted with the same result. *)
Theorem C121_one_signature_is_enough :
  forall (canon : bytes -> option bytes) (hash : bytes -> bytes -> bytes) (cr : crypto) (messages_of : bytes -> R (list message)) (fuel : nat) (st : store) (e : sadder)
    (g : list group) (deep : option bool) (seen : list bytes) (r : bool * list bytes) (pre : bytes) (n : N) (ks : list matter) (t : tholder),
  verify_key_event canon hash cr messages_of fuel st e g deep seen = Ok r ->
  field_of (d_ked e) (s! "i") (VStr pre) -> ordinal (d_ked e) n -> governing canon st pre n e ks t -> t_weighted t = false ->
  (forall e' nt, announcing canon st pre n e' -> serder_ntholder canon e' = Ok (Some nt) -> t_weighted nt = false) ->
  exists sigs x, attached g sigs /\ In x sigs /\ verifies cr ks (d_raw e) x /\
    forall m, (length sigs <= m)%nat -> verify_key_event canon hash cr messages_of fuel st e [GSigs (repeat x m)] deep seen = Ok r.
Proof. exact C121_one_l. Qed.
Print Assumptions C121_one_signature_is_enough.

Example C121_one_case : verify_key_event no_floats mix toy no_messages 1 (view no_floats log1) event1 [GSigs sigs1] None [] = Ok (false, []) /\
  (exists ks t, governing no_floats (view no_floats log1) pre0 1 event1 ks t /\ len ks = 2 /\ t_weighted t = false) /\ (exists nt, serder_ntholder no_floats event0 = Ok (Some nt) /\ tholder_num nt = Ok (Some 2)) /\
  field_of (d_ked event1) (s! "i") (VStr pre0) /\ ordinal (d_ked event1) 1 /\
  (forall e' nt, announcing no_floats (view no_floats log1) pre0 1 e' -> serder_ntholder no_floats e' = Ok (Some nt) -> t_weighted nt = false).
Proof.
  split; [vm_compute; reflexivity|]. split.
  { assert (exists ks, serder_verfers event1 = Ok ks /\ len ks = 2) as (ks & K1 & K2). { eexists. split; [vm_compute; reflexivity|]. vm_compute. reflexivity. }
    assert (exists t, serder_tholder no_floats event1 = Ok (Some t) /\ t_weighted t = false) as (t & T1 & T2).
    { eexists. split; [vm_compute; reflexivity|]. vm_compute; reflexivity. }
    exists ks, t. split; [|auto]. exists (s! "rot"), event1. split; [apply type_text; vm_compute; reflexivity|]. split; [left; split; [right; now left|reflexivity]|auto]. }
  split; [eexists; split; [vm_compute; reflexivity|]; vm_compute; reflexivity|].
  split; [apply pre_field; vm_compute; reflexivity|]. split; [apply sn_field; vm_compute; reflexivity|].
  assert (serder_with_raw no_floats (d_raw event0) = Ok event0) as R0 by (vm_compute; reflexivity).
  assert (get_key_event (view no_floats log1) pre0 0 = Ok (d_raw event0)) as G0 by (vm_compute; reflexivity).
  assert (exists nt, serder_ntholder no_floats event0 = Ok (Some nt) /\ t_weighted nt = false) as (nt & N1 & N2). { eexists. split; [vm_compute; reflexivity|]. vm_compute. reflexivity. }
  assert (of_type (d_ked event0) (s! "icp")) as T0 by (apply type_text; vm_compute; reflexivity).
  intros e' nt' (b & said & ilk & (text & G & S & _) & T & W) N. change (asked_for 1 - 1) with 0 in *. assert (text = d_raw event0) as -> by congruence. assert (b = event0) as -> by congruence.
  rewrite (type_once _ _ _ T T0) in W. destruct W as [(_ & ->)|(X & _)]; [congruence|]. elim X. now left.
Qed.

(** For inceptions, interactions and all other events that are no rotations any one key will do: if such an event would be accepted with some signatures, and the threshold in force is a number k, then one signature
   that verifies under any one of the keys in force, attached k times or more, has it accepted with the same result. *)
Theorem C121_any_one_key_is_enough :
  forall (canon : bytes -> option bytes) (hash : bytes -> bytes -> bytes) (cr : crypto) (messages_of : bytes -> R (list message)) (fuel : nat) (st : store) (e : sadder)
    (g : list group) (deep : option bool) (seen : list bytes) (r : bool * list bytes) (pre ilk : bytes) (n k : N) (ks : list matter) (t : tholder) (x : indexer) (m : nat),
  verify_key_event canon hash cr messages_of fuel st e g deep seen = Ok r ->
  field_of (d_ked e) (s! "i") (VStr pre) -> ordinal (d_ked e) n -> of_type (d_ked e) ilk -> ilk = s! "icp" \/ ~ In ilk establishing ->
  governing canon st pre n e ks t -> t_thold t = VInt (Z.of_N k) -> verifies cr ks (d_raw e) x -> k <= N.of_nat m ->
  verify_key_event canon hash cr messages_of fuel st e [GSigs (repeat x m)] deep seen = Ok r.
Proof. exact C121_any_one_l. Qed.
Print Assumptions C121_any_one_key_is_enough.

Example C121_any_one_case : verify_key_event no_floats mix toy no_messages 1 (view no_floats empty) event0 [GSigs sigs0] None [] = Ok (false, []) /\
  (exists ks t, governing no_floats (view no_floats empty) pre0 0 event0 ks t /\ t_weighted t = false /\ tholder_num t = Ok (Some 2) /\ forall x, In x sigs0 -> verifies toy ks (d_raw event0) x) /\
  field_of (d_ked event0) (s! "i") (VStr pre0) /\ ordinal (d_ked event0) 0 /\ of_type (d_ked event0) (s! "icp") /\
  forall x, In x sigs0 -> verify_key_event no_floats mix toy no_messages 1 (view no_floats empty) event0 [GSigs [x; x]] None [] = Ok (false, []).
Proof.
  split; [vm_compute; reflexivity|]. split.
  { assert (exists ks, serder_verfers event0 = Ok ks /\ forallb (fun x => match nth_error ks (N.to_nat (i_index x)) with Some v => match verfer_verify toy v (i_raw x) (d_raw event0) with Ok true => true | _ => false end | None => false end) sigs0 = true) as (ks & K1 & K2).
    { eexists. split; [vm_compute; reflexivity|]. vm_compute. reflexivity. }
    assert (exists t, serder_tholder no_floats event0 = Ok (Some t) /\ t_weighted t = false /\ tholder_num t = Ok (Some 2)) as (t & T1 & T2 & T3).
    { eexists. split; [vm_compute; reflexivity|]. split; vm_compute; reflexivity. }
    exists ks, t. split. { exists (s! "icp"), event0. split; [apply type_text; vm_compute; reflexivity|]. split; [left; split; [now left|reflexivity]|auto]. }
    split; auto. split; auto. intros x I. rewrite forallb_forall in K2. specialize (K2 x I). destruct (nth_error ks (N.to_nat (i_index x))) as [v|] eqn:V; [|discriminate].
    exists v. split; auto. destruct (verfer_verify toy v (i_raw x) (d_raw event0)) as [[]| |]; try discriminate. reflexivity. }
  split; [apply pre_field; vm_compute; reflexivity|]. split; [apply sn_field; vm_compute; reflexivity|]. split; [apply type_text; vm_compute; reflexivity|].
  intros x [<-|[<-|[]]]; vm_compute; reflexivity.
Qed.
