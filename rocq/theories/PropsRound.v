(** Property C54, exactly. Theorem statements only; the proofs are in [RoundThms]. *)
From Coq Require Import String.
From Coq Require Import NArith ZArith QArith Bool List.
From Verif Require Import Base Json Common Matter Sadder Spec SpecJson SpecCommon SpecSadder SpecAccept RoundThms BaseFacts.
Import ListNotations.
Open Scope N_scope.

(** Exactly which events survive: an event built from data without floats, nested at most 127 deep and shorter than 2^32 bytes, is read back from its own bytes,
   followed by any text, if and only if those bytes are the JSON of its data. *)
Theorem C54_round_trip_exactly :
  forall (new : constructor) (only : option bytes) (canon : bytes -> option bytes) (code kind kind' : option bytes) (ked : value) (ked' : option value) (sad sad' : option sadder) (s : sadder) (c : bytes),
  In (new, only) protocols -> data ked -> nests 127 ked -> new canon code None kind (Some ked) sad = Ok s -> len (d_raw s) < 2 ^ 32 -> utf8 c = true ->
  (new canon code (Some (d_raw s ++ c)) kind' ked' sad' = Ok s <-> d_raw s = to_json (d_ked s)).
Proof. exact C54_exactly_l. Qed.
Print Assumptions C54_round_trip_exactly.

Example C54_exactly_case : exists s, serder_new (fun _ => None) None None None (Some (VObj [(s! "k", VStr (s! "KERI10JSON000064_")); (s! "v", VStr (s! "KERI10JSON000064_")); (s! "d", VStr (s! "EAAAAAAAAAAAAAAAAAAAAAAAAAAAAAAAAAAAAAAAAAAA"))])) None = Ok s /\
  d_raw s = to_json (d_ked s) /\ (exists s', serder_new (fun _ => None) None None None (Some (VObj [(s! "k", VStr (s! "KERI10JSON000000_")); (s! "v", VStr (s! "KERI10JSON000000_")); (s! "d", VStr (s! "EAAAAAAAAAAAAAAAAAAAAAAAAAAAAAAAAAAAAAAAAAAA"))])) None = Ok s' /\
    d_raw s' <> to_json (d_ked s')).
Proof. eexists. split; [vm_compute; reflexivity|]. split; [vm_compute; reflexivity|]. eexists. split; [vm_compute; reflexivity|]. vm_compute. discriminate. Qed.
