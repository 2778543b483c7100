(** Property C119: printed JSON is as short as possible. Theorem statements only; the proofs are in [CompactThms]. *)
From Coq Require Import String.
From Coq Require Import NArith ZArith QArith Bool List.
From Verif Require Import Base Json SpecJson SpecCompact CompactThms BaseFacts.
Import ListNotations.
Open Scope N_scope.

(** No text that is read as a float-free value is shorter than the JSON printed for that value; one of the same length is the printed text up to the case of the last digit
   of escaped control characters. *)
Theorem C119_printed_json_is_shortest :
  forall (canon : bytes -> option bytes) (t : bytes) (v : value),
  value_of_text canon t = Ok v -> float_free v -> len (to_json v) <= len t /\ (len (to_json v) = len t -> recased t (to_json v)).
Proof. exact C119_l. Qed.
Print Assumptions C119_printed_json_is_shortest.

Example C119_case : let v := VObj [(s! "a", VArr [VInt 5; VStr [x1f]])] in
  value_of_text (fun _ => None) (to_json v) = Ok v /\ value_of_text (fun _ => None) (s! "{""a"":[5,""\u001F""]}") = Ok v /\ recased (s! "{""a"":[5,""\u001F""]}") (to_json v) /\
  value_of_text (fun _ => None) (s! "{""a"":0,""a"":[5,""\u001f""]}") = Ok v /\ float_free v.
Proof.
  intros v. split; [vm_compute; reflexivity|]. split; [vm_compute; reflexivity|]. split; [|split; [vm_compute; reflexivity|repeat constructor]].
  do 9 apply rc_same. apply (rc_upper (s! "1") (s! "F") (s! "f") (s! """]}") (s! """]}")); [right; now left|cbn; tauto|repeat constructor].
Qed.
