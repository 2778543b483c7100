(** Property C76: exactly which messages are made. Theorem statements only; the proofs are in [MessageThms]. *)
From Coq Require Import String.
From Coq Require Import NArith ZArith QArith Bool List.
From Verif Require Import Base Tables Matter Indexer Prims Json Common Sadder Messaging Spec SpecPrims SpecMessaging SpecMessage MessageThms BaseFacts.
Import ListNotations.
Open Scope N_scope.

(** The outcome of making a message, for events, signatures and seals in any state: exactly when there is a message and what it is, and exactly when making it panics, which
   is when a signature that cannot be printed is reached. A list is announced by its length in 32 bits, which must fit two characters. The signatures that are not indexed
   are only looked at for whether there are any, and the seal only if there are signatures of the controller. *)
Theorem C76_messages_exactly :
  forall (s : sadder) (sigers wigers : option (list (indexer * matter))) (z : option seal) (cigars : option (list (matter * matter))),
  (forall t, messagize s sigers z wigers cigars = Ok t <->
    utf8 (d_raw s) = true /\ ~ (sigers = None /\ wigers = None /\ cigars = None) /\ exists a b, controller_text sigers z a /\ witness_text wigers b /\ t = d_raw s ++ a ++ b) /\
  (messagize s sigers z wigers cigars = Panic <->
    utf8 (d_raw s) = true /\
    ((exists l, sigers = Some l /\ (forall y, z = Some y -> exists h, header_text y h) /\ announced_number l < 4096 /\ stumbles l) \/
     ((exists a, controller_text sigers z a) /\ exists l, wigers = Some l /\ announced_number l < 4096 /\ stumbles l))).
Proof. exact C76_exactly_l. Qed.
Print Assumptions C76_messages_exactly.

Example C76_exactly_case : exists p, made p /\ shown [p] (s! "ABAA" ++ repeat x41 84) /\ group_text (s! "-A") [p] (s! "-AABABAA" ++ repeat x41 84) /\
  messagize (Sd [] (s! "{}") VNull [] [] 0 current_version (Mt [] 0 [])) (Some [p]) None None None = Ok (s! "{}-AABABAA" ++ repeat x41 84) /\
  stumbles [p; (Ix (s! "1z") [] 5 6, Mt [] 0 [])] /\ messagize (Sd [] (s! "{}") VNull [] [] 0 current_version (Mt [] 0 [])) None None (Some [p; (Ix (s! "1z") [] 5 6, Mt [] 0 [])]) None = Panic.
Proof.
  eexists. split; [exists None, (Some 1), None, (Some (s! "A")), (Some (repeat x00 64)), None, None, None; vm_compute; reflexivity|].
  split; [exists [s! "ABAA" ++ repeat x41 84]; split; [constructor; [vm_compute; reflexivity|constructor]|vm_compute; reflexivity]|].
  split; [exists (s! "AB"), (s! "ABAA" ++ repeat x41 84); split; [reflexivity|]; split; [reflexivity|]; split; [|reflexivity];
    exists [s! "ABAA" ++ repeat x41 84]; split; [constructor; [vm_compute; reflexivity|constructor]|vm_compute; reflexivity]|].
  split; [vm_compute; reflexivity|]. split; [|vm_compute; reflexivity].
  eexists [_], (Ix (s! "1z") [] 5 6, Mt [] 0 []), [], (s! "ABAA" ++ repeat x41 84). split; [reflexivity|]. split; [|vm_compute; reflexivity].
  exists [s! "ABAA" ++ repeat x41 84]; split; [constructor; [vm_compute; reflexivity|constructor]|vm_compute; reflexivity].
Qed.
