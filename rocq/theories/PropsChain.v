(** Properties C134 and C135: chains of credentials. Theorem statements only; the proofs are in [ChainThms]. *)
From Coq Require Import String.
From Coq Require Import NArith ZArith QArith Bool List Lia.
From Verif Require Import Base Tables Matter Indexer Prims Json Tholder Common Saider Diger Sadder Signer Prefixer Pather Short Verify Ingest Events Spec SpecPrims SpecJson SpecCommon SpecTholder SpecSaider SpecSadder SpecPrefixer SpecSigner SpecLog SpecIngest SpecCred World Forgery Chain ChainThms VerifyThms LogThms SadderFacts BaseFacts.
Import ListNotations.
Open Scope N_scope.

(** Each edge of an accepted credential leads to a credential in the store. If the edge names a schema, this one accepts it. If the edge says I2I, or says nothing and the other credential has a holder, the holder is the
   issuer of the accepted credential; otherwise the edge says NI2I, or nothing and there is no holder. None says NOT. *)
Theorem C134_edges_checked :
  forall (canon : bytes -> option bytes) (hash : bytes -> bytes -> bytes) (cr : crypto) (messages_of : bytes -> R (list message)) (schema_check : bytes -> bytes -> R bool) (age : bytes -> R Z)
    (fuel : nat) (st : store) (e : sadder) (g : list group) (deep : option bool) (seen : list bytes) (r : bool * list bytes) (node : value),
  verify_acdc canon hash cr messages_of schema_check age fuel st e g deep seen = Ok r -> edge (d_ked e) node ->
  exists said e' ops subject, leads node said /\ held canon st said e' /\ (forall schema, field_of node (s! "s") (VStr schema) -> schema_check schema (d_raw e') = Ok true) /\
    operators node ops /\ ~ In (s! "NOT") ops /\ field_of (d_ked e') (s! "a") subject /\
    (issuer_to_issuer ops subject /\ (exists issuer, field_of (d_ked e) (s! "i") (VStr issuer) /\ field_of subject (s! "i") (VStr issuer)) \/ not_issuer_to_issuer ops subject).
Proof. exact C134_l. Qed.
Print Assumptions C134_edges_checked.

Example C134_case : edge (d_ked cred_b) edge_b /\ operators edge_b [s! "I2I"] /\ exists seen, verify_acdc no_floats mix toy knotted (fun _ _ => Ok true) (fun _ => Ok 0%Z) 9 (view no_floats chained) cred_b [GPaths [csigs_b]] None [] = Ok (true, seen).
Proof.
  split. { exists (s! "auth"), [(s! "d", VStr []); (s! "auth", edge_b)]. split; [right; now left|]. split; [discriminate|]. split; [discriminate|]. left. apply index_field. vm_compute. reflexivity. }
  split. { right. left. exists (s! "I2I"). split; auto. apply index_field. reflexivity. }
  eexists. vm_compute. reflexivity.
Qed.

(** In a store built by taking in streams, every edge of a credential leads to one stored before it. So chains of credentials end, and none leads back to where it started from. *)
Theorem C134_chains_lead_back :
  forall (canon : bytes -> option bytes) (hash : bytes -> bytes -> bytes) (cr : crypto) (messages_of : bytes -> R (list message)) (group_text : group -> R bytes)
    (schema_check : bytes -> bytes -> R bool) (age : bytes -> R Z) (seen_said : ledger -> bytes -> bool) (l : ledger) (n : nat) (text : bytes) (e : sadder) (said : bytes),
  finds_all canon seen_said -> textual group_text -> reached canon hash cr messages_of group_text schema_check age seen_said l -> nth_error (l_acdc l) n = Some text -> creder_with_raw canon text = Ok e -> linked (d_ked e) said ->
  exists m text' e', (m < n)%nat /\ nth_error (l_acdc l) m = Some text' /\ creder_with_raw canon text' = Ok e' /\ sad_said e' = Ok said.
Proof. exact C134b_l. Qed.
Print Assumptions C134_chains_lead_back.

Example C134_back_case : reached no_floats mix toy knotted knot_of (fun _ _ => Ok true) (fun _ => Ok 0%Z) (fun _ _ => true) chained /\
  nth_error (l_acdc chained) 1 = Some (d_raw cred_b ++ s! "h") /\ creder_with_raw no_floats (d_raw cred_b ++ s! "h") = Ok cred_b /\ linked (d_ked cred_b) csaid_a.
Proof.
  split. { unfold chained. eapply (reached_more _ _ _ _ _ _ _ _ empty 9 (s! "chain") (Some false) None); [apply reached_empty|discriminate|apply surjective_pairing]. }
  split; [vm_compute; reflexivity|]. split; [vm_compute; reflexivity|]. exists edge_b. split; [|apply index_field; reflexivity].
  exists (s! "auth"), [(s! "d", VStr []); (s! "auth", edge_b)]. split; [right; now left|]. split; [discriminate|]. split; [discriminate|]. left. apply index_field. vm_compute. reflexivity.
Qed.

(** If a credential is accepted by verification that goes deep, as it does by default, then every credential in the chains that start from it is in the store and is itself accepted, with the attachments
   stored with it: so what C129 to C133 say of an accepted credential holds of each. This is for a store in which no event has the identifier of a credential. *)
Theorem C135_deep_provenance :
  forall (canon : bytes -> option bytes) (hash : bytes -> bytes -> bytes) (cr : crypto) (messages_of : bytes -> R (list message)) (schema_check : bytes -> bytes -> R bool) (age : bytes -> R Z)
    (fuel : nat) (st : store) (e : sadder) (g : list group) (deep : option bool) (seen : list bytes) (r : bool * list bytes) (said : bytes),
  (forall s x, an_event canon st s -> ~ held canon st s x) -> (forall s x, In s seen -> ~ held canon st s x) -> deep <> Some false ->
  verify_acdc canon hash cr messages_of schema_check age fuel st e g deep seen = Ok r -> descends canon st (d_ked e) said ->
  exists text e' rest value, get_acdc st said = Ok text /\ creder_with_raw canon text = Ok e' /\ text = d_raw e' ++ rest /\ first_group messages_of rest = Ok (GQuadlets value) /\
    exists there, verify_acdc canon hash cr messages_of schema_check age 1 st e' value (Some false) [] = Ok (there, []).
Proof. exact C135_l. Qed.
Print Assumptions C135_deep_provenance.

Example C135_case : linked (d_ked cred_b) csaid_a /\ (exists seen, verify_acdc no_floats mix toy knotted (fun _ _ => Ok true) (fun _ => Ok 0%Z) 9 (view no_floats chained) cred_b [GPaths [csigs_b]] None [] = Ok (true, seen)) /\
  forall s x, an_event no_floats (view no_floats chained) s -> ~ held no_floats (view no_floats chained) s x.
Proof.
  split. { exists edge_b. split; [|apply index_field; reflexivity]. exists (s! "auth"), [(s! "d", VStr []); (s! "auth", edge_b)]. split; [right; now left|]. split; [discriminate|]. split; [discriminate|]. left. apply index_field. vm_compute. reflexivity. }
  split; [eexists; vm_compute; reflexivity|exact chained_apart].
Qed.
