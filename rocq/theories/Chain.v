(** Two chained credentials for the examples: the first party issues one to the second, which issues another with an edge to it. Definitions only. *)
From Coq Require Import String.
From Coq Require Import NArith ZArith Bool List.
From Verif Require Import Base Tables Matter Indexer Prims Json Tholder Common Saider Diger Sadder Signer Prefixer Pather Short Verify Ingest Events SpecSigner World Forgery.
Import ListNotations.
Open Scope N_scope.

Definition cred_a := Eval vm_compute in got no_event (
  create no_floats mix (s! "2020-01-01T00:00:00.000000+00:00") ([], []) (s! "schema") pre0 (VObj [(s! "name", VStr (s! "x"))]) (Some pre_m) None None (Some rpre0) (Some (VObj [])) None None None).
Definition csaid_a := Eval vm_compute in got [] (sad_said cred_a).
Definition iss_a := Eval vm_compute in of_text (snd (got ([], []) (credential_issue no_floats mix (s! "2020-01-01T00:00:00.000000+00:00") (s! "n") csaid_a rpre0))).
Definition anchor_a := Eval vm_compute in got no_event (interact no_floats mix pre0 (got [] (sad_said anchor1)) (Some 2) (Some (VArr [seal_of iss_a])) None None).
Definition csigs_a := Eval vm_compute in Sps (got nothing (pather_with_path (VArr []))) (got nothing (exfil pre0)) (got nothing (seqner_with_sn 0)) (d_saider event0) (signed keys0 cred_a).
(** The edge demands that the holder of the first credential be the issuer of the second. *)
Definition edge_b := VObj [(s! "n", VStr csaid_a); (s! "s", VStr (s! "schema")); (s! "o", VStr (s! "I2I"))].
Definition cred_b := Eval vm_compute in got no_event (
  create no_floats mix (s! "2020-01-01T00:00:00.000000+00:00") ([], []) (s! "schema") pre_m (VObj [(s! "name", VStr (s! "y"))]) None None None (Some rpre_m)
    (Some (VObj [(s! "d", VStr []); (s! "auth", edge_b)])) None None None).
Definition csaid_b := Eval vm_compute in got [] (sad_said cred_b).
Definition iss_b := Eval vm_compute in of_text (snd (got ([], []) (credential_issue no_floats mix (s! "2020-01-01T00:00:00.000000+00:00") (s! "n") csaid_b rpre_m))).
Definition anchor_b := Eval vm_compute in got no_event (interact no_floats mix pre_m (got [] (sad_said anchor_m1)) (Some 2) (Some (VArr [seal_of iss_b])) None None).
Definition csigs_b := Eval vm_compute in Sps (got nothing (pather_with_path (VArr []))) (got nothing (exfil pre_m)) (got nothing (seqner_with_sn 0)) (d_saider event_m) (signed keys_m cred_b).

Definition chain_stream : list message :=
  [MPayload (d_raw event0); MGroup (GQuadlets [GSigs sigs0]); MPayload (d_raw anchor1); MGroup (GQuadlets [GSigs asigs1]); MPayload (d_raw reg0); MGroup (GSources [couple 1 anchor1]);
   MPayload (d_raw anchor_a); MGroup (GQuadlets [GSigs asigs2]); MPayload (d_raw iss_a); MGroup (GSources [couple 2 anchor_a]); MPayload (d_raw cred_a); MGroup (GQuadlets [GPaths [csigs_a]])] ++ registry_stream ++
  [MPayload (d_raw anchor_b); MGroup (GQuadlets [GSigs asigs_m2]); MPayload (d_raw iss_b); MGroup (GSources [couple 2 anchor_b]); MPayload (d_raw cred_b); MGroup (GQuadlets [GPaths [csigs_b]])].
Definition knots : list (bytes * group) :=
  [(s! "a", GQuadlets [GSigs sigs0]); (s! "b", GSources [couple 1 anchor1]); (s! "c", GSources [couple 2 anchor_a]); (s! "d", GQuadlets [GPaths [csigs_a]]); (s! "e", GQuadlets [GSigs sigs_m]);
   (s! "f", GSources [couple 1 anchor_m1]); (s! "g", GSources [couple 2 anchor_b]); (s! "h", GQuadlets [GPaths [csigs_b]])].
Definition knotted (t : bytes) : R (list message) :=
  if beq t (s! "chain") then Ok chain_stream else match assoc t knots with Some g => Ok [MGroup g] | None => Ok [] end.
Definition knot_mark (g : group) : bytes := match g with GQuadlets (GPaths _ :: _) => s! "!" ++ print_of g | _ => print_of g end.
Definition knot_of (g : group) : R bytes := match find (fun p => beq (knot_mark (snd p)) (knot_mark g)) knots with Some p => Ok (fst p) | None => Ok [] end.
Definition chained : ledger := fst (ingest_messages no_floats mix toy knotted knot_of (fun _ _ => Ok true) (fun _ => Ok 0%Z) (fun _ _ => true) 9 empty (s! "chain") (Some false) None).
