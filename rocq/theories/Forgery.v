(** A second party for the refutations about registries and credentials: its log and registry, a credential it makes in the name of the first party, and its revocation of the first
    party's credential. Definitions only. *)
From Coq Require Import String.
From Coq Require Import NArith ZArith Bool List.
From Verif Require Import Base Tables Matter Indexer Prims Json Tholder Common Saider Diger Sadder Signer Prefixer Pather Short Verify Ingest Events SpecSigner World.
Import ListNotations.
Open Scope N_scope.

Definition keys_m := Ks [s! "ADAAAAAAAAAAAAAAAAAAAAAAAAAAAAAAAAAAAAAAAAAA"] 0 true.
Definition event_m := Eval vm_compute in got no_event (
  let* ks := ks_verfers_qb64 toy keys_m in
  let* nd := ks_digers_qb64 mix toy keys2 in
  incept no_floats mix ks (Some (VStr (s! "1"))) (Some nd) (Some (VStr (s! "1"))) None None None None None None (Some (s! "E")) None None).
Definition sigs_m := Eval vm_compute in signed keys_m event_m.
Definition pre_m := Eval vm_compute in got [] (serder_pre event_m).
Definition reg_m := Eval vm_compute in of_text (snd (got ([], []) (registry_incept no_floats mix pre_m))).
Definition rpre_m := Eval vm_compute in got [] (serder_pre reg_m).
Definition anchor_m1 := Eval vm_compute in got no_event (interact no_floats mix pre_m (got [] (sad_said event_m)) (Some 1) (Some (VArr [seal_of reg_m])) None None).
Definition asigs_m1 := Eval vm_compute in signed keys_m anchor_m1.

(** A credential that names the first party as its issuer and the first party's registry, and its issuance in the other registry. *)
Definition cred_m := Eval vm_compute in got no_event (
  create no_floats mix (s! "2020-01-01T00:00:00.000000+00:00") ([], []) (s! "schema") pre0 (VObj [(s! "name", VStr (s! "forged"))]) None None None (Some rpre0) (Some (VObj [])) None None None).
Definition csaid_m := Eval vm_compute in got [] (sad_said cred_m).
Definition iss_m := Eval vm_compute in of_text (snd (got ([], []) (credential_issue no_floats mix (s! "2020-01-01T00:00:00.000000+00:00") (s! "n") csaid_m rpre_m))).
Definition anchor_m2 := Eval vm_compute in got no_event (interact no_floats mix pre_m (got [] (sad_said anchor_m1)) (Some 2) (Some (VArr [seal_of iss_m])) None None).
Definition asigs_m2 := Eval vm_compute in signed keys_m anchor_m2.
Definition csigs_m := Eval vm_compute in Sps (got nothing (pather_with_path (VArr []))) (got nothing (exfil pre_m)) (got nothing (seqner_with_sn 0)) (d_saider event_m) (signed keys_m cred_m).

(** The revocation of the first party's credential, in the other registry. *)
Definition rev_m := Eval vm_compute in of_text (snd (got ([], []) (credential_revoke no_floats mix (s! "2020-01-02T00:00:00.000000+00:00") (s! "m") csaid0 rpre_m (got [] (sad_said iss0))))).
Definition anchor_m3 := Eval vm_compute in got no_event (interact no_floats mix pre_m (got [] (sad_said anchor_m1)) (Some 2) (Some (VArr [seal_of rev_m])) None None).
Definition asigs_m3 := Eval vm_compute in signed keys_m anchor_m3.

(** Streams, and the attachments in texts: a letter for each. *)
Definition registry_stream : list message :=
  [MPayload (d_raw event_m); MGroup (GQuadlets [GSigs sigs_m]); MPayload (d_raw anchor_m1); MGroup (GQuadlets [GSigs asigs_m1]); MPayload (d_raw reg_m); MGroup (GSources [couple 1 anchor_m1])].
Definition forgery_stream : list message :=
  registry_stream ++ [MPayload (d_raw anchor_m2); MGroup (GQuadlets [GSigs asigs_m2]); MPayload (d_raw iss_m); MGroup (GSources [couple 2 anchor_m2]); MPayload (d_raw cred_m); MGroup (GQuadlets [GPaths [csigs_m]])].
Definition takedown_stream : list message :=
  registry_stream ++ [MPayload (d_raw anchor_m3); MGroup (GQuadlets [GSigs asigs_m3]); MPayload (d_raw rev_m); MGroup (GSources [couple 2 anchor_m3])].
Definition runes : list (bytes * group) := letters ++
  [(s! "m", GQuadlets [GSigs sigs_m]); (s! "n", GQuadlets [GSigs asigs_m1]); (s! "o", GQuadlets [GSigs asigs_m2]); (s! "p", GQuadlets [GSigs asigs_m3]); (s! "q", GSources [couple 1 anchor_m1]);
   (s! "r", GSources [couple 2 anchor_m2]); (s! "s", GSources [couple 2 anchor_m3]); (s! "t", GQuadlets [GPaths [csigs_m]])].
Definition runic (t : bytes) : R (list message) :=
  if beq t (s! "issued") then Ok issued_stream else if beq t (s! "revoked") then Ok revoked_stream
  else if beq t (s! "forgery") then Ok forgery_stream else if beq t (s! "takedown") then Ok takedown_stream
  else match assoc t runes with Some g => Ok [MGroup g] | None => Ok [] end.
Definition print_of (g : group) : bytes := match g with GSources ((sq, sd) :: _) => m_raw sd | _ => first_raw g end.
Definition rune_of (g : group) : R bytes := match find (fun p => beq (print_of (snd p)) (print_of g)) runes with Some p => Ok (fst p) | None => Ok [] end.
(** Taking a stream in with all of this. *)
Definition take_in (l : ledger) (stream : bytes) : ledger * R unit := ingest_messages no_floats mix toy runic rune_of (fun _ _ => Ok true) (fun _ => Ok 0%Z) (fun _ _ => true) 9 l stream (Some false) None.
