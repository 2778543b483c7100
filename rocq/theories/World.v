(** A small world for the examples about key-event logs: a digest function that mixes the bytes it is given, the toy signature scheme, three key sets and a log made with them.
    Definitions only. *)
From Coq Require Import String.
From Coq Require Import NArith ZArith Bool List.
From Verif Require Import Base Tables Matter Indexer Prims Json Tholder Common Saider Diger Sadder Signer Prefixer Pather Short Verify Ingest Events SpecSigner.
Import ListNotations.
Open Scope N_scope.

Definition mix (code ser : bytes) : bytes :=
  be_bytes (if len code =? 1 then 32%nat else 64%nat) (fold_left (fun acc c => N.land (acc * 33 + b2n c + 1) 18446744073709551615) ser 0).
(** No floats are read and no attachments are parsed. *)
Definition no_floats : bytes -> option bytes := fun _ => None.
Definition no_messages : bytes -> R (list message) := fun _ => Ok [].

(** Two keys, two next keys, one after these. *)
Definition keys0 := Ks [s! "AAAAAAAAAAAAAAAAAAAAAAAAAAAAAAAAAAAAAAAAAAAA"; s! "AAAAAAAAAAAAAAAAAAAAAAAAAAAAAAAAAAAAAAAAAAAB"] 0 true.
Definition keys1 := Ks [s! "ABAAAAAAAAAAAAAAAAAAAAAAAAAAAAAAAAAAAAAAAAAA"; s! "ABAAAAAAAAAAAAAAAAAAAAAAAAAAAAAAAAAAAAAAAAAB"] 0 true.
Definition keys2 := Ks [s! "ACAAAAAAAAAAAAAAAAAAAAAAAAAAAAAAAAAAAAAAAAAA"] 0 true.
Definition no_event := Sd [] [] VNull [] [] 0 (Ver 1 0) (Mt [] 0 []).
Definition got {A} (d : A) (r : R A) : A := match r with Ok a => a | _ => d end.
Definition signed (k : keyset) (e : sadder) : list indexer := map fst (got [] (ks_sign mix toy (fun _ => []) k (d_raw e) None)).

(** Inception with both keys of the first set needed, and both of the second to rotate, rotation to the second set, an interaction. *)
Definition event0 := Eval vm_compute in got no_event (
  let* ks := ks_verfers_qb64 toy keys0 in
  let* nd := ks_digers_qb64 mix toy keys1 in
  incept no_floats mix ks (Some (VStr (s! "2"))) (Some nd) (Some (VStr (s! "2"))) None None None None None None (Some (s! "E")) None None).
Definition sigs0 := Eval vm_compute in signed keys0 event0.
Definition pre0 := Eval vm_compute in got [] (serder_pre event0).
Definition log1 := insert_key_event empty pre0 (d_raw event0).
Definition event1 := Eval vm_compute in got no_event (
  let* ks := ks_verfers_qb64 toy keys1 in
  let* nd := ks_digers_qb64 mix toy keys2 in
  rotate no_floats mix pre0 ks (got [] (sad_said event0)) None 1 None (Some nd) None None None None None None None None None).
Definition sigs1 := Eval vm_compute in signed keys1 event1.
Definition log2 := insert_key_event log1 pre0 (d_raw event1).
Definition event2 := Eval vm_compute in got no_event (interact no_floats mix pre0 (got [] (sad_said event1)) (Some 2) None None None).
Definition sigs2 := Eval vm_compute in signed keys1 event2.
Definition log3 := insert_key_event log2 pre0 (d_raw event2).
(** The same log with its signatures: the attachments stand for themselves. *)
Definition few_messages (t : bytes) : R (list message) :=
  if beq t (s! "0") then Ok [MGroup (GQuadlets [GSigs sigs0])] else if beq t (s! "1") then Ok [MGroup (GQuadlets [GSigs sigs1])]
  else if beq t (s! "2") then Ok [MGroup (GQuadlets [GSigs sigs2])] else Ok [].
Definition full1 := insert_key_event empty pre0 (d_raw event0 ++ s! "0").
Definition full2 := insert_key_event full1 pre0 (d_raw event1 ++ s! "1").
Definition full3 := insert_key_event full2 pre0 (d_raw event2 ++ s! "2").
(** The inception with its threshold lowered: the identifier it claims is no longer right. *)
Definition forged0 := Eval vm_compute in got no_event (
  let* m := to_map (d_ked event0) in serder_with_raw no_floats (to_json (VObj (insert (s! "kt") (VStr (s! "1")) m)))).
(** A stream with the log, one with the inception and the forgery after it; texts of the groups of signatures. *)
Definition streams (t : bytes) : R (list message) :=
  if beq t (s! "log") then
    Ok [MPayload (d_raw event0); MGroup (GQuadlets [GSigs sigs0]); MPayload (d_raw event1); MGroup (GQuadlets [GSigs sigs1]); MPayload (d_raw event2); MGroup (GQuadlets [GSigs sigs2])]
  else if beq t (s! "forged") then Ok [MPayload (d_raw event0); MGroup (GQuadlets [GSigs sigs0]); MPayload (d_raw forged0); MGroup (GQuadlets [])]
  else few_messages t.
Definition sigs_text (g : group) : R bytes :=
  match g with
  | GQuadlets [GSigs (x :: _)] => if beq (i_raw x) (i_raw (hd x sigs0)) then Ok (s! "0") else if beq (i_raw x) (i_raw (hd x sigs1)) then Ok (s! "1") else Ok (s! "2")
  | _ => Ok []
  end.

(** A registry, anchored by an interaction; a credential with its issuance, anchored by the next; its revocation, anchored by the one after. *)
Definition of_text (t : bytes) : sadder := got no_event (serder_with_raw no_floats t).
Definition nothing := Mt [] 0 [].
Definition seal_of (e : sadder) : value := VObj [(s! "i", VStr (got [] (serder_pre e))); (s! "s", VStr (got [] (text_at (d_ked e) (s! "s")))); (s! "d", VStr (got [] (sad_said e)))].
Definition reg0 := Eval vm_compute in of_text (snd (got ([], []) (registry_incept no_floats mix pre0))).
Definition rpre0 := Eval vm_compute in got [] (serder_pre reg0).
Definition anchor1 := Eval vm_compute in got no_event (interact no_floats mix pre0 (got [] (sad_said event0)) (Some 1) (Some (VArr [seal_of reg0])) None None).
Definition asigs1 := Eval vm_compute in signed keys0 anchor1.
Definition cred0 := Eval vm_compute in got no_event (
  create no_floats mix (s! "2020-01-01T00:00:00.000000+00:00") ([], []) (s! "schema") pre0 (VObj [(s! "name", VStr (s! "x"))]) None None None (Some rpre0) (Some (VObj [])) None None None).
Definition csaid0 := Eval vm_compute in got [] (sad_said cred0).
Definition iss0 := Eval vm_compute in of_text (snd (got ([], []) (credential_issue no_floats mix (s! "2020-01-01T00:00:00.000000+00:00") (s! "n") csaid0 rpre0))).
Definition anchor2 := Eval vm_compute in got no_event (interact no_floats mix pre0 (got [] (sad_said anchor1)) (Some 2) (Some (VArr [seal_of iss0])) None None).
Definition asigs2 := Eval vm_compute in signed keys0 anchor2.
Definition rev0 := Eval vm_compute in of_text (snd (got ([], []) (credential_revoke no_floats mix (s! "2020-01-02T00:00:00.000000+00:00") (s! "m") csaid0 rpre0 (got [] (sad_said iss0))))).
Definition anchor3 := Eval vm_compute in got no_event (interact no_floats mix pre0 (got [] (sad_said anchor2)) (Some 3) (Some (VArr [seal_of rev0])) None None).
Definition asigs3 := Eval vm_compute in signed keys0 anchor3.
(** The source couple attached to a registry event: number and identifier of the event that anchors it. *)
Definition couple (sn : N) (e : sadder) : matter * matter := (got nothing (seqner_with_sn sn), d_saider e).
(** The signatures on the whole credential, by the keys of the inception. *)
Definition csigs0 := Eval vm_compute in Sps (got nothing (pather_with_path (VArr []))) (got nothing (exfil pre0)) (got nothing (seqner_with_sn 0)) (d_saider event0) (signed keys0 cred0).
(** All of it as streams and as ledgers. *)
Definition issued_stream : list message :=
  [MPayload (d_raw event0); MGroup (GQuadlets [GSigs sigs0]); MPayload (d_raw anchor1); MGroup (GQuadlets [GSigs asigs1]); MPayload (d_raw reg0); MGroup (GSources [couple 1 anchor1]);
   MPayload (d_raw anchor2); MGroup (GQuadlets [GSigs asigs2]); MPayload (d_raw iss0); MGroup (GSources [couple 2 anchor2]); MPayload (d_raw cred0); MGroup (GQuadlets [GPaths [csigs0]])].
Definition revoked_stream : list message := [MPayload (d_raw anchor3); MGroup (GQuadlets [GSigs asigs3]); MPayload (d_raw rev0); MGroup (GSources [couple 3 anchor3])].
(** Attachments in texts: a letter for each. *)
Definition letters : list (bytes * group) :=
  [(s! "a", GQuadlets [GSigs sigs0]); (s! "b", GQuadlets [GSigs asigs1]); (s! "c", GQuadlets [GSigs asigs2]); (s! "d", GQuadlets [GSigs asigs3]); (s! "e", GSources [couple 1 anchor1]);
   (s! "f", GSources [couple 2 anchor2]); (s! "g", GSources [couple 3 anchor3]); (s! "h", GQuadlets [GPaths [csigs0]])].
Definition lettered (t : bytes) : R (list message) :=
  if beq t (s! "issued") then Ok issued_stream else if beq t (s! "revoked") then Ok revoked_stream
  else match assoc t letters with Some g => Ok [MGroup g] | None => Ok [] end.
Definition first_raw (g : group) : bytes :=
  match g with
  | GQuadlets (GSigs (x :: _) :: _) => i_raw x
  | GQuadlets (GPaths (p :: _) :: _) => match sp_sigers p with x :: _ => i_raw x | _ => [] end
  | GSources ((sq, sd) :: _) => m_raw sq
  | _ => []
  end.
Definition letter_of (g : group) : R bytes := match find (fun p => beq (first_raw (snd p)) (first_raw g)) letters with Some p => Ok (fst p) | None => Ok [] end.
