(** Cases for the theorems on schemas: two schemas, the caches with the first, and a credential that names it, in a log with the keys that signed it. *)
From Coq Require Import String.
From Coq Require Import NArith ZArith Bool List.
From Verif Require Import Base Tables Matter Indexer Prims Json Tholder Common Saider Diger Sadder Signer Prefixer Pather Short Verify Ingest Events Schemer SpecSigner World.
Import ListNotations.
Open Scope N_scope.

(** A validator: every schema compiles; an instance conforms when it has all fields the schema says it needs. *)
Definition any_schema (_ : bytes) (_ : jval) : bool := true.
Definition needs (_ : bytes) (j i : jval) : bool :=
  match j, i with
  | JObj m, JObj fs => match assoc (s! "required") m with Some (JArr l) => forallb (fun k => match k with JStr k => match assoc k fs with Some _ => true | None => false end | _ => false end) l | _ => true end
  | _, _ => false
  end.
Definition schema0 : value := VObj [(s! "$id", VStr []); (s! "type", VStr (s! "object")); (s! "required", VArr [VStr (s! "a"); VStr (s! "i")])].
Definition schema_v : value := VObj [(s! "v", VStr (s! "KERI10JSON000000_")); (s! "$id", VStr []); (s! "type", VStr (s! "object"))].
Definition no_schema := Sm [] VNull [] nothing.
Definition made_0 := Eval vm_compute in got (no_schema, []) (schemer_new no_floats mix any_schema [] None (Some schema0) None None).
Definition made_v := Eval vm_compute in got (no_schema, []) (schemer_new no_floats mix any_schema [] None (Some schema_v) None None).
Definition sid0 := Eval vm_compute in got [] (infil (sm_saider (fst made_0))).
Definition primed_0 := Eval vm_compute in got [] (cache_prime [] [fst made_0]).

Definition cred_s := Eval vm_compute in got no_event (
  create no_floats mix (s! "2020-01-01T00:00:00.000000+00:00") ([], []) sid0 pre0 (VObj [(s! "name", VStr (s! "x"))]) None None None (Some rpre0) (Some (VObj [])) None None None).
Definition csaid_s := Eval vm_compute in got [] (sad_said cred_s).
Definition iss_s := Eval vm_compute in of_text (snd (got ([], []) (credential_issue no_floats mix (s! "2020-01-01T00:00:00.000000+00:00") (s! "n") csaid_s rpre0))).
Definition csigs_s := Eval vm_compute in Sps (got nothing (pather_with_path (VArr []))) (got nothing (exfil pre0)) (got nothing (seqner_with_sn 0)) (d_saider event0) (signed keys0 cred_s).
Definition ledger_s : ledger := Ledger (fun p => if beq p pre0 then [d_raw event0] else []) (fun p => if beq p csaid_s then [d_raw iss_s] else []) [].
Lemma made_0_ok : schemer_new no_floats mix any_schema [] None (Some schema0) None None = Ok made_0. Proof. vm_compute. reflexivity. Qed.
Lemma made_v_ok : schemer_new no_floats mix any_schema [] None (Some schema_v) None None = Ok made_v. Proof. vm_compute. reflexivity. Qed.
Lemma made_v_back : schemer_new no_floats mix any_schema (snd made_v) (Some (sm_raw (fst made_v))) None None None = Err EValidation. Proof. vm_compute. reflexivity. Qed.
Lemma primed_0_ok : cache_prime [] [fst made_0] = Ok primed_0. Proof. vm_compute. reflexivity. Qed.
Lemma try_known : verify_acdc no_floats mix toy lettered (cache_verify no_floats needs (snd made_0) primed_0) (fun _ => Ok 0%Z) 9 (view no_floats ledger_s) cred_s [GPaths [csigs_s]] (Some false) [] = Ok (false, []). Proof. vm_compute. reflexivity. Qed.
Lemma try_unknown : verify_acdc no_floats mix toy lettered (cache_verify no_floats needs (snd made_0) []) (fun _ => Ok 0%Z) 9 (view no_floats ledger_s) cred_s [GPaths [csigs_s]] (Some false) [] = Panic. Proof. vm_compute. reflexivity. Qed.
