(** Cases for the theorems on events with reserve keys: an identifier begun with two signing keys and three reserve keys, rotated and used. *)
From Coq Require Import String.
From Coq Require Import NArith ZArith Bool List.
From Verif Require Import Base Util Tables Matter Indexer Counter Prims Json Tholder Common Saider Diger Sadder Signer Prefixer Pather Short Verify Ingest Events Partial.
From Verif Require Import Spec SpecPrims SpecJson SpecCommon SpecTholder SpecSaider SpecSadder SpecPrefixer SpecSigner SpecFlow SpecLog SpecIngest SpecBuild SpecLife SpecPartial World.
Import ListNotations.
Open Scope N_scope.

Definition no_rng (_ : N) : bytes := [].
Definition salt0 : bytes := s! "0123456789abcdef".
Definition salt1 : bytes := s! "ghijklmnopqrstuv".
Definition no_keys := Ks [] 0 true.
Definition made0 := Eval vm_compute in got (no_event, no_keys, []) (incept_parts mix toy toy_kdf no_floats (zeros 16) no_rng None None None (Some true) (Some (s! "E")) None (Some salt0) None None).
Definition part0 := Eval vm_compute in fst (fst made0).
Definition pkeys0 := Eval vm_compute in snd (fst made0).
Definition psigs0 := Eval vm_compute in snd made0.
Definition ppre := Eval vm_compute in got [] (serder_pre part0).
Definition made1 := Eval vm_compute in got (no_event, no_keys, None) (rotate_built mix toy toy_kdf no_floats salt1 ppre ppre 1 1 None None None None (Some salt0) (Some salt1) None None None).
Definition part1 := Eval vm_compute in fst (fst made1).
Definition pkeys1 := Eval vm_compute in snd (fst made1).
Definition shown1 := Eval vm_compute in or_else (snd made1) no_keys.
Definition psigs1 := Eval vm_compute in got [] (both_sign mix toy no_rng shown1 pkeys1 (d_raw part1)).
Definition psaid1 := Eval vm_compute in got [] (sad_said part1).
Definition part2 := Eval vm_compute in got no_event (interact no_floats mix ppre psaid1 (Some 2) None None None).
Definition psigs2 := Eval vm_compute in got [] (ks_sign mix toy no_rng pkeys1 (d_raw part2) None).
Definition psaid2 := Eval vm_compute in got [] (sad_said part2).
Definition plog1 := insert_key_event empty ppre (d_raw part0).
Definition plog2 := insert_key_event plog1 ppre (d_raw part1).

Example begun : incept_parts mix toy toy_kdf no_floats (zeros 16) no_rng None None None (Some true) (Some (s! "E")) None (Some salt0) None None = Ok (part0, pkeys0, psigs0).
Proof. vm_compute. reflexivity. Qed.
Example rotated : rotate_built mix toy toy_kdf no_floats salt1 ppre ppre 1 1 None None None None (Some salt0) (Some salt1) None None None = Ok (part1, pkeys1, Some shown1).
Proof. vm_compute. reflexivity. Qed.
Example rotated_signed : both_sign mix toy no_rng shown1 pkeys1 (d_raw part1) = Ok psigs1.
Proof. vm_compute. reflexivity. Qed.
Example used : interact no_floats mix ppre psaid1 (Some 2) None None None = Ok part2.
Proof. vm_compute. reflexivity. Qed.
Example used_signed : ks_sign mix toy no_rng pkeys1 (d_raw part2) None = Ok psigs2.
Proof. vm_compute. reflexivity. Qed.
Example shared3 : shared_life no_floats mix toy toy_kdf None None None ppre 3 psaid2 pkeys1 salt1 2 [(part0, map fst psigs0); (part1, map fst psigs1); (part2, map fst psigs2)].
Proof.
  assert (shared_life no_floats mix toy toy_kdf None None None ppre 1 ppre pkeys0 salt0 1 [(part0, map fst psigs0)]) as L0 by (refine (shared_begun _ _ _ _ _ _ _ (zeros 16) no_rng None salt0 part0 pkeys0 psigs0 ppre begun _); reflexivity).
  assert (shared_life no_floats mix toy toy_kdf None None None ppre 2 psaid1 pkeys1 salt1 2 [(part0, map fst psigs0); (part1, map fst psigs1)]) as L1.
  { refine (shared_rotated _ _ _ _ _ _ _ ppre 1 ppre pkeys0 salt0 1 [(part0, map fst psigs0)] salt1 no_rng None salt1 part1 pkeys1 shown1 psigs1 psaid1 L0 rotated rotated_signed _); reflexivity. }
  refine (shared_used _ _ _ _ _ _ _ ppre 2 psaid1 pkeys1 salt1 2 [(part0, map fst psigs0); (part1, map fst psigs1)] None None None no_rng part2 psigs2 psaid2 L1 used used_signed _); reflexivity.
Qed.
Example plog1_logged : logged no_floats (view no_floats plog1) ppre 0 part0 ppre /\ count_key_events (view no_floats plog1) ppre = Ok 1.
Proof. split; [|vm_compute; reflexivity]. exists (d_raw part0). split; [vm_compute; reflexivity|]. split; vm_compute; reflexivity. Qed.
Example plog2_logged : logged no_floats (view no_floats plog2) ppre 1 part1 psaid1 /\ established no_floats (view no_floats plog2) ppre 1 part1 /\ count_key_events (view no_floats plog2) ppre = Ok 2.
Proof.
  split; [|split; [|vm_compute; reflexivity]]; exists (d_raw part1).
  - split; [vm_compute; reflexivity|]. split; vm_compute; reflexivity.
  - split; vm_compute; reflexivity.
Qed.
Example accepted1 : verify_key_event no_floats mix toy (fun _ => Err EValue) 1 (view no_floats plog1) part1 [GSigs (map fst psigs1)] None [] = Ok (false, []) /\
  verify_key_event no_floats mix toy (fun _ => Err EValue) 1 (view no_floats plog1) part1 [GSigs (tl (map fst psigs1))] None [] = Err EValidation.
Proof. split; vm_compute; reflexivity. Qed.
Example accepted2 : verify_key_event no_floats mix toy (fun _ => Err EValue) 1 (view no_floats plog2) part2 [GSigs (map fst psigs2)] None [] = Ok (false, []) /\
  verify_key_event no_floats mix toy (fun _ => Err EValue) 1 (view no_floats plog2) part2 [GSigs (tl (map fst psigs2))] None [] = Err EVerification.
Proof. split; vm_compute; reflexivity. Qed.
