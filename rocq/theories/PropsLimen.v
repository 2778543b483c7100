(** Properties C47, C80: exactly when making a threshold or reading a number panics. Theorem statements only; the proofs are in [LimenThms]. *)
From Coq Require Import String.
From Coq Require Import NArith ZArith QArith Bool List.
From Verif Require Import Base Tables Matter Prims Json Tholder Spec SpecPrims SpecKinds SpecPanic SpecCounter SpecTholder SpecWeigh LimenThms BaseFacts.
Import ListNotations.
Open Scope N_scope.

(** Exactly when the integer of a number or sequence number parsed from text cannot be read: the characters its code announces hold a padding sign. Then
   reading it panics; otherwise it is the big-endian value of the raw bytes, which are as many as the code prescribes. *)
Theorem C80_unreadable_exactly :
  forall (s : bytes) (m : matter),
  (forall w, number_new None None None None None (Some s) None = Ok m -> In (m_code m, w) number_sizes ->
    exists t rest, s = t ++ rest /\ announced s (len t) /\ (In x3d t <-> number_num m = Panic) /\ (~ In x3d t <-> number_num m = Ok (be_val (m_raw m)) /\ len (m_raw m) = w)) /\
  (seqner_new None None None None None (Some s) None = Ok m ->
    exists t rest, s = t ++ rest /\ announced s (len t) /\ (In x3d t <-> seqner_sn m = Panic) /\ (~ In x3d t <-> seqner_sn m = Ok (be_val (m_raw m)) /\ len (m_raw m) = 16)).
Proof. exact C80_exact_l. Qed.
Print Assumptions C80_unreadable_exactly.

Example C80_exact_case : exists m m', number_new None None None None None (Some (s! "0HAAAAA=AB")) None = Ok m /\ number_num m = Panic /\
  number_new None None None None None (Some (s! "0HAAAABQ=")) None = Ok m' /\ number_num m' = Ok 80.
Proof. exists (Mt (s! "0H") 0 [x00; x00; x00]), (Mt (s! "0H") 0 [x00; x00; x00; x50]). repeat apply conj; vm_compute; reflexivity. Qed.

(** Exactly when making a threshold panics, from one argument with fewer than 2^27 weights.
   - From a value: its first entry that is not a weight is zero over zero, or all entries are weights and the first clause not reaching one overflows.
   - From a sith that is not a string: the same of its clauses. From a string: it starts with '[' and its reading as JSON panics (see C50) or gives such clauses.
   - From a limen: it is UTF-8 and too short for, or cannot be cut after, the code its first character announces; or it has the code of a number or of
     a Base64 text and reading it panics (see C14); or it is a number whose integer cannot be read (see C80); or it is a Base64 text with such clauses written in it. *)
Theorem C47_panics_exactly :
  forall (canon : bytes -> option bytes) (v : value) (s l : bytes),
  (keys v < 2 ^ 27 -> (tholder_new canon (Some v) None None = Panic <-> breaks v)) /\
  ((forall x, v <> VStr x) -> (forall ts, sith_clauses v ts -> len (concat ts) < 2 ^ 27) ->
    (tholder_new canon None None (Some v) = Panic <-> exists ts u, sith_clauses v ts /\ texts u ts /\ breaks u)) /\
  ((forall x ts, value_of_text canon s = Ok x -> sith_clauses x ts -> len (concat ts) < 2 ^ 27) ->
    (tholder_new canon None None (Some (VStr s)) = Panic <->
      prefix (s! "[") s /\ (value_of_text canon s = Panic \/ exists x ts u, value_of_text canon s = Ok x /\ sith_clauses x ts /\ texts u ts /\ breaks u))) /\
  (tholder_new canon None (Some l) None = Panic <->
    utf8 l = true /\
    ((exists d, In d (s! "0456") /\ prefix [d] l /\ (len l < 2 \/ inside l 2)) \/
     (exists d, In d (s! "123789") /\ prefix [d] l /\ (len l < 4 \/ inside l 4)) \/
     (exists code, In code (numbers ++ base64_texts) /\ prefix code l /\ exfil l = Panic) \/
     (exists m, exfil l = Ok m /\ In (m_code m) numbers /\ number_num m = Panic) \/
     (exists m b ts u, exfil l = Ok m /\ In (m_code m) base64_texts /\ bext_of m = Ok b /\ written b ts /\ texts u ts /\ breaks u))).
Proof. exact C47_exact_l. Qed.
Print Assumptions C47_panics_exactly.

Example C47_exact_case : tholder_new (fun _ => None) None (Some (s! "4AADA1c1s0a0s0")) None = Err EShortage /\ tholder_new (fun _ => None) None (Some (s! "4AADA1c1c1a0c0s0")) None = Panic /\
  tholder_new (fun _ => None) None (Some (s! "4")) None = Panic /\ tholder_new (fun _ => None) None None (Some (VArr [VStr (s! "0/0")])) = Panic /\
  tholder_new (fun _ => None) (Some (VArr [VArr [VNull; VStr (s! "0/0")]])) None None = Err EConversion.
Proof. repeat apply conj; vm_compute; reflexivity. Qed.
