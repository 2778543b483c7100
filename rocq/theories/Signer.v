(** Model of src/cesr/crypto/sign.rs, src/cesr/crypto/salt.rs, src/signing/signer.rs, Verfer::verify (src/cesr/core/verfer.rs),
    the key stretching of src/cesr/core/salter.rs and src/signify/creating.rs. *)
From Coq Require Import String.
From Coq Require Import NArith List Bool.
From Verif Require Import Base Tables Matter Indexer Prims.
Import ListNotations.
Open Scope N_scope.

(** ** Signature schemes *)
Inductive scheme := Ed25519 | Ecdsa256k1 | Ecdsa256r1.

(** The primitives of the crates ed25519-dalek, k256, p256 and argon2 that the code calls. They are not modelled: every definition below
    takes them as a parameter. [None] stands for an error of the crate. [cr_sign] has the random bytes drawn by sign_with_rng as an
    argument (unused by Ed25519); [cr_random] is the private key drawn by generate. *)
Record crypto := Crypto {
  cr_random : scheme -> bytes;
  cr_public : scheme -> bytes -> option bytes;                       (* private key *)
  cr_sign : scheme -> bytes -> bytes -> bytes -> option bytes;       (* random bytes, private key, message *)
  cr_verify : scheme -> bytes -> bytes -> bytes -> option bool }.    (* public key, signature, message *)

Definition foreign {A} (o : option A) : R A := match o with Some a => Ok a | None => Err EForeign end.

(** sign.rs:4-20, 22-38, 40-56 and 58-74: the match on the code that the four functions share. *)
Definition scheme_of (code : bytes) : R scheme :=
  if has_code [s! "D"; s! "B"; s! "A"; s! "0B"] code then Ok Ed25519
  else if has_code [s! "1AAB"; s! "1AAA"; s! "J"; s! "0C"] code then Ok Ecdsa256k1
  else if has_code [s! "1AAJ"; s! "1AAI"; s! "Q"; s! "0I"] code then Ok Ecdsa256r1
  else Err EUnexpectedCode.

Section Crypto.
Variable cr : crypto.

(** sign.rs:4-20, 82-95, 128-132, 166-170 *)
Definition generate (code : bytes) : R bytes := let* s := scheme_of code in Ok (cr_random cr s).

(** sign.rs:22-38; 97-101 (the slice of the first 32 bytes panics on fewer), 134-138, 172-176. *)
Definition public_key (code key : bytes) : R bytes :=
  let* s := scheme_of code in
  match s with
  | Ed25519 => let* k := slice_bytes key 0 32 in foreign (cr_public cr Ed25519 k)
  | _ => foreign (cr_public cr s key)
  end.

(** sign.rs:40-56; 103-106 (a key of another length than 32 is an error), 140-144, 178-182. *)
Definition sign (rng code key ser : bytes) : R bytes :=
  let* s := scheme_of code in
  match s with
  | Ed25519 => if len key =? 32 then foreign (cr_sign cr Ed25519 rng key ser) else Err EForeign
  | _ => foreign (cr_sign cr s rng key ser)
  end.

(** sign.rs:58-74; 108-116 (lengths other than 32 and 64 are errors), 146-154, 184-192. *)
Definition check (code key sig ser : bytes) : R bool :=
  let* s := scheme_of code in
  match s with
  | Ed25519 => if (len key =? 32) && (len sig =? 64) then foreign (cr_verify cr Ed25519 key sig ser) else Err EForeign
  | _ => foreign (cr_verify cr s key sig ser)
  end.

(** verfer.rs:67-70 *)
Definition verfer_verify (v : matter) (sig ser : bytes) : R bool :=
  let* _u := validate verfer_codes (m_code v) in
  check (m_code v) (m_raw v) sig ser.

(** ** Signer *)
Record signer := Sgr { g_seed : matter; g_verfer : matter }.

(** signer.rs:59-72 *)
Definition seed_codes : list bytes := [s! "A"; s! "J"; s! "Q"].

(** signer.rs:74-93 *)
Definition derive_verfer (code key : bytes) (transferable : bool) : R matter :=
  let* c :=
    if transferable then
      if beq code (s! "A") then Ok (s! "D") else if beq code (s! "J") then Ok (s! "1AAB") else if beq code (s! "Q") then Ok (s! "1AAJ") else Err EUnexpectedCode
    else
      if beq code (s! "A") then Ok (s! "B") else if beq code (s! "J") then Ok (s! "1AAA") else if beq code (s! "Q") then Ok (s! "1AAI") else Err EUnexpectedCode in
  let* raw := public_key code key in
  verfer_new (Some c) (Some raw) None None None.

(** signer.rs:95-120 new, with 223-226 derive_and_assign_verfer. *)
Definition signer_new (transferable : option bool) (code raw qb64b qb64 qb2 : option bytes) : R signer :=
  let transferable := or_else transferable true in
  let* m :=
    if is_none qb64b && is_none qb64 && is_none qb2 then
      let code := or_else code (s! "A") in
      let* _u := validate seed_codes code in
      let* raw := match raw with Some r => Ok r | None => generate code end in
      matter_new (Some code) (Some raw) None None None
    else
      let* m := matter_new code raw qb64b qb64 qb2 in
      let* _u := validate seed_codes (m_code m) in
      Ok m in
  let* v := derive_verfer (m_code m) (m_raw m) transferable in
  Ok (Sgr m v).

(** signer.rs:146-156 *)
Definition sign_unindexed (rng : bytes) (g : signer) (ser : bytes) : R (matter * matter) :=
  let c := m_code (g_seed g) in
  let* code := if beq c (s! "A") then Ok (s! "0B") else if beq c (s! "J") then Ok (s! "0C") else if beq c (s! "Q") then Ok (s! "0I") else Err EUnexpectedCode in
  let* sig := sign rng c (m_raw (g_seed g)) ser in
  cigar_new (Some (g_verfer g)) (Some code) (Some sig) None None None.

(** signer.rs:158-217 *)
Definition sign_indexed (rng : bytes) (g : signer) (ser : bytes) (only : bool) (index : N) (ondex : option N) : R (indexer * matter) :=
  let c := m_code (g_seed g) in
  let* co :=
    if only then
      let* code :=
        if index <? 64 then
          if beq c (s! "A") then Ok (s! "B") else if beq c (s! "J") then Ok (s! "D") else if beq c (s! "Q") then Ok (s! "F") else Err EUnexpectedCode
        else
          if beq c (s! "A") then Ok (s! "2B") else if beq c (s! "J") then Ok (s! "2D") else if beq c (s! "Q") then Ok (s! "2F") else Err EUnexpectedCode in
      Ok (code, None)
    else
      let o := or_else ondex index in
      let* code :=
        if (index =? o) && (index <? 64) then
          if beq c (s! "A") then Ok (s! "A") else if beq c (s! "J") then Ok (s! "C") else if beq c (s! "Q") then Ok (s! "E") else Err EUnexpectedCode
        else
          if beq c (s! "A") then Ok (s! "2A") else if beq c (s! "J") then Ok (s! "2C") else if beq c (s! "Q") then Ok (s! "2E") else Err EUnexpectedCode in
      Ok (code, Some o) in
  let* sig := sign rng c (m_raw (g_seed g)) ser in
  siger_new (Some (g_verfer g)) (Some index) (snd co) (Some (fst co)) (Some sig) None None None.

(** ** Key stretching *)
(** Argon2id version 0x13 with one lane: password, salt, length, memory (KiB) and passes; [None] is any error of the crate, of the
    parameters or of the hashing. *)
Variable kdf : bytes -> bytes -> N -> N -> N -> option bytes.

(** salt.rs:5-20 params, 22-35 stretch *)
Definition stretch (pwd salt : bytes) (length : N) (tier : bytes) : R bytes :=
  let* p :=
    if beq tier (s! "min") then Ok (8, 1)
    else if beq tier (s! "low") then Ok (65536, 2)
    else if beq tier (s! "med") then Ok (262144, 3)
    else if beq tier (s! "high") then Ok (1048576, 4)
    else Err EValue in
  match kdf pwd salt length (fst p) (snd p) with Some k => Ok k | None => Err EDerivation end.

(** salter.rs:82-98; a salter is its primitive and its tier. *)
Definition salter_stretch (self : matter * bytes) (size : option N) (path tier : option bytes) (temp : option bool) : R bytes :=
  let tier := if or_else temp false then s! "min" else or_else tier (snd self) in
  stretch (or_else path []) (m_raw (fst self)) (or_else size 32) tier.

(** salter.rs:104-124 *)
Definition salter_signer (self : matter * bytes) (code : option bytes) (transferable : option bool) (path tier : option bytes) (temp : option bool) : R signer :=
  let code := or_else code (s! "A") in
  let* size := raw_size code in
  let* seed := salter_stretch self (Some size) (Some (or_else path [])) tier (Some (or_else temp false)) in
  signer_new (Some (or_else transferable true)) (Some code) (Some seed) None None None.

(** salter.rs:126-148; [i + start] is a 64-bit addition that panics on overflow (debug profile). *)
Fixpoint signers_loop (n : nat) (i : N) (self : matter * bytes) (start : N) (path : bytes) (code : option bytes) (transferable : option bool) (tier : option bytes)
    (temp : option bool) : R (list signer) :=
  match n with
  | O => Ok []
  | S n =>
    if u64_max <? i + start then Panic
    else
      let* g := salter_signer self code transferable (Some (path ++ to_hex (i + start))) tier temp in
      let* l := signers_loop n (i + 1) self start path code transferable tier temp in
      Ok (g :: l)
  end.
Definition salter_signers (self : matter * bytes) (count start : option N) (path code : option bytes) (transferable : option bool) (tier : option bytes)
    (temp : option bool) : R (list signer) :=
  signers_loop (N.to_nat (or_else count 1)) 0 self (or_else start 0) (or_else path []) code transferable tier temp.

(** ** Creators *)
(** creating.rs:30-39 SaltyCreator; the field salt is never read and left out. *)
Record salty := Sc { sc_stem : bytes; sc_tier : bytes; sc_salter : matter * bytes }.
Definition unwrap {A} (r : R A) : R A := match r with Ok a => Ok a | _ => Panic end.

(** creating.rs:42-61 new, 117-126 default; [random] is what a salter without material draws. *)
Definition salty_new (random : bytes) (salt stem tier : option bytes) (salter : option (matter * bytes)) : R salty :=
  let* default := unwrap (salter_new random (Some (s! "low")) None None None None None) in
  let self := Sc [] (s! "low") default in
  let self := match stem with Some s => Sc s (sc_tier self) (sc_salter self) | None => self end in
  match salter with
  | Some s => Ok (Sc (sc_stem self) (sc_tier self) s)
  | None => let* s := unwrap (salter_new random tier None None None salt None) in Ok (Sc (sc_stem self) (sc_tier self) s)
  end.

(** creating.rs:100-102, 148-150 *)
Definition all_codes (codes : option (list bytes)) (count : option N) (code : option bytes) : list bytes :=
  match or_else codes [] with
  | [] => repeat (or_else code (s! "A")) (N.to_nat (or_else count 1))
  | l => l
  end.

(** creating.rs:104-113; [kidx + i as u16] truncates the position to 16 bits and panics if the sum exceeds them (debug profile). *)
Fixpoint create_loop (self : salty) (stem : bytes) (ridx kidx : N) (transferable temp : bool) (i : N) (codes : list bytes) : R (list signer) :=
  match codes with
  | [] => Ok []
  | c :: codes =>
    let k := kidx + i mod 2 ^ 16 in
    if 2 ^ 16 <=? k then Panic
    else
      let path := stem ++ to_hex ridx ++ to_hex k in
      let* g := unwrap (salter_signer (sc_salter self) (Some c) (Some transferable) (Some path) (Some (sc_tier self)) (Some temp)) in
      let* l := create_loop self stem ridx kidx transferable temp (i + 1) codes in
      Ok (g :: l)
  end.
(** creating.rs:76-114 *)
Definition salty_create (self : salty) (codes : option (list bytes)) (count : option N) (code : option bytes) (pidx ridx kidx : option N) (stem : option bytes)
    (transferable : option bool) (temp : bool) : R (list signer) :=
  let stem := match sc_stem self with [] => or_else stem (to_hex (or_else pidx 0)) | s => s end in
  create_loop self stem (or_else ridx 0) (or_else kidx 0) (or_else transferable true) temp 0 (all_codes codes count code).

End Crypto.

(** creating.rs:136-156; the i-th signer draws its key from the i-th source of randomness. *)
Fixpoint randy_loop (crs : N -> crypto) (transferable : bool) (i : N) (codes : list bytes) : R (list signer) :=
  match codes with
  | [] => Ok []
  | c :: codes =>
    let* g := unwrap (signer_new (crs i) (Some transferable) (Some c) None None None None) in
    let* l := randy_loop crs transferable (i + 1) codes in
    Ok (g :: l)
  end.
Definition randy_create (crs : N -> crypto) (codes : option (list bytes)) (count : option N) (code : option bytes) (transferable : option bool) : R (list signer) :=
  randy_loop crs (or_else transferable true) 0 (all_codes codes count code).
