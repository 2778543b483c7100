(** Model of the JavaScript bindings, wasm/src. A wrapper that only hands its arguments to the crate and its answer back (verfer.rs, cigar.rs, siger.rs, signer.rs, salter.rs,
    diger.rs, dater.rs, bexter.rs) is the function it calls and has no definition here; what is modelled is what the bindings do themselves: numbers of 128 bits, values as JSON
    text, lists of strings, and the codexes. A panic is a trap of the WebAssembly module. wasm/Cargo.toml asks for a package cesride at the path of this crate, whose name is
    keride at this commit; so the bindings do not build as they are and are read here against this crate. Definitions only. *)
From Coq Require Import String.
From Coq Require Import NArith ZArith Bool List.
From Verif Require Import Base Util Matter Indexer Prims Json Common Saider Sadder Tholder Prefixer Short.
Import ListNotations.
Open Scope N_scope.

(** wasm/src/util.rs:4-8 U128Wrapper. The fields are private and JavaScript has no constructor: a script gets one from num(), sn() or _fn() and hands it on. *)
Record u128_js := U128 { low : N; high : N }.

(** util.rs:10-14 from u128. *)
Definition js_of_u128 (value : N) : u128_js := U128 (value mod 2 ^ 64) (N.shiftr value 64 mod 2 ^ 64).

(** util.rs:16-20 into u128. *)
Definition u128_of_js (v : u128_js) : N := N.lor (high v) (low v).

Section Bindings.
Variable canon : bytes -> option bytes.
Variable hash : bytes -> bytes -> bytes.

(** util.rs:38-43 Value from ValueWrapper: the JSON reader's error is unwrapped. *)
Definition js_value (text : bytes) : R value :=
  match pjson canon text with
  | Ok j => of_json j
  | Err _ => Panic
  | Panic => Panic
  end.

(** sad.map(Value::from). *)
Definition js_value_opt (text : option bytes) : R (option value) :=
  match text with Some t => let* v := js_value t in Ok (Some v) | None => Ok None end.

(** The expect("unable unwrap value") of tholder.rs:47,77, saider.rs:83 and serder.rs:114. *)
Definition expect {A} (r : R A) : R A := match r with Ok x => Ok x | Err _ => Panic | Panic => Panic end.

(** saider.rs:43-46, prefixer.rs:23-26: an array of JavaScript values as a list of texts, None for an entry that is not a string. *)
Definition js_texts (a : option (list (option bytes))) : option (list bytes) := option_map (map (fun o => or_else o [])) a.

(** wasm/src/primitives/number.rs:14-34 new. *)
Definition js_number_new (num : option u128_js) (numh code raw qb64b qb64 qb2 : option bytes) : R matter :=
  number_new (option_map u128_of_js num) numh code raw qb64b qb64 qb2.
(** number.rs:36-39 new_with_num. *)
Definition js_number_with_num (num : u128_js) : R matter := number_with_num (u128_of_js num).
(** number.rs:66-69 num. *)
Definition js_num (self : matter) : R u128_js := let* n := number_num self in Ok (js_of_u128 n).

(** seqner.rs:14-34 new. *)
Definition js_seqner_new (sn : option u128_js) (snh code raw qb64b qb64 qb2 : option bytes) : R matter :=
  seqner_new (option_map u128_of_js sn) snh code raw qb64b qb64 qb2.
(** seqner.rs:36-39 new_with_sn. *)
Definition js_seqner_with_sn (sn : u128_js) : R matter := seqner_with_sn (u128_of_js sn).
(** seqner.rs:66-69 sn. *)
Definition js_sn (self : matter) : R u128_js := let* n := seqner_sn self in Ok (js_of_u128 n).

(** tholder.rs:17-29 new. *)
Definition js_tholder_new (thold limen sith : option bytes) : R tholder :=
  let* thold := js_value_opt thold in
  let* sith := js_value_opt sith in
  tholder_new canon thold limen sith.
(** tholder.rs:31-34 new_with_thold. *)
Definition js_tholder_with_thold (thold : bytes) : R tholder := let* v := js_value thold in tholder_with_thold canon v.
(** tholder.rs:41-44 new_with_sith. *)
Definition js_tholder_with_sith (sith : bytes) : R tholder := let* v := js_value sith in tholder_with_sith canon v.
(** tholder.rs:46-49 thold. Value::to_json fails on no value, as in the model of it. *)
Definition js_thold (self : tholder) : R bytes := expect (Ok (to_json (t_thold self))).
(** tholder.rs:75-79 sith. *)
Definition js_sith (self : tholder) : R bytes := let* sith := tholder_sith self in expect (Ok (to_json sith)).

(** saider.rs:32-60 new. *)
Definition js_said_new (sad : option bytes) (label kind : option bytes) (ignore : option (list (option bytes))) (code raw qb64b qb64 qb2 : option bytes) : R matter :=
  let* sad := js_value_opt sad in
  said_new hash sad label kind (or_else (js_texts ignore) []) code raw qb64b qb64 qb2.
(** saider.rs:114-134 new_with_sad. *)
Definition js_said_with_sad (sad : bytes) (label kind : option bytes) (ignore : option (list (option bytes))) (code : option bytes) : R matter :=
  let* sad := js_value sad in
  said_with_sad hash sad label kind (js_texts ignore) code.
(** saider.rs:62-85 saidify: the value is turned into text by to_string, which is for strings. *)
Definition js_saidify (sad : bytes) (code kind label : option bytes) (ignore : option (list (option bytes))) : R (matter * bytes) :=
  let* sad := js_value sad in
  let* ret := saidify hash sad code kind label (or_else (js_texts ignore) []) in
  let* text := expect (to_string (snd ret)) in
  Ok (fst ret, text).
(** saider.rs:87-112 verify. *)
Definition js_said_verify (self : matter) (sad : bytes) (prefixed versioned : option bool) (kind label : option bytes) (ignore : option (list (option bytes))) : R bool :=
  let* sad := js_value sad in
  said_verify hash self sad prefixed versioned kind label (or_else (js_texts ignore) []).

(** prefixer.rs:14-38 new. *)
Definition js_prefixer_new (ked : option bytes) (allows : option (list (option bytes))) (code raw qb64b qb64 qb2 : option bytes) : R matter :=
  let* ked := js_value_opt ked in
  prefixer_new hash ked (js_texts allows) code raw qb64b qb64 qb2.
(** prefixer.rs:40-52 new_with_ked. *)
Definition js_prefixer_with_ked (ked : bytes) (allows : option (list (option bytes))) (code : option bytes) : R matter :=
  let* ked := js_value ked in
  prefixer_with_ked hash ked (js_texts allows) code.
(** prefixer.rs:74-76 verify. *)
Definition js_prefixer_verify (self : matter) (ked : bytes) (prefixed : option bool) : R bool :=
  let* ked := js_value ked in
  prefixer_verify hash self ked prefixed.

(** serder.rs:17-33 new. *)
Definition js_serder_new (code raw kind ked : option bytes) (sad : option sadder) : R sadder :=
  let* ked := js_value_opt ked in
  serder_new canon code raw kind ked sad.
(** serder.rs:35-43 new_with_ked. *)
Definition js_serder_with_ked (ked : bytes) (code kind : option bytes) : R sadder :=
  let* ked := js_value ked in
  serder_with_ked canon ked code kind.
(** serder.rs:90-93 sn. *)
Definition js_serder_sn (self : sadder) : R u128_js := let* n := serder_sn self in Ok (js_of_u128 n).
(** serder.rs:100-103 _fn. *)
Definition js_serder_fn (self : sadder) : R u128_js := let* n := serder_fn self in Ok (js_of_u128 n).
(** serder.rs:113-116 ked. *)
Definition js_ked (self : sadder) : R bytes := expect (to_string (d_ked self)).

End Bindings.

(** src/cesr/core/matter/tables.rs:106-157 Codex: the constants and their codes. *)
Definition matter_codex : list (bytes * bytes) :=
  [(s! "Ed25519_Seed", s! "A"); (s! "Ed25519N", s! "B"); (s! "X25519", s! "C"); (s! "Ed25519", s! "D"); (s! "Blake3_256", s! "E"); (s! "Blake2b_256", s! "F");
   (s! "Blake2s_256", s! "G"); (s! "SHA3_256", s! "H"); (s! "SHA2_256", s! "I"); (s! "ECDSA_256k1_Seed", s! "J"); (s! "Ed448_Seed", s! "K"); (s! "X448", s! "L");
   (s! "Short", s! "M"); (s! "Big", s! "N"); (s! "X25519_Private", s! "O"); (s! "X25519_Cipher_Seed", s! "P"); (s! "ECDSA_256r1_Seed", s! "Q");
   (s! "Salt_128", s! "0A"); (s! "Ed25519_Sig", s! "0B"); (s! "ECDSA_256k1_Sig", s! "0C"); (s! "Blake3_512", s! "0D"); (s! "Blake2b_512", s! "0E");
   (s! "SHA3_512", s! "0F"); (s! "SHA2_512", s! "0G"); (s! "Long", s! "0H"); (s! "ECDSA_256r1_Sig", s! "0I"); (s! "ECDSA_256k1N", s! "1AAA");
   (s! "ECDSA_256k1", s! "1AAB"); (s! "Ed448N", s! "1AAC"); (s! "Ed448", s! "1AAD"); (s! "Ed448_Sig", s! "1AAE"); (s! "Tern", s! "1AAF");
   (s! "DateTime", s! "1AAG"); (s! "X25519_Cipher_Salt", s! "1AAH"); (s! "ECDSA_256r1N", s! "1AAI"); (s! "ECDSA_256r1", s! "1AAJ"); (s! "TBD1", s! "2AAA");
   (s! "TBD2", s! "3AAA"); (s! "StrB64_L0", s! "4A"); (s! "StrB64_L1", s! "5A"); (s! "StrB64_L2", s! "6A"); (s! "StrB64_Big_L0", s! "7AAA");
   (s! "StrB64_Big_L1", s! "8AAA"); (s! "StrB64_Big_L2", s! "9AAA"); (s! "Bytes_L0", s! "4B"); (s! "Bytes_L1", s! "5B"); (s! "Bytes_L2", s! "6B");
   (s! "Bytes_Big_L0", s! "7AAB"); (s! "Bytes_Big_L1", s! "8AAB"); (s! "Bytes_Big_L2", s! "9AAB")].
(** src/cesr/core/indexer/tables.rs:24-44 Codex. *)
Definition indexer_codex : list (bytes * bytes) :=
  [(s! "Ed25519", s! "A"); (s! "Ed25519_Crt", s! "B"); (s! "ECDSA_256k1", s! "C"); (s! "ECDSA_256k1_Crt", s! "D"); (s! "ECDSA_256r1", s! "E");
   (s! "ECDSA_256r1_Crt", s! "F"); (s! "Ed448", s! "0A"); (s! "Ed448_Crt", s! "0B"); (s! "Ed25519_Big", s! "2A"); (s! "Ed25519_Big_Crt", s! "2B");
   (s! "ECDSA_256k1_Big", s! "2C"); (s! "ECDSA_256k1_Big_Crt", s! "2D"); (s! "ECDSA_256r1_Big", s! "2E"); (s! "ECDSA_256r1_Big_Crt", s! "2F");
   (s! "Ed448_Big", s! "3A"); (s! "Ed448_Big_Crt", s! "3B"); (s! "TBD0", s! "0z"); (s! "TBD1", s! "1z"); (s! "TBD4", s! "4z")].

(** wasm/src/primitives/codex.rs:57-108 CesrideMatterCodex::code: each variant of the enum and the constant it stands for. *)
Definition js_matter_variants : list (bytes * bytes) :=
  [(s! "Ed25519Seed", s! "Ed25519_Seed"); (s! "Ed25519N", s! "Ed25519N"); (s! "X25519", s! "X25519"); (s! "Ed25519", s! "Ed25519");
   (s! "Blake3_256", s! "Blake3_256"); (s! "Blake2b_256", s! "Blake2b_256"); (s! "Blake2s_256", s! "Blake2s_256"); (s! "SHA3_256", s! "SHA3_256");
   (s! "SHA2_256", s! "SHA2_256"); (s! "ECDSA_256k1_Seed", s! "ECDSA_256k1_Seed"); (s! "Ed448_Seed", s! "Ed448_Seed"); (s! "X448", s! "X448");
   (s! "Short", s! "Short"); (s! "Big", s! "Big"); (s! "X25519_Private", s! "X25519_Private"); (s! "X25519_Cipher_Seed", s! "X25519_Cipher_Seed");
   (s! "Salt_128", s! "Salt_128"); (s! "Ed25519_Sig", s! "Ed25519_Sig"); (s! "ECDSA_256k1_Sig", s! "ECDSA_256k1_Sig"); (s! "Blake3_512", s! "Blake3_512");
   (s! "Blake2b_512", s! "Blake2b_512"); (s! "SHA3_512", s! "SHA3_512"); (s! "SHA2_512", s! "SHA2_512"); (s! "Long", s! "Long");
   (s! "ECDSA_256k1N", s! "ECDSA_256k1N"); (s! "ECDSA_256k1", s! "ECDSA_256k1"); (s! "Ed448N", s! "Ed448N"); (s! "Ed448", s! "Ed448");
   (s! "Ed448_Sig", s! "Ed448_Sig"); (s! "Tern", s! "Tern"); (s! "DateTime", s! "DateTime"); (s! "X25519_Cipher_Salt", s! "X25519_Cipher_Salt");
   (s! "TBD1", s! "TBD1"); (s! "TBD2", s! "TBD2"); (s! "StrB64_L0", s! "StrB64_L0"); (s! "StrB64_L1", s! "StrB64_L1"); (s! "StrB64_L2", s! "StrB64_L2");
   (s! "StrB64_Big_L0", s! "StrB64_Big_L0"); (s! "StrB64_Big_L1", s! "StrB64_Big_L1"); (s! "StrB64_Big_L2", s! "StrB64_Big_L2"); (s! "Bytes_L0", s! "Bytes_L0");
   (s! "Bytes_L1", s! "Bytes_L1"); (s! "Bytes_L2", s! "Bytes_L2"); (s! "Bytes_Big_L0", s! "Bytes_Big_L0"); (s! "Bytes_Big_L1", s! "Bytes_Big_L1");
   (s! "Bytes_Big_L2", s! "Bytes_Big_L2")].
(** codex.rs:136-156 CesrideIndexerCodex::code. *)
Definition js_indexer_variants : list (bytes * bytes) :=
  [(s! "Ed25519", s! "Ed25519"); (s! "Ed25519_Crt", s! "Ed25519_Crt"); (s! "ECDSA_256k1", s! "ECDSA_256k1"); (s! "ECDSA_256k1_Crt", s! "ECDSA_256k1_Crt");
   (s! "Ed448", s! "Ed448"); (s! "Ed448_Crt", s! "Ed448_Crt"); (s! "Ed25519_Big", s! "Ed25519_Big"); (s! "Ed25519_Big_Crt", s! "Ed25519_Big_Crt");
   (s! "ECDSA_256k1_Big", s! "ECDSA_256k1_Big"); (s! "ECDSA_256k1_Big_Crt", s! "ECDSA_256k1_Big_Crt"); (s! "Ed448_Big", s! "Ed448_Big");
   (s! "Ed448_Big_Crt", s! "Ed448_Big_Crt"); (s! "TBD0", s! "TBD0"); (s! "TBD1", s! "TBD1"); (s! "TBD4", s! "TBD4")].

(** codex.rs:110-113 matter_codex_code. None: there is no such variant. *)
Definition js_matter_code (variant : bytes) : option bytes :=
  match assoc variant js_matter_variants with Some c => assoc c matter_codex | None => None end.
(** codex.rs:158-161 indexer_codex_code. *)
Definition js_indexer_code (variant : bytes) : option bytes :=
  match assoc variant js_indexer_variants with Some c => assoc c indexer_codex | None => None end.
