(** Vocabulary of the theorems on signing and key creation, independent of the model's internals. *)
From Coq Require Import String.
From Coq Require Import NArith List Bool.
From Verif Require Import Base Matter Signer SpecPrims.
Import ListNotations.
Open Scope N_scope.

(** Seed codes with their scheme, the codes of transferable and non-transferable keys and the code of a signature. *)
Definition seed_table : list (bytes * (scheme * bytes * bytes * bytes)) :=
  [ (s! "A", (Ed25519, s! "D", s! "B", s! "0B"));
    (s! "J", (Ecdsa256k1, s! "1AAB", s! "1AAA", s! "0C"));
    (s! "Q", (Ecdsa256r1, s! "1AAJ", s! "1AAI", s! "0I")) ].

(** Seed codes with the codes of indexed signatures: for both key lists, small and big; for the current list only, small and big. *)
Definition index_table : list (bytes * (bytes * bytes * bytes * bytes)) :=
  [ (s! "A", (s! "A", s! "2A", s! "B", s! "2B"));
    (s! "J", (s! "C", s! "2C", s! "D", s! "2D"));
    (s! "Q", (s! "E", s! "2E", s! "F", s! "2F")) ].

(** What is assumed of the signature schemes: every 32-byte string is an Ed25519 private key; public keys and signatures have their
    published sizes; and what a key signs verifies under its public key, whatever randomness the signing uses. *)
Definition public_width (s : scheme) : N := match s with Ed25519 => 32 | _ => 33 end.
Record correct (cr : crypto) : Prop := {
  every_key : forall key, len key = 32 -> exists pk, cr_public cr Ed25519 key = Some pk;
  signs : forall s key pk, cr_public cr s key = Some pk ->
    len pk = public_width s /\ (forall rng ser, exists sig, cr_sign cr s rng key ser = Some sig /\ len sig = 64 /\ cr_verify cr s pk sig ser = Some true);
  draws : forall s, len (cr_random cr s) = 32 /\ exists pk, cr_public cr s (cr_random cr s) = Some pk }.

(** A scheme with these properties, for the examples: a key is its own public key, and a signature repeats it. *)
Definition toy : crypto := Crypto
  (fun _ => zeros 32)
  (fun s key => if len key =? 32 then Some (match s with Ed25519 => key | _ => x02 :: key end) else None)
  (fun s _ key _ => if len key =? 32 then Some (key ++ zeros 32) else None)
  (fun s pk sig _ => Some (beq sig (match s with Ed25519 => pk | _ => drop 1 pk end ++ zeros 32))).

(** The key code a seed code calls for. *)
Definition key_code (seed : bytes) (transferable : bool) (code : bytes) : Prop :=
  exists s d b sg, In (seed, (s, d, b, sg)) seed_table /\ code = if transferable then d else b.

(** Security tiers: memory in KiB and number of passes. *)
Definition tiers : list (bytes * (N * N)) :=
  [ (s! "min", (8, 1)); (s! "low", (65536, 2)); (s! "med", (262144, 3)); (s! "high", (1048576, 4)) ].

(** Key stretching: what is assumed is that it returns as many bytes as asked. *)
Definition sized_kdf (kdf : bytes -> bytes -> N -> N -> N -> option bytes) : Prop := forall pwd salt n mem passes k, kdf pwd salt n mem passes = Some k -> len k = n.
(** The seed of a signer is stretched from a path and a salt at a security tier. *)
Definition stretched (kdf : bytes -> bytes -> N -> N -> N -> option bytes) (salt tier path : bytes) (g : signer) : Prop :=
  exists mem passes, In (tier, (mem, passes)) tiers /\ kdf path salt 32 mem passes = Some (m_raw (g_seed g)).
(** A toy, for the examples: the first bytes of path, salt and cost. *)
Definition toy_kdf (pwd salt : bytes) (n mem passes : N) : option bytes := Some (take n (n2b passes :: pwd ++ salt ++ zeros n)).

(** The hexadecimal numeral of a number. *)
Definition numeral (n : N) (h : bytes) : Prop := lower_hex h /\ hex_number h = n.
(** The tier of a key: temporary keys are stretched at the lowest. *)
Definition tier_used (temp : bool) (tier : bytes) : bytes := if temp then s! "min" else tier.
(** The stem of the paths: the creator's own, or else the one given, or else the numeral of the account index. *)
Definition stem_used (own : bytes) (given : option bytes) (account : N) (stem : bytes) : Prop :=
  (own <> [] /\ stem = own) \/ (own = [] /\ (given = Some stem \/ given = None /\ numeral account stem)).
(** The codes asked for: the list, or if it is missing or empty, as many of one code as counted. *)
Definition asked (codes : option (list bytes)) (count : option N) (code : option bytes) : list bytes :=
  let one := match code with Some c => c | None => s! "A" end in
  let n := match count with Some n => n | None => 1 end in
  match codes with Some (c :: l) => c :: l | _ => repeat one (N.to_nat n) end.
Definition by_default (o : option N) : N := match o with Some n => n | None => 0 end.
(** The number of hexadecimal digits of a number, and the digits and the number that several numerals make when written one after the other. *)
Definition hexits (n : N) : N := 1 + N.log2 n / 4.
Definition joined (l : list N) : N * N := fold_left (fun acc n => (fst acc + hexits n, snd acc * 16 ^ hexits n + n)) l (0, 0).
