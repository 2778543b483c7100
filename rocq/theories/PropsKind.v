(** Properties C40, C78. Theorem statements only; the proofs are in [KindThms]. *)
From Coq Require Import String.
From Coq Require Import NArith ZArith QArith Bool List.
From Verif Require Import Base Tables Matter Indexer Counter Prims Json Saider Diger Prefixer Signer Pather Spec SpecPrims SpecSaider SpecPrefixer SpecSigner SpecKinds KindThms BaseFacts.
Import ListNotations.
Open Scope N_scope.

(** A primitive is parsed as a key, digest, signature, indexed signature, sequence number, date-time, base64 text, path or identifier exactly if it parses at all and its code is
   one of the kind, whatever encoding it comes in and whatever the other arguments are; as a seed, if moreover it has a public key. Full statement: as a number, salt or prefix,
   too; see the refuted statements below. *)
Theorem C40_kinds_partial :
  forall (hash : bytes -> bytes -> bytes) (cr : crypto) (code qb64b qb64 qb2 : option bytes) (m : matter),
  first None qb64b qb64 qb2 <> None ->
  let parsed := matter_new None None qb64b qb64 qb2 = Ok m in
  (verfer_new code None qb64b qb64 qb2 = Ok m <-> parsed /\ In (m_code m) keys) /\
  (diger_new hash None code None qb64b qb64 qb2 = Ok m <-> parsed /\ In (m_code m) digests) /\
  (forall key k, cigar_new key code None qb64b qb64 qb2 = Ok (m, k) <-> parsed /\ In (m_code m) signatures /\ k = match key with Some k => k | None => Mt (s! "D") 0 [] end) /\
  (forall key index ondex x k, siger_new key index ondex code None qb64b qb64 qb2 = Ok (x, k) <->
     indexer_new None None None None qb64b qb64 qb2 = Ok x /\ In (i_code x) indexed_signatures /\ k = match key with Some k => k | None => Mt (s! "D") 0 [] end) /\
  (forall sn snh, seqner_new sn snh code None qb64b qb64 qb2 = Ok m <-> parsed /\ In (m_code m) sequence_numbers) /\
  (forall now dts, dater_new now dts code None qb64b qb64 qb2 = Ok m <-> parsed /\ In (m_code m) date_times) /\
  (bexter_new None code None qb64b qb64 qb2 = Ok m <-> parsed /\ In (m_code m) base64_texts) /\
  (forall path, pather_new path None code None qb64b qb64 qb2 = Ok m <-> parsed /\ In (m_code m) base64_texts) /\
  (forall label kind ignore, said_new hash None label kind ignore code None qb64b qb64 qb2 = Ok m <-> parsed /\ In (m_code m) digests) /\
  (forall transferable g, signer_new cr transferable code None qb64b qb64 qb2 = Ok g -> matter_new None None qb64b qb64 qb2 = Ok (g_seed g) /\ In (m_code (g_seed g)) seeds).
Proof. exact C40_l. Qed.
Print Assumptions C40_kinds_partial.

Example C40_case : exists m, verfer_new None None None (Some (s! "DAAAAAAAAAAAAAAAAAAAAAAAAAAAAAAAAAAAAAAAAAAA")) None = Ok m /\
  diger_new (fun _ _ => []) None None None None (Some (s! "DAAAAAAAAAAAAAAAAAAAAAAAAAAAAAAAAAAAAAAAAAAA")) None = Err EUnexpectedCode.
Proof. eexists. split; vm_compute; reflexivity. Qed.

(** Whatever combination of arguments a key, digest, signature, indexed signature, sequence number, date-time, base64 text, path, identifier or seed is made from, its code is one
   of its kind. *)
Theorem C40_made_of_kind :
  forall (hash : bytes -> bytes -> bytes) (cr : crypto) (code raw qb64b qb64 qb2 : option bytes) (m : matter),
  (verfer_new code raw qb64b qb64 qb2 = Ok m -> In (m_code m) keys) /\
  (forall ser, diger_new hash ser code raw qb64b qb64 qb2 = Ok m -> In (m_code m) digests) /\
  (forall key k, cigar_new key code raw qb64b qb64 qb2 = Ok (m, k) -> In (m_code m) signatures) /\
  (forall key index ondex x k, siger_new key index ondex code raw qb64b qb64 qb2 = Ok (x, k) -> In (i_code x) indexed_signatures) /\
  (forall sn snh, seqner_new sn snh code raw qb64b qb64 qb2 = Ok m -> In (m_code m) sequence_numbers) /\
  (forall now dts, dater_new now dts code raw qb64b qb64 qb2 = Ok m -> In (m_code m) date_times) /\
  (forall bext, bexter_new bext code raw qb64b qb64 qb2 = Ok m -> In (m_code m) base64_texts) /\
  (forall path bext, pather_new path bext code raw qb64b qb64 qb2 = Ok m -> In (m_code m) base64_texts) /\
  (forall sad label kind ignore, said_new hash sad label kind ignore code raw qb64b qb64 qb2 = Ok m -> In (m_code m) digests) /\
  (forall transferable g, signer_new cr transferable code raw qb64b qb64 qb2 = Ok g -> In (m_code (g_seed g)) seeds /\ In (m_code (g_verfer g)) keys).
Proof. exact C40_made_l. Qed.
Print Assumptions C40_made_of_kind.

Example C40_made_case : exists m, said_new (fun _ _ => zeros 32) (Some (VObj [(s! "d", VStr [])])) None None [] None None None None None = Ok m /\ In (m_code m) digests.
Proof. eexists. split; [vm_compute; reflexivity|]. vm_compute. tauto. Qed.

(** No text is accepted as more than one of key, digest, signature, sequence number, date-time, base64 text and seed. *)
Theorem C40_one_kind :
  forall (hash : bytes -> bytes -> bytes) (cr : crypto) (t : bytes) (i j : nat),
  let accepted := [ is_ok (verfer_new None None None (Some t) None); is_ok (diger_new hash None None None None (Some t) None); is_ok (cigar_new None None None None (Some t) None);
    is_ok (seqner_new None None None None None (Some t) None); is_ok (dater_new [] None None None None (Some t) None); is_ok (bexter_new None None None None (Some t) None);
    is_ok (signer_new cr None None None None (Some t) None) ] in
  nth i accepted false = true -> nth j accepted false = true -> i = j.
Proof. exact C40_one_l. Qed.
Print Assumptions C40_one_kind.

Example C40_one_case : is_ok (seqner_new None None None None None (Some (s! "0AAAAAAAAAAAAAAAAAAAAAAB")) None) = true /\ is_ok (salter_new [] None None None None (Some (s! "0AAAAAAAAAAAAAAAAAAAAAAB")) None) = true.
Proof. split; vm_compute; reflexivity. Qed.

(** False as stated for numbers, salts and prefixes: the text of a verification key is accepted as a number and as a salt, and the text of a signature as a prefix. *)
Theorem C40_unchecked_refuted :
  exists key sig m m' p, In (m_code m) keys /\ In (m_code p) signatures /\ number_new None None None None None (Some key) None = Ok m /\
  salter_new [] None None None None (Some key) None = Ok (m', s! "low") /\ m' = m /\ prefixer_new (fun _ _ => []) None None None None None (Some sig) None = Ok p.
Proof. exact C40_no_l. Qed.
Print Assumptions C40_unchecked_refuted.

(** As a number, salt or prefix, anything is accepted that parses, if the code passed besides (if any) is one of the kind. A number of another kind has no value, and a prefix of
   another kind verifies no event. Full statement: only if its code is one of the kind; see C40_unchecked_refuted. *)
Theorem C40_unchecked_partial :
  forall (hash : bytes -> bytes -> bytes) (code qb64b qb64 qb2 : option bytes) (m : matter),
  first None qb64b qb64 qb2 <> None ->
  let parsed := matter_new None None qb64b qb64 qb2 = Ok m in
  let of_kind kind := forall c, code = Some c -> In c kind in
  (forall num numh, number_new num numh code None qb64b qb64 qb2 = Ok m <-> parsed /\ of_kind numbers) /\
  (forall random tier t, salter_new random tier code None qb64b qb64 qb2 = Ok (m, t) <-> parsed /\ of_kind salts /\ t = match tier with Some t => t | None => s! "low" end) /\
  (forall ked allows, prefixer_new hash ked allows code None qb64b qb64 qb2 = Ok m <-> parsed /\ of_kind prefixes) /\
  (~ In (m_code m) numbers -> is_err (number_num m) = true) /\
  (~ In (m_code m) prefixes -> forall ked prefixed b, prefixer_verify hash m ked prefixed <> Ok b).
Proof. exact C40_unchecked_l. Qed.
Print Assumptions C40_unchecked_partial.

Example C40_unchecked_case : exists m, number_new None None (Some (s! "0H")) None None (Some (s! "MAAB")) None = Ok m /\ number_num m = Ok 1 /\
  number_new None None (Some (s! "D")) None None (Some (s! "MAAB")) None = Err EUnexpectedCode.
Proof. eexists. split; [vm_compute; reflexivity|]. split; vm_compute; reflexivity. Qed.

(** Given several encodings, the constructors of primitives, indexed signatures and counters give what they give for the first alone, in the order raw material, text bytes, text,
   binary (for counters: code, text bytes, text, binary), and an error if there is none. *)
Theorem C78_precedence :
  forall (code : option bytes) (index ondex count : option N) (count_b64 : option bytes),
  by_first (matter_new code) /\ by_first (indexer_new index ondex code) /\
  (forall qb64b qb64 qb2 e, first None qb64b qb64 qb2 = Some e -> counter_new count count_b64 None qb64b qb64 qb2 = with_only (fun _ => counter_new count count_b64 None) e) /\
  (forall c qb64b qb64 qb2, counter_new count count_b64 (Some c) qb64b qb64 qb2 = counter_new count count_b64 (Some c) None None None) /\
  is_err (matter_new code None None None None) = true /\ is_err (indexer_new index ondex code None None None None) = true /\ is_err (counter_new count count_b64 None None None None) = true.
Proof. exact C78_l. Qed.
Print Assumptions C78_precedence.

Example C78_case : exists m, matter_new None None (Some (s! "MAAB")) (Some (s! "MAAC")) (Some (s! "xyz")) = Ok m /\ infil m = Ok (s! "MAAB") /\
  is_err (matter_new None None (Some (s! "MAA")) (Some (s! "MAAC")) None) = true.
Proof. eexists. split; [vm_compute; reflexivity|]. split; vm_compute; reflexivity. Qed.

(** The same holds of keys, digests, signatures, numbers, sequence numbers, date-times, base64 texts, paths, salts, prefixes and identifiers, whatever defaults are passed besides; a base64
   text passed besides (for base64 texts and paths) or data (for identifiers) come first. *)
Theorem C78_kinds :
  forall (hash : bytes -> bytes -> bytes) (code : option bytes),
  by_first (verfer_new code) /\ (forall ser, by_first (diger_new hash ser code)) /\ (forall key, by_first (cigar_new key code)) /\
  (forall key index ondex, by_first (siger_new key index ondex code)) /\ (forall num numh, by_first (number_new num numh code)) /\
  (forall sn snh, by_first (seqner_new sn snh code)) /\ (forall now dts, by_first (dater_new now dts code)) /\ by_first (bexter_new None code) /\
  (forall path, by_first (pather_new path None code)) /\ (forall random tier, by_first (salter_new random tier code)) /\
  (forall ked allows, by_first (prefixer_new hash ked allows code)) /\ (forall label kind ignore, by_first (said_new hash None label kind ignore code)) /\
  (forall b raw qb64b qb64 qb2, bexter_new (Some b) code raw qb64b qb64 qb2 = bexter_new (Some b) code None None None None) /\
  (forall path b raw qb64b qb64 qb2, pather_new path (Some b) code raw qb64b qb64 qb2 = pather_new None (Some b) code None None None None) /\
  (forall sad label kind ignore raw qb64b qb64 qb2, said_new hash (Some sad) label kind ignore code raw qb64b qb64 qb2 =
     if match code, raw with Some _, Some _ => true | _, _ => false end then said_new hash None label kind ignore code raw None None None
     else said_new hash (Some sad) label kind ignore code None None None None).
Proof. exact C78_kinds_l. Qed.
Print Assumptions C78_kinds.

Example C78_kinds_case : exists m, number_new (Some 7) None None None (Some (s! "MAAB")) None None = Ok m /\ number_num m = Ok 1.
Proof. eexists. split; vm_compute; reflexivity. Qed.

(** Without any encoding: an error for keys, signatures, indexed signatures, and, if nothing else is given to make them from, digests, base64 texts, paths, prefixes and identifiers.
   A number is then the one passed, in hexadecimal or not, or zero; so is a sequence number; a date-time is the one passed or the present; a salt is drawn. *)
Theorem C78_no_encoding :
  forall (hash : bytes -> bytes -> bytes) (code : option bytes),
  is_err (verfer_new code None None None None) = true /\ is_err (diger_new hash None code None None None None) = true /\
  (forall key, is_err (cigar_new key code None None None None) = true) /\ (forall key index ondex, is_err (siger_new key index ondex code None None None None) = true) /\
  is_err (bexter_new None code None None None None) = true /\ is_err (pather_new None None code None None None None) = true /\
  (forall allows, is_err (prefixer_new hash None allows code None None None None) = true) /\ (forall label kind ignore, is_err (said_new hash None label kind ignore code None None None None) = true) /\
  (forall n numh, number_new (Some n) numh code None None None None = number_new (Some n) None None None None None None) /\
  (forall h n, hex_reading h n -> n < 2 ^ 128 -> number_new None (Some h) code None None None None = number_new (Some n) None None None None None None) /\
  number_new None None code None None None None = number_new (Some 0) None None None None None None /\
  (forall n snh, seqner_new (Some n) snh code None None None None = seqner_new (Some n) None code None None None None) /\
  seqner_new None None code None None None None = seqner_new (Some 0) None code None None None None /\
  (forall now, dater_new now None code None None None None = dater_new now (Some now) code None None None None) /\
  (forall random tier, salter_new random tier code None None None None = salter_new random tier code (Some random) None None None).
Proof. exact C78_none_l. Qed.
Print Assumptions C78_no_encoding.

Example C78_none_case : exists m, number_new None None None None None None None = Ok m /\ number_num m = Ok 0.
Proof. eexists. split; vm_compute; reflexivity. Qed.

(** False as stated for seeds: raw material and a text without a code are an error, although the raw material alone is a seed of the default code. *)
Theorem C78_signer_refuted :
  exists raw text g, signer_new toy None None (Some raw) None None None = Ok g /\ signer_new toy None None (Some raw) None (Some text) None = Err EEmptyMaterial.
Proof. exact C78_no_l. Qed.
Print Assumptions C78_signer_refuted.

(** With a code, or without raw material, the seed is the one of the first encoding; without any encoding it is drawn. Full statement: without a code, too; see C78_signer_refuted. *)
Theorem C78_signer_partial :
  forall (cr : crypto) (transferable : option bool) (code raw qb64b qb64 qb2 : option bytes) (e : encoding) (g : signer),
  first raw qb64b qb64 qb2 = Some e -> code <> None \/ raw = None ->
  (signer_new cr transferable code raw qb64b qb64 qb2 = Ok g <-> with_only (signer_new cr transferable code) e = Ok g) /\
  (forall c s d b sg, In (c, (s, d, b, sg)) seed_table -> signer_new cr transferable (Some c) None None None None = signer_new cr transferable (Some c) (Some (cr_random cr s)) None None None) /\
  signer_new cr transferable None None None None None = signer_new cr transferable (Some (s! "A")) (Some (cr_random cr Ed25519)) None None None.
Proof. exact C78_signer_l. Qed.
Print Assumptions C78_signer_partial.

Example C78_signer_case : exists g, signer_new toy None (Some (s! "J")) (Some (repeat x07 32)) None (Some (s! "AAAAAAAAAAAAAAAAAAAAAAAAAAAAAAAAAAAAAAAAAAAA")) None = Ok g /\ m_code (g_seed g) = s! "J" /\ m_raw (g_seed g) = repeat x07 32.
Proof. eexists. split; [vm_compute; reflexivity|]. split; vm_compute; reflexivity. Qed.
