(** Property C108. Theorem statements only; the proofs are in [ShortThms]. *)
From Coq Require Import String.
From Coq Require Import NArith ZArith QArith Bool List.
From Verif Require Import Base Tables Matter Indexer Prims Json Tholder Common Saider Diger Sadder Prefixer Signer Pather Short Spec SpecTholder SpecJson SpecCommon SpecSadder SpecIndexer SpecPrims SpecSaider SpecPrefixer SpecSigner SpecPather SpecKinds SpecShort ShortThms BaseFacts.
Import ListNotations.
Open Scope N_scope.

(** For keys, digests, identifiers, numbers, sequence numbers, date-times, base64 texts, paths and prefixes: a primitive of the kind is given back, the same in
   every respect, by each of the four short constructors from its text, text bytes, binary form and raw bytes with its code; and what the short constructor makes
   from raw bytes is such a primitive, its raw bytes being the first of those given. *)
Theorem C108_short_constructors :
  forall (hash : bytes -> bytes -> bytes) (now : bytes) (k : short),
  In k (shorts hash now) ->
  (forall m, built m -> In (m_code m) (sh_codes k) -> all_give m m (sh_raw k) (sh_qb64b k) (sh_qb64 k) (sh_qb2 k)) /\
  (forall raw code m, sh_raw k raw code = Ok m -> built m /\ In (m_code m) (sh_codes k) /\ exists r, raw = m_raw m ++ r).
Proof. exact C108_l. Qed.
Print Assumptions C108_short_constructors.

Example C108_case : exists m, number_with_raw (be_bytes 4 65536) (Some (s! "0H")) = Ok m /\ built m /\ In (m_code m) numbers /\ infil m = Ok (s! "0HAAAQAA").
Proof.
  exists (Mt (s! "0H") 0 [x00; x01; x00; x00]). split; [vm_compute; reflexivity|]. split; [|split; [vm_compute; tauto|vm_compute; reflexivity]].
  exists (s! "0H"), [x00; x01; x00; x00]. split; [vm_compute; tauto|vm_compute; reflexivity].
Qed.

(** A signature is given back by each of the four short constructors, with the key passed in, or without one with the default key; a salt likewise, with the tier
   passed in, or without one with the low tier. Without any encoding the short constructor of salts makes one of the sixteen bytes drawn. *)
Theorem C108_short_signatures_and_salts :
  forall (m : matter),
  built m ->
  (forall key, In (m_code m) signatures ->
     all_give m (m, match key with Some k => k | None => Mt (s! "D") 0 [] end)
       (fun raw code => cigar_with_raw raw key code) (fun b => cigar_with_qb64b b key) (fun t => cigar_with_qb64 t key) (fun b => cigar_with_qb2 b key)) /\
  (forall random tier, In (m_code m) salts ->
     all_give m (m, match tier with Some t => t | None => s! "low" end)
       (fun raw code => salter_with_raw random raw code tier) (fun b => salter_with_qb64b random b tier) (fun t => salter_with_qb64 random t tier) (fun b => salter_with_qb2 random b tier)) /\
  (forall random tier, len random = 16 -> salter_with_defaults random tier = Ok (Mt (s! "0A") 0 random, match tier with Some t => t | None => s! "low" end)).
Proof. exact C108_signature_l. Qed.
Print Assumptions C108_short_signatures_and_salts.

Example C108_signature_case : exists m, built m /\ In (m_code m) signatures /\ m_raw m = zeros 64.
Proof.
  exists (Mt (s! "0B") 0 (zeros 64)). split; [|split; [vm_compute; tauto|reflexivity]]. exists (s! "0B"), (zeros 64). split; [vm_compute; tauto|vm_compute; reflexivity].
Qed.

(** A signer made from raw bytes or drawn at random is given back by each of the four short constructors from the encodings of its seed and the same transferability: seed and
   public key are the same. *)
Theorem C108_short_signers :
  forall (cr : crypto) (transferable : option bool) (code : option bytes) (raw : bytes) (g : signer),
  signer_with_raw cr raw transferable code = Ok g \/ signer_with_defaults cr transferable code = Ok g ->
  all_give (g_seed g) g (fun raw code => signer_with_raw cr raw transferable code) (fun b => signer_with_qb64b cr b transferable)
    (fun t => signer_with_qb64 cr t transferable) (fun b => signer_with_qb2 cr b transferable).
Proof. exact C108_signer_l. Qed.
Print Assumptions C108_short_signers.

Example C108_signer_case : exists g, signer_with_raw toy (zeros 32) (Some false) None = Ok g /\ m_code (g_verfer g) = s! "B".
Proof. eexists. split; vm_compute; reflexivity. Qed.

(** An indexed signature made from raw bytes is given back, with both indices and the key passed in, from its text, text bytes and binary form; when the code has no room for
   another index, provided that none other than the index was asked for. *)
Theorem C108_short_indexed_signatures :
  forall (raw : bytes) (key : option matter) (index ondex : option N) (code : option bytes) (x : indexer) (k : matter),
  siger_with_raw raw key index ondex code = Ok (x, k) ->
  (match code with Some [_] => ondex = None \/ ondex = Some (match index with Some i => i | None => 0 end) | _ => True end) ->
  k = match key with Some k => k | None => Mt (s! "D") 0 [] end /\
  exists t b, iinfil x = Ok t /\ ibinfil x = Ok b /\
    siger_with_qb64 t key = Ok (x, k) /\ siger_with_qb64b t key = Ok (x, k) /\ siger_with_qb2 b key = Ok (x, k).
Proof. exact C108_indexed_l. Qed.
Print Assumptions C108_short_indexed_signatures.

Example C108_indexed_case : exists x k, siger_with_raw (zeros 64) None (Some 3) (Some 70) (Some (s! "2A")) = Ok (x, k) /\ i_ondex x = 70.
Proof. do 2 eexists. split; vm_compute; reflexivity. Qed.

(** The short constructors from an integer and from its hexadecimal numeral give the same number, and the same sequence number, and the integer is read back. *)
Theorem C108_short_values :
  forall (n : N),
  n < 2 ^ 128 ->
  exists h m q, lower_hex h /\ hex_number h = n /\
    number_with_num n = Ok m /\ number_with_numh h = Ok m /\ number_num m = Ok n /\ seqner_with_sn n = Ok q /\ seqner_with_snh h = Ok q /\ seqner_sn q = Ok n.
Proof. exact C108_value_l. Qed.
Print Assumptions C108_short_values.

Example C108_value_case : number_with_num 65536 = number_with_numh (s! "10000") /\ is_ok (number_with_num 65536) = true.
Proof. split; vm_compute; reflexivity. Qed.

(** False in general that the short constructor from bytes reads back what the short constructor from data made: it always expects a Blake3 digest. *)
Theorem C108_short_events_refuted :
  exists ked e,
  serder_with_ked (fun _ => None) ked (Some (s! "F")) None = Ok e /\ serder_with_raw (fun _ => None) (d_raw e) = Err EValidation.
Proof. exact C108_events_no_l. Qed.
Print Assumptions C108_short_events_refuted.

(** What holds, under the conditions of C54: a key event or credential made by the short constructor from data is given back by the one from bytes, followed by any
   text, if the code asked for is that of Blake3 or none; if it is another one, reading is an error. *)
Theorem C108_short_events_partial :
  forall (canon : bytes -> option bytes) (code kind : option bytes) (m1 m2 : list (bytes * value)) (vs c : bytes) (e : sadder),
  ~ In (s! "v") (map fst m1) -> no_version_in (to_json (VObj m1)) ->
  let ked := VObj (m1 ++ (s! "v", VStr vs) :: m2) in
  data ked -> nests 127 ked -> len (d_raw e) < 2 ^ 32 -> utf8 c = true ->
  (serder_with_ked canon ked code kind = Ok e ->
     serder_with_raw canon (d_raw e ++ c) = match code with None => Ok e | Some code => if beq code (s! "E") then Ok e else Err EValidation end) /\
  (creder_with_ked canon ked code kind = Ok e ->
     creder_with_raw canon (d_raw e ++ c) = match code with None => Ok e | Some code => if beq code (s! "E") then Ok e else Err EValidation end).
Proof. exact C108_events_l. Qed.
Print Assumptions C108_short_events_partial.

Example C108_event_case : exists e, serder_with_ked (fun _ => None)
    (VObj [(s! "v", VStr (s! "KERI10JSON000000_")); (s! "d", VStr (s! "EAAAAAAAAAAAAAAAAAAAAAAAAAAAAAAAAAAAAAAAAAAA"))]) None None = Ok e /\ len (d_raw e) = 76.
Proof. eexists. split; [vm_compute; reflexivity|]. vm_compute. reflexivity. Qed.

(** The short constructors from what a primitive stands for: a digest of a serialisation verifies it; an identifier of data is the one saidify computes; a digest prefix
   of an inception event verifies; a base64 text, a date-time and the elements of a path are read back; a threshold is given back from its text, its JSON value and
   its reported value. Full statement: without the conditions of C37, C38, C46 and C72. *)
Theorem C108_short_contents_partial :
  (forall hash ser code, sized_hash hash -> In (match code with Some c => c | None => s! "E" end) digests ->
     exists m, diger_with_ser hash ser code = Ok m /\ m_code m = match code with Some c => c | None => s! "E" end /\ m_raw m = hash (m_code m) ser /\ diger_verify hash m ser = Ok true) /\
  (forall hash m code kind label ignore x out, sized_hash hash -> saidify hash (VObj m) (Some code) kind label (match ignore with Some i => i | None => [] end) = Ok (x, out) ->
     said_with_sad hash (VObj m) label kind ignore (Some code) = Ok x /\ said_with_sad hash out label kind ignore None = Ok x) /\
  (forall hash m allows code x, NoDup (map fst m) -> prefixer_with_ked hash (VObj m) allows code = Ok x -> In (m_code x) digests ->
     (forall c, code = Some c -> m_code x = c) /\ (forall l, allows = Some l -> l = [] \/ In (m_code x) l) /\
     exists t, infil x = Ok t /\ forall said prefixed, prefixer_verify hash x (VObj (assigned (s! "d") said (assigned (s! "i") (VStr t) m))) prefixed = Ok true) /\
  (forall t, over base64url_alphabet t -> len t <= 67108860 -> ~ (len t mod 4 = 0 /\ prefix (s! "A") t) -> exists m, bexter_with_bext t = Ok m /\ bext_of m = Ok t) /\
  (forall now dts, over iso_alphabet dts -> len dts = 32 -> exists m, dater_with_dts now dts None = Ok m /\ dater_dts m = Ok dts /\ dater_dtsb m = Ok dts) /\
  (forall vs els, Forall2 names vs els -> Forall (over base64url_alphabet) els -> len (path_text els) <= 67108860 -> separable els ->
     exists m, pather_with_path (VArr vs) = Ok m /\ elements m els) /\
  (forall canon v t, tholder_with_sith canon v = Ok t -> t_thold t <> VArr [] -> SpecTholder.keys (t_thold t) < 2 ^ 27 ->
     exists l j, tholder_limen t = Ok l /\ tholder_sith t = Ok j /\ tholder_with_limen canon l = Ok t /\ tholder_with_sith canon j = Ok t /\ tholder_with_thold canon (t_thold t) = Ok t).
Proof. exact C108_content_l. Qed.
Print Assumptions C108_short_contents_partial.

Example C108_content_case : exists t, tholder_with_sith (fun _ => None) (VArr [VStr (s! "1/2"); VStr (s! "1/2")]) = Ok t /\ tholder_limen t = Ok (s! "4AACA1s2c1s2").
Proof. eexists. split; [vm_compute; reflexivity|]. vm_compute. reflexivity. Qed.
