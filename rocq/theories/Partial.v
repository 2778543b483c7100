(** Model of the building of events with reserve keys in sample/keri/kmi/mod.rs: incept_partial and rotate_partial. Fresh salts and the randomness of signatures are given.
    Definitions only. *)
From Coq Require Import String.
From Coq Require Import NArith ZArith Bool List.
From Verif Require Import Base Util Tables Matter Indexer Counter Prims Json Tholder Common Saider Diger Sadder Signer Prefixer Pather Messaging Short Events.
Import ListNotations.
Open Scope N_scope.

(** 79-83, 89-93, 256-263, 269-273: one clause of weights, [zeros] times 0 and then [n] times 1/n. *)
Definition shares (zeros n : N) : value := VArr [VArr (repeat (VStr (s! "0")) (N.to_nat zeros) ++ repeat (VStr (s! "1/" ++ dec_text n)) (N.to_nat n))].

Section Partial.
Variable hash : bytes -> bytes -> bytes.
Variable cr : crypto.
Variable kdf : bytes -> bytes -> N -> N -> N -> option bytes.
Variable canon : bytes -> option bytes.

(** 85-94, 265-274: the threshold of the next keys, given as a text or equal weights. *)
Definition next_threshold (next_sith : option bytes) (n : N) : R value := match next_sith with Some t => value_of_text canon t | None => Ok (shares 0 n) end.

(** 32-112 incept_partial up to the signatures: event, keys and signatures. A salter that is given a salt draws no randomness. *)
Definition incept_parts (random : bytes) (rng : N -> bytes) (code : option bytes) (scount rcount : option N) (transferable : option bool) (pcode tier salt : option bytes)
    (next_keys : option (list bytes)) (next_sith : option bytes) : R (sadder * keyset * list (indexer * matter)) :=
  let scount := or_else scount 2 in
  let rcount := or_else rcount 3 in
  let* ckeys := generate_keys cr kdf random code (Some scount) 0 transferable (dec_text 0) tier None in
  let* keys := ks_verfers_qb64 cr ckeys in
  let* next :=
    match next_keys, salt with
    | Some l, _ => Ok (l, len l)
    | None, Some salt =>
      if or_else transferable false then
        let* nkeys := keys_from_salt cr kdf [] salt code (Some rcount) 0 transferable (dec_text (0 + 1)) tier None in
        let* d := ks_digers_qb64 hash cr nkeys in
        Ok (d, rcount)
      else Ok ([], rcount)
    | None, None => Err EProgrammer
    end in
  let* nsith := next_threshold next_sith (snd next) in
  let* serder := incept canon hash keys (Some (shares 0 scount)) (Some (fst next)) (Some nsith) (Some 0) None None None None None pcode None None in
  let* sigers := ks_sign hash cr rng ckeys (d_raw serder) None in
  Ok (serder, ckeys, sigers).
(** 113-117: the message. *)
Definition incept_partial (random : bytes) (rng : N -> bytes) (code : option bytes) (scount rcount : option N) (transferable : option bool) (pcode tier salt : option bytes)
    (next_keys : option (list bytes)) (next_sith : option bytes) : R (bytes * keyset * bytes) :=
  let* x := incept_parts random rng code scount rcount transferable pcode tier salt next_keys next_sith in
  let '(serder, ckeys, sigers) := x in
  let* event := signed_message serder sigers in
  let* pre := serder_pre serder in
  Ok (pre, ckeys, event).

(** 177-250 rotate_partial: the keys to be shown, the digests of the next ones, their numbers, and the keys themselves if they came from a salt. *)
Definition reserves (key_sn : N) (code : option bytes) (rcount : N) (tier salt next_salt : option bytes) (current next_keys : option (list bytes)) (next_sith : option bytes)
    : R (list bytes * list bytes * N * N * option keyset) :=
  match salt with
  | Some salt =>
    if negb (is_none current) || negb (is_none next_keys) || negb (is_none next_sith) then Err EValue
    else
      match next_salt with
      | None => Err EValue
      | Some next_salt =>
        let* ckeys := keys_from_salt cr kdf [] salt code (Some rcount) 0 (Some true) (dec_text key_sn) tier None in
        let* after := u128_add key_sn 1 in
        let* rkeys := keys_from_salt cr kdf [] next_salt code (Some rcount) 0 (Some true) (dec_text after) tier None in
        let* public := ks_verfers_qb64 cr ckeys in
        let* ndigs := ks_digers_qb64 hash cr rkeys in
        Ok (public, ndigs, rcount, rcount, Some ckeys)
      end
  | None =>
    match current, next_keys, next_sith with
    | Some current, Some next_keys, Some _ => if negb (is_none next_salt) then Err EValue else Ok (current, next_keys, len current, len next_keys, None)
    | _, _, _ => Err EValue
    end
  end.
(** 252-293: the event and the new signing keys, whose indices follow those of the keys shown. *)
Definition rotate_built (random : bytes) (pre dig : bytes) (sn key_sn : N) (code : option bytes) (scount rcount : option N) (tier salt next_salt : option bytes)
    (current next_keys : option (list bytes)) (next_sith : option bytes) : R (sadder * keyset * option keyset) :=
  let scount := or_else scount 2 in
  let rcount := or_else rcount 3 in
  let* x := reserves key_sn code rcount tier salt next_salt current next_keys next_sith in
  let '(public, ndigs, ccount, rcount, ckeys) := x in
  let* skeys := generate_keys cr kdf random code (Some scount) ccount (Some true) (dec_text key_sn) tier None in
  let* fresh := ks_verfers_qb64 cr skeys in
  let* nsith := next_threshold next_sith rcount in
  let* serder := rotate canon hash pre (public ++ fresh) dig None sn (Some (shares ccount scount)) (Some ndigs) (Some nsith) (Some 0) None None None None None None None in
  Ok (serder, skeys, ckeys).
(** 300-301: the signatures of the keys shown and then of the new ones. *)
Definition both_sign (rng : N -> bytes) (ckeys skeys : keyset) (ser : bytes) : R (list (indexer * matter)) :=
  let* a := ks_sign hash cr rng ckeys ser None in
  let* b := ks_sign hash cr rng skeys ser None in
  Ok (a ++ b).
(** 295-309: with a threshold for the next keys the event goes out as it is, else it is signed. *)
Definition rotate_partial (random : bytes) (rng : N -> bytes) (pre dig : bytes) (sn key_sn : N) (code : option bytes) (scount rcount : option N) (tier salt next_salt : option bytes)
    (current next_keys : option (list bytes)) (next_sith : option bytes) : R (bytes * keyset * bytes) :=
  let* x := rotate_built random pre dig sn key_sn code scount rcount tier salt next_salt current next_keys next_sith in
  let '(serder, skeys, ckeys) := x in
  match next_sith, ckeys with
  | Some _, _ =>
    let* said := sad_said serder in
    let* event := from_utf8 (d_raw serder) in
    Ok (said, skeys, event)
  | None, Some ckeys =>
    let* sigers := both_sign rng ckeys skeys (d_raw serder) in
    let* event := signed_message serder sigers in
    let* said := sad_said serder in
    Ok (said, skeys, event)
  | None, None => Err EProgrammer
  end.
End Partial.
