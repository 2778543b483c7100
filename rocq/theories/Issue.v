(** Model of sample/keri/acdc/mod.rs: issuing and revoking credentials. The store is the part of the trait KeriStore (sample/keri/mod.rs:148-184) that is read there.
    The clock, the fresh salts and nonces and the randomness of signatures are given. Definitions only. *)
From Coq Require Import String.
From Coq Require Import NArith ZArith Bool List.
From Verif Require Import Base Util Tables Matter Indexer Counter Prims Json Tholder Common Saider Diger Sadder Signer Prefixer Pather Messaging Short Verify Ingest Events.
Import ListNotations.
Open Scope N_scope.

(** count_key_events, get_latest_key_event_said, get_current_keys, get_latest_establishment_event_said (with its number) and get_tel. *)
Record wallet := Wallet {
  w_count : bytes -> R N;
  w_said : bytes -> R bytes;
  w_keys : bytes -> R keyset;
  w_established : bytes -> R (bytes * N);
  w_tel : bytes -> R (list bytes) }.

Section Issuing.
Variable canon : bytes -> option bytes.
Variable hash : bytes -> bytes -> bytes.
Variable cr : crypto.

(** [serde_json::from_str] and [Value::from] of an optional text. *)
Definition optional_value (t : option bytes) : R (option value) :=
  match t with None => Ok None | Some t => let* v := value_of_text canon t in Ok (Some v) end.

(** 111-115, 153-157: the seal of a registry event; and 123-125, 164-166: a registry event followed by the place of the key event that anchors it. *)
Definition one_seal (pre number said : bytes) : value := VArr [VObj [(s! "i", VStr pre); (s! "s", VStr number); (s! "d", VStr said)]].
Definition anchored_text (event : bytes) (sn : N) (anchor : bytes) : R bytes :=
  let* counter := counter_of_code_count (s! "-G") 1 in
  let* seqner := seqner_with_sn sn in
  let* c := cinfil counter in
  let* s := infil seqner in
  Ok (event ++ c ++ s ++ anchor).

(** 17-134 issue_acdc; [now] are the two times and [salts] and [nonce] the fresh salts and the private key that are read from the system. The four branches of 31-97 differ
    in which of the optional texts are given. *)
Definition issue_acdc (now : bytes * bytes) (salts : bytes * bytes) (nonce : bytes) (rng1 rng2 : N -> bytes) (w : wallet) (status issuer schema data : bytes)
    (recipient : option bytes) (private : option bool) (source rules : option bytes) : R (bytes * bytes * bytes * bytes) :=
  let* data := value_of_text canon data in
  let* source := optional_value source in
  let* rules := optional_value rules in
  let* acdc := create canon hash (fst now) salts schema issuer data recipient private None (Some status) source rules None None in
  let* acdc_said := sad_said acdc in
  let* iss := credential_issue canon hash (snd now) nonce acdc_said status in
  let* sn := w_count w issuer in
  let* dig := w_said w issuer in
  let* key_set := w_keys w issuer in
  let* _k := ks_verfers_qb64 cr key_set in
  let* sigers := ks_sign hash cr rng1 key_set (d_raw acdc) None in
  let* ixn := do_interact hash cr canon rng2 key_set issuer dig sn (one_seal acdc_said (s! "0") (fst iss)) in
  let* iss_text := anchored_text (snd iss) sn (fst ixn) in
  let* est := w_established w issuer in
  let* seqner := seqner_with_sn (snd est) in
  let* proof := ratify_creder issuer seqner (fst est) sigers in
  let* signed := messagize_creder acdc proof in
  Ok (acdc_said, snd ixn, iss_text, signed).

(** 136-170 revoke_acdc. *)
Definition revoke_acdc (now nonce : bytes) (rng : N -> bytes) (w : wallet) (status issuer said : bytes) : R (bytes * bytes) :=
  let* priors := w_tel w said in
  match priors with
  | [prior] =>
    let* serder := serder_with_raw canon prior in
    let* psaid := sad_said serder in
    let* rev := credential_revoke canon hash now nonce said status psaid in
    let* sn := w_count w issuer in
    let* dig := w_said w issuer in
    let* key_set := w_keys w issuer in
    let* ixn := do_interact hash cr canon rng key_set issuer dig sn (one_seal said (s! "1") (fst rev)) in
    let* rev_text := anchored_text (snd rev) sn (fst ixn) in
    Ok (snd ixn, rev_text)
  | _ => Err EValue
  end.

(** The plainest store of the application: the ledger, with the keys of the identifiers it controls. *)
Fixpoint last_place (keep : bytes -> bool) (l : list bytes) (i : N) : option (bytes * N) :=
  match l with
  | [] => None
  | e :: r => match last_place keep r (i + 1) with Some x => Some x | None => if keep e then Some (e, i) else None end
  end.
Definition said_in (event : bytes) : R bytes := let* e := serder_with_raw canon event in sad_said e.
Definition purse (keys : bytes -> R keyset) (l : ledger) : wallet := Wallet
  (fun pre => Ok (len (l_kel l pre)))
  (fun pre => let* event := last_of (fun _ => true) (l_kel l pre) in said_in event)
  keys
  (fun pre => match last_place (establishes canon) (l_kel l pre) 0 with Some (event, i) => let* said := said_in event in Ok (said, i) | None => Err EForeign end)
  (fun pre => Ok (l_tel l pre)).

End Issuing.
