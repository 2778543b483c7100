(** Model of sample/keri/parsing.rs: taking a stream of events and credentials into a store. The store behind the trait KeriStore (sample/keri/mod.rs:148-184) is left
    to the application; here it is the plainest one, which appends what is inserted. Definitions only. *)
From Coq Require Import String.
From Coq Require Import NArith ZArith Bool List.
From Verif Require Import Base Tables Matter Indexer Prims Json Tholder Common Saider Diger Sadder Signer Prefixer Pather Short Verify.
Import ListNotations.
Open Scope N_scope.

(** Key events and registry events by identifier, in the order in which they were inserted, and credentials. *)
Record ledger := Ledger { l_kel : bytes -> list bytes; l_tel : bytes -> list bytes; l_acdc : list bytes }.
Definition empty : ledger := Ledger (fun _ => []) (fun _ => []) [].

Section Ingestion.
Variable canon : bytes -> option bytes.
Variable hash : bytes -> bytes -> bytes.
Variable cr : crypto.
Variable messages_of : bytes -> R (list message).
(** The text of a group of attachments (CesrGroup::qb64 of parside). *)
Variable group_text : group -> R bytes.
Variable schema_check : bytes -> bytes -> R bool.
Variable age : bytes -> R Z.
(** parsing.rs:13-15 seen_said: what the store answers when asked for the data with an identifier. *)
Variable seen_said : ledger -> bytes -> bool.

(** Reading from the store; what is absent is an error. *)
Definition at_sn (l : list bytes) (n : N) : R bytes := match nth_error l (N.to_nat n) with Some e => Ok e | None => Err EForeign end.
Definition establishes (event : bytes) : bool :=
  match serder_with_raw canon event with Ok e => match serder_est e with Ok b => b | _ => false end | _ => false end.
Fixpoint last_of (keep : bytes -> bool) (l : list bytes) : R bytes :=
  match l with
  | [] => Err EForeign
  | e :: r => match last_of keep r with Ok x => Ok x | _ => if keep e then Ok e else Err EForeign end
  end.
Definition names (said message : bytes) : bool :=
  match creder_with_raw canon message with Ok c => match sad_said c with Ok s => beq s said | _ => false end | _ => false end.
Definition view (l : ledger) : store := Store
  (fun pre => Ok (len (l_kel l pre)))
  (fun pre n => at_sn (l_kel l pre) n)
  (fun pre n => last_of establishes (firstn (S (N.to_nat n)) (l_kel l pre)))
  (fun pre => Ok (len (l_tel l pre)))
  (fun pre n => at_sn (l_tel l pre) n)
  (fun pre => last_of (fun _ => true) (l_tel l pre))
  (fun said => last_of (names said) (l_acdc l)).

(** insert_key_event, insert_transaction_event, insert_acdc. *)
Definition added (f : bytes -> list bytes) (pre event : bytes) : bytes -> list bytes := fun p => if beq p pre then f p ++ [event] else f p.
Definition insert_key_event (l : ledger) (pre event : bytes) : ledger := Ledger (added (l_kel l) pre event) (l_tel l) (l_acdc l).
Definition insert_transaction_event (l : ledger) (pre event : bytes) : ledger := Ledger (l_kel l) (added (l_tel l) pre event) (l_acdc l).
Definition insert_acdc (l : ledger) (message : bytes) : ledger := Ledger (l_kel l) (l_tel l) (l_acdc l ++ [message]).

(** parsing.rs:49-62, 77-90, 116-128: whether the message is there already. *)
Definition there (l : ledger) (verify : option bool) (said : bytes) (seen : list bytes) (check : list bytes -> R (bool * list bytes)) : R (bool * list bytes) :=
  if or_else verify true && negb (has_code seen said) then check (said :: seen) else Ok (seen_said l said, seen).

(** parsing.rs:31-142: one event or credential with the message that follows it. *)
Definition ingest_one (fuel : nat) (deep verify : option bool) (l : ledger) (seen : list bytes) (raw : bytes) (next : option message) : R (ledger * list bytes) :=
  let* i := sniff raw in
  let group (m : option message) : R group :=
    match m with
    | None => Err EDecoding
    | Some (MGroup g) => Ok g
    | Some (MPayload _) => Err EForeign
    end in
  if beq (vi_ident i) (s! "KERI") then
    let* serder := serder_with_raw canon raw in
    let* said := sad_said serder in
    let* g := group next in
    let* ilk := text_at (d_ked serder) (s! "t") in
    if has_code [s! "icp"; s! "rot"; s! "ixn"] ilk then
      match g with
      | GQuadlets value =>
        let* r := there l verify said seen (fun seen => verify_key_event canon hash cr messages_of fuel (view l) serder value deep seen) in
        if negb (fst r) then
          let* event := from_utf8 (d_raw serder) in
          let* pre := serder_pre serder in
          let* text := group_text g in
          Ok (insert_key_event l pre (event ++ text), snd r)
        else Ok (l, snd r)
      | _ => Err EDecoding
      end
    else if has_code [s! "vcp"; s! "iss"; s! "rev"] ilk then
      match g with
      | GSources value =>
        let* r := there l verify said seen (fun seen => verify_transaction_event canon hash cr messages_of fuel (view l) serder value deep seen) in
        if negb (fst r) then
          let* event := from_utf8 (d_raw serder) in
          let* pre := serder_pre serder in
          let* text := group_text g in
          Ok (insert_transaction_event l pre (event ++ text), snd r)
        else Ok (l, snd r)
      | _ => Err EDecoding
      end
    else Err EDecoding
  else if beq (vi_ident i) (s! "ACDC") then
    let* creder := creder_with_raw canon raw in
    let* said := sad_said creder in
    let* g := group next in
    match g with
    | GQuadlets value =>
      let* r := there l verify said seen (fun seen => verify_acdc canon hash cr messages_of schema_check age fuel (view l) creder value deep seen) in
      if negb (fst r) then
        let* acdc := from_utf8 (d_raw creder) in
        let* text := group_text g in
        Ok (insert_acdc l (acdc ++ text), snd r)
      else Ok (l, snd r)
    | _ => Err EDecoding
    end
  else Err EDecoding.

(** parsing.rs:28-148: the loop. What was inserted before a failure stays. *)
Fixpoint ingest_loop (fuel : nat) (deep verify : option bool) (l : ledger) (seen : list bytes) (ms : list message) : ledger * R unit :=
  match ms with
  | [] => (l, Ok tt)
  | MGroup _ :: _ => (l, Err EForeign)
  | MPayload raw :: ms =>
    match ms with
    | [] => match ingest_one fuel deep verify l seen raw None with Ok _ => (l, Ok tt) | Err e => (l, Err e) | Panic => (l, Panic) end
    | m :: ms =>
      match ingest_one fuel deep verify l seen raw (Some m) with
      | Ok r => ingest_loop fuel deep verify (fst r) (snd r) ms
      | Err e => (l, Err e)
      | Panic => (l, Panic)
      end
    end
  end.

(** parsing.rs:17-26 *)
Definition ingest_messages (fuel : nat) (l : ledger) (stream : bytes) (deep verify : option bool) : ledger * R unit :=
  match messages_of stream with
  | Ok ms => ingest_loop fuel deep verify l [] ms
  | Err e => (l, Err e)
  | Panic => (l, Panic)
  end.

End Ingestion.
