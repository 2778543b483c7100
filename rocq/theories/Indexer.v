(** Model of [src/cesr/core/indexer/tables.rs] and [src/cesr/core/indexer/mod.rs]. Definitions only. *)
From Coq Require Import String.
From Coq Require Import NArith List Bool.
From Verif Require Import Base B64 Util Tables.
Import ListNotations.
Open Scope N_scope.

(** indexer/tables.rs:130-137 Sizage. *)
Record isizage := Isz { ihs : N; iss : N; ios : N; ifs : N; ils : N }.

(** indexer/tables.rs:139-162 sizage. *)
Definition indexer_table : list (bytes * isizage) :=
  [ (s! "A", Isz 1 1 0 88 0); (s! "B", Isz 1 1 0 88 0); (s! "C", Isz 1 1 0 88 0); (s! "D", Isz 1 1 0 88 0);
    (s! "E", Isz 1 1 0 88 0); (s! "F", Isz 1 1 0 88 0);
    (s! "0A", Isz 2 2 1 156 0); (s! "0B", Isz 2 2 1 156 0);
    (s! "2A", Isz 2 4 2 92 0); (s! "2B", Isz 2 4 2 92 0); (s! "2C", Isz 2 4 2 92 0); (s! "2D", Isz 2 4 2 92 0);
    (s! "2E", Isz 2 4 2 92 0); (s! "2F", Isz 2 4 2 92 0);
    (s! "3A", Isz 2 6 3 160 0); (s! "3B", Isz 2 6 3 160 0);
    (s! "0z", Isz 2 2 0 u32_max 0); (s! "1z", Isz 2 2 1 76 1); (s! "4z", Isz 2 6 3 80 1) ].
Definition isizage_of (code : bytes) : R isizage :=
  match lookup indexer_table code with Some z => Ok z | None => Err EUnknownSizage end.

(** indexer/tables.rs:164-172 hardage. *)
Definition ihardage (c : byte) : R N :=
  let n := b2n c in
  if ((65 <=? n) && (n <=? 90)) || ((97 <=? n) && (n <=? 122)) then Ok 1
  else if (48 <=? n) && (n <=? 52) then Ok 2
  else if n =? 45 then Err EUnexpectedCode
  else if n =? 95 then Err EUnexpectedCode
  else Err EUnknownHardage.

(** indexer/tables.rs:174-182 bardage. *)
Definition ibardage (b : N) : R N :=
  if b <=? 51 then Ok 1
  else if b <=? 56 then Ok 2
  else if b =? 62 then Err EUnexpectedCode
  else if b =? 63 then Err EUnexpectedCode
  else Err EUnknownBardage.

(** indexer/tables.rs:72-96 CurrentSigCodex::has_code and 100-123 BothSigCodex::has_code. *)
Definition current_sig (code : bytes) : bool :=
  existsb (beq code) [s! "B"; s! "D"; s! "F"; s! "0B"; s! "2B"; s! "2D"; s! "2F"; s! "3B"].
Definition both_sig (code : bytes) : bool :=
  existsb (beq code) [s! "A"; s! "C"; s! "E"; s! "0A"; s! "2A"; s! "2C"; s! "2E"; s! "3A"].

(** The state every Indexer carries (indexer/mod.rs:16-29). *)
Record indexer := Ix { i_code : bytes; i_raw : bytes; i_index : N; i_ondex : N }.

(** indexer/mod.rs:61-149 new_with_code_and_raw. [index], [ondex] are u32 values. *)
Definition indexer_of_code_raw (code raw : bytes) (index : N) (ondex : option N) : R indexer :=
  match code with
  | [] => Err EEmptyMaterial
  | _ =>
    let* z := isizage_of code in
    let cs := ihs z + iss z in
    let* ms := u32_sub (iss z) (ios z) in
    let* p := pow64_u32 ms in
    if p - 1 <? index then Err EInvalidVarIndex
    else
      let* _u :=
        match ondex with
        | Some o =>
          if 0 <? ios z then
            let* q := pow64_u32 (ios z) in
            if q - 1 <? o then Err EInvalidVarIndex else Ok tt
          else Ok tt
        | None => Ok tt
        end in
      if current_sig code && match ondex with Some _ => true | None => false end then Err EInvalidVarIndex
      else
        let* ondex' :=
          if both_sig code then
            Ok (match ondex with None => Some index | Some o => Some o end)
          else
            match ondex with
            | Some o => if negb (o =? index) && (ios z =? 0) then Err EInvalidVarIndex else Ok ondex
            | None => Ok ondex
            end in
        let* f :=
          if ifs z =? u32_max then
            if negb (cs mod 4 =? 0) then Err EInvalidCodeSize
            else if negb (ios z =? 0) then Err EInvalidCodeSize
            else let* q := u32_mul index 4 in u32_add q cs
          else Ok (ifs z) in
        let* d := u32_sub f cs in
        let* d3 := u32_mul d 3 in
        let rize := d3 / 4 in
        if len raw <? rize then Err EShortage
        else
          let* r := slice_bytes raw 0 rize in
          Ok (Ix code r index (match ondex' with Some o => o | None => 0 end))
  end.

(** indexer/mod.rs:202-280 infil ([qb64]). *)
Definition iinfil (x : indexer) : R bytes :=
  let code := i_code x in
  let index := i_index x in
  let ondex := i_ondex x in
  let raw := i_raw x in
  let ps := (3 - len raw mod 3) mod 3 in
  let* z := isizage_of code in
  let cs := ihs z + iss z in
  let* ms := u32_sub (iss z) (ios z) in
  let* f :=
    if ifs z =? u32_max then
      if negb (cs mod 4 =? 0) then Err EInvalidCodeSize
      else if negb (ios z =? 0) then Err EInvalidCodeSize
      else let* q := u32_mul index 4 in u32_add q cs
    else Ok (ifs z) in
  let* p := pow64_u32 ms in
  if p - 1 <? index then Err EInvalidVarIndex
  else
    let* _u :=
      if 0 <? ios z then
        let* q := pow64_u32 (ios z) in
        if q - 1 <? ondex then Err EInvalidVarIndex else Ok tt
      else Ok tt in
    let both := code ++ uint_to_b64 index ms ++ uint_to_b64 ondex (ios z) in
    if negb (len both =? cs) then Err EInvalidCodeSize
    else
      let* d := u32_sub ps (ils z) in
      if negb (cs mod 4 =? d) then Err EInvalidCodeSize
      else
        let buffer := zeros ps ++ raw in
        let* t := from_str (encode buffer) (ps - ils z) in
        let full := both ++ t in
        if negb (len full =? f) then Err EInvalidCodeSize else Ok full.

(** indexer/mod.rs:285-377 binfil ([qb2]). *)
Definition ibinfil (x : indexer) : R bytes :=
  let code := i_code x in
  let index := i_index x in
  let ondex := i_ondex x in
  let raw := i_raw x in
  let ps := (3 - len raw mod 3) mod 3 in
  let* z := isizage_of code in
  let cs := ihs z + iss z in
  let* ms := u32_sub (iss z) (ios z) in
  let* p := pow64_u32 (iss z) in
  if p - 1 <? index then Err EInvalidVarIndex
  else
    let* _u :=
      if ios z =? 1 then
        let* q := pow64_u32 (ios z) in
        if q - 1 <? ondex then Err EInvalidVarIndex else Ok tt
      else Ok tt in
    let* f :=
      if ifs z =? u32_max then
        if negb (cs mod 4 =? 0) then Err EInvalidCodeSize
        else if negb (ios z =? 0) then Err EInvalidCodeSize
        else let* q := u32_mul index 4 in u32_add q cs
      else Ok (ifs z) in
    let both := code ++ uint_to_b64 index ms ++ uint_to_b64 ondex (ios z) in
    if negb (len both =? cs) then Err EInvalidCodeSize
    else
      let* d := u32_sub ps (ils z) in
      if negb (cs mod 4 =? d) then Err EInvalidCodeSize
      else
        let n := ((cs + 1) * 3) / 4 in
        let* full :=
          if n <=? 3 then
            let* v := b64_to_u32 both in Ok (be_bytes 4 ((v * 2 ^ (2 * (cs mod 4))) mod 4294967296))
          else if n <=? 6 then
            let* v := b64_to_u64 both in Ok (be_bytes 8 ((v * 2 ^ (2 * (cs mod 4))) mod 18446744073709551616))
          else Err EInvalidCodeSize in
        let* bcode := from_bytes full (len full - n) in
        let buffer := bcode ++ zeros (ils z) ++ raw in
        let bfs := len buffer in
        if negb (bfs mod 3 =? 0) || negb (bfs * 4 / 3 =? f) then Err EInvalidCodeSize
        else Ok buffer.

(** indexer/mod.rs:411-430 (and 547-566): the other index read from the code. The binary parser also resets
    it to None for current-only codes, which makes no difference because [unwrap_or_default] follows. *)
Definition read_ondex (hard : bytes) (z : isizage) (index : N) (odx : bytes) : R N :=
  if current_sig hard then
    if negb (ios z =? 0) then
      let* o := b64_to_u32 odx in
      if negb (o =? 0) then Err EValue else Ok 0
    else Ok 0
  else if negb (ios z =? 0) then b64_to_u32 odx
  else Ok index.

(** indexer/mod.rs:383-509 exfil (parse qb64). *)
Definition iexfil (qb64 : bytes) : R indexer :=
  match qb64 with
  | [] => Err EEmptyMaterial
  | first :: _ =>
    let* h := ihardage first in
    if len qb64 <? h then Err EShortage
    else
      let* hard := slice_str qb64 0 h in
      let* z := isizage_of hard in
      let cs := ihs z + iss z in
      let* ms := u32_sub (iss z) (ios z) in
      if len qb64 <? cs then Err EShortage
      else
        let* is := slice_str qb64 h (h + ms) in
        let* index := b64_to_u32 is in
        let* odx := slice_str qb64 (h + ms) (h + (ms + ios z)) in
        let* ondex := read_ondex hard z index odx in
        let* f :=
          if ifs z =? u32_max then
            if negb (cs mod 4 =? 0) then Err EValidation
            else if negb (ios z =? 0) then Err EValidation
            else let* q := u32_mul index 4 in u32_add q cs
          else Ok (ifs z) in
        if len qb64 <? f then Err EShortage
        else
          let* trim := slice_str qb64 0 f in
          let ps := cs mod 4 in
          let* raw :=
            if negb (ps =? 0) then
              let* rest := from_str trim cs in
              let* paw := decode (repeat x41 (N.to_nat ps) ++ rest) in
              let* lead := slice_bytes paw 0 ps in
              if negb (be_val lead mod 2 ^ (2 * ps) =? 0) then Err EPrepad
              else from_bytes paw ps
            else
              let* rest := from_str trim cs in
              let* paw := decode rest in
              let* lead := slice_bytes paw 0 (ils z) in
              if negb (be_val lead =? 0) then
                (if ils z =? 1 then Err ENonZeroedLeadByte else Err ENonZeroedLeadBytes)
              else from_bytes paw ps in
          Ok (Ix hard raw index ondex)
  end.

(** indexer/mod.rs:515-632 bexfil (parse qb2). *)
Definition ibexfil (qb2 : bytes) : R indexer :=
  match qb2 with
  | [] => Err EEmptyMaterial
  | _ =>
    let* sx := nab_sextets qb2 1 in
    let* h := match sx with first :: _ => ibardage first | [] => Panic end in
    let bhs := (h * 3 + 3) / 4 in
    if len qb2 <? bhs then Err EShortage
    else
      let* hard := code_b2_to_b64 qb2 h in
      let* z := isizage_of hard in
      let cs := ihs z + iss z in
      let* ms := u32_sub (iss z) (ios z) in
      let bcs := ((cs + 1) * 3) / 4 in
      if len qb2 <? bcs then Err EShortage
      else
        let* both := code_b2_to_b64 qb2 cs in
        let* is := slice_str both h (h + ms) in
        let* index := b64_to_u32 is in
        let* odx := slice_str both (h + ms) (h + (ms + ios z)) in
        let* ondex := read_ondex hard z index odx in
        let* f :=
          if ifs z =? u32_max then
            if negb (cs mod 4 =? 0) then Err EParseQb2
            else if negb (ios z =? 0) then Err EValidation
            else let* q := u32_mul index 4 in u32_add q cs
          else Ok (ifs z) in
        let bfs := ((f + 1) * 3) / 4 in
        if len qb2 <? bfs then Err EShortage
        else
          let* trim := slice_bytes qb2 0 bfs in
          let ps := cs mod 4 in
          let* _u :=
            if negb (ps =? 0) then
              match nth_error trim (N.to_nat (bcs - 1)) with
              | Some p => if negb (b2n p mod 2 ^ (2 * ps) =? 0) then Err ENonZeroedPadBits else Ok tt
              | None => Panic
              end
            else
              if forallb (fun b => Byte.eqb b x00) (drop bcs (take (bcs + ils z) trim)) then Ok tt
              else (if ils z =? 1 then Err ENonZeroedLeadByte else Err ENonZeroedLeadBytes) in
          let* raw := from_bytes trim (bcs + ils z) in
          Ok (Ix hard raw index ondex)
  end.

(** indexer/mod.rs:634-642 full_size. *)
Definition ifull_size (x : indexer) : R N :=
  let* z := isizage_of (i_code x) in
  if negb (ifs z =? u32_max) then Ok (ifs z)
  else
    let* q := u32_mul (i_index x) 4 in
    u32_add q (ihs z + iss z).

(** indexer/mod.rs:160-169 new_with_qb64b. *)
Definition iexfil_b (qb64b : bytes) : R indexer := let* s := from_utf8 qb64b in iexfil s.

(** indexer/mod.rs:31-59 new. *)
Definition indexer_new (index ondex : option N) (code raw qb64b qb64 qb2 : option bytes) : R indexer :=
  match raw with
  | Some raw =>
    match code with
    | Some code => indexer_of_code_raw code raw (match index with Some i => i | None => 0 end) ondex
    | None => Err EEmptyMaterial
    end
  | None =>
    match qb64b with
    | Some b => iexfil_b b
    | None =>
      match qb64 with
      | Some s => iexfil s
      | None => match qb2 with Some b => ibexfil b | None => Err EValidation end
      end
    end
  end.
