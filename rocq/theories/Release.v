(** The release profile: the same code with the arithmetic cargo uses under [--release] (Makefile:21-22; Cargo.toml sets no profile, so overflow checks are off
    there). Definitions only. Fixed-width additions, subtractions, multiplications and powers wrap around instead of panicking; everything else is unchanged. The
    functions in which such an operation can leave its range are repeated here with the arithmetic as a parameter; [ReleaseFacts] proves that the instance
    [checked] is the model in the other files, so that the copies cannot drift apart. [usize] is unbounded here as there. *)
From Coq Require Import String.
From Coq Require Import NArith ZArith List Bool.
From Verif Require Import Base B64 Util Tables Matter Indexer Counter Prims Json Tholder Signer.
Import ListNotations.
Open Scope N_scope.

(** Unsigned 32-bit arithmetic. *)
Record arith := Arith { plus : N -> N -> R N; minus : N -> N -> R N; times : N -> N -> R N; power : N -> R N }.
(** With overflow checks, as in Base.v. *)
Definition checked : arith := Arith u32_add u32_sub u32_mul pow64_u32.
(** Without: modulo 2^32, for operands below 2^32. *)
Definition word : N := 4294967296.
Definition wrapping : arith :=
  Arith (fun a b => Ok ((a + b) mod word)) (fun a b => Ok (if b <=? a then a - b else a + word - b)) (fun a b => Ok ((a * b) mod word)) (fun n => Ok (64 ^ n mod word)).

Section Codec.
Variable A : arith.

(** matter/mod.rs:180-243; as [infil], with the arithmetic of [A]. *)
Definition infil_in (m : matter) : R bytes :=
  let code := m_code m in
  let size := m_size m in
  let raw := m_raw m in
  let ps := (3 - len raw mod 3) mod 3 in
  let* z := sizage_of code in
  if fs z =? u32_max then
    let cs := hs z + ss z in
    if negb (cs mod 4 =? 0) then Err EInvalidCodeSize
    else
      let* p := power A (ss z) in
      let* p := minus A p 1 in
      if p <? size then Err EInvalidVarSize
      else
        let both := code ++ uint_to_b64 size (ss z) in
        if ((ls z <=? ps) && negb (len both mod 4 =? ps - ls z))
           || ((ps <? ls z) && negb (len both mod 4 =? ls z - ps))
        then Err EInvalidCodeSize
        else
          let buffer := zeros (ls z) ++ raw in
          if negb (len buffer mod 3 =? 0) then Err EForeign
          else Ok (both ++ encode buffer)
  else
    let cs := len code in
    let* d := minus A ps (ls z) in
    if negb (cs mod 4 =? d) then Err EInvalidCodeSize
    else
      let buffer := zeros ps ++ raw in
      if negb (len buffer mod 3 =? 0) then Err EForeign
      else
        let* t := from_str (encode buffer) (cs mod 4) in
        Ok (code ++ t).

(** matter/mod.rs:245-314; as [binfil], with the arithmetic of [A]. *)
Definition binfil_in (m : matter) : R bytes :=
  let code := m_code m in
  let size := m_size m in
  let raw := m_raw m in
  let* z := sizage_of code in
  let cs := hs z + ss z in
  let* t :=
    if fs z =? u32_max then
      if negb (cs mod 4 =? 0) then Err EInvalidCodeSize
      else
        let* p := power A (ss z) in
        let* p := minus A p 1 in
        if p <? size then Err EInvalidVarSize
        else Ok (cs + size * 4, code ++ uint_to_b64 size (ss z))
    else Ok (fs z, code) in
  let '(fs', both) := t in
  if negb (len both =? cs) then Err EInvalidCodeSize
  else
    let n := ((cs + 1) * 3) / 4 in
    let* full :=
      if n <=? 3 then
        let* v := b64_to_u32 both in Ok (be_bytes 4 ((v * 2 ^ (2 * (cs mod 4))) mod 4294967296))
      else if n <=? 6 then
        let* v := b64_to_u64 both in Ok (be_bytes 8 ((v * 2 ^ (2 * (cs mod 4))) mod 18446744073709551616))
      else Err EInvalidCodeSize in
    let* bcode := from_bytes full (len full - n) in
    let buffer := bcode ++ zeros (ls z) ++ raw in
    let bfs := len buffer in
    if negb (bfs mod 3 =? 0) || negb (bfs * 4 / 3 =? fs') then Err EInvalidCodeSize
    else Ok buffer.

(** matter/mod.rs:316-417; as [exfil], with the arithmetic of [A]. *)
Definition exfil_in (qb64 : bytes) : R matter :=
  match qb64 with
  | [] => Err EEmptyMaterial
  | first :: _ =>
    let* h := hardage first in
    if len qb64 <? h then Err EShortage
    else
      let* hard := slice_str qb64 0 h in
      let* z := sizage_of hard in
      let cs := hs z + ss z in
      let* t :=
        if fs z =? u32_max then
          if negb (cs mod 4 =? 0) then Err EInvalidCodeSize
          else if len qb64 <? cs then Err EShortage
          else
            let* soft := slice_str qb64 (hs z) cs in
            let* size := b64_to_u32 soft in
            let* q := times A size 4 in
            let* f := plus A q cs in
            Ok (f, size)
        else Ok (fs z, 0) in
      let '(fs', size) := t in
      if len qb64 <? fs' then Err EShortage
      else
        let* trim := slice_str qb64 0 fs' in
        let ps := cs mod 4 in
        let* raw :=
          if negb (ps =? 0) then
            let* rest := from_str trim cs in
            let* paw := decode (repeat x41 (N.to_nat ps) ++ rest) in
            let* lead := slice_bytes paw 0 ps in
            (* pi & (2^pbs - 1), pbs = 2 * ps *)
            if negb (be_val lead mod 2 ^ (2 * ps) =? 0) then Err EPrepad
            else from_bytes paw ps
          else
            let* rest := from_str trim cs in
            let* paw := decode rest in
            let* lead := slice_bytes paw 0 (ls z) in
            if negb (be_val lead =? 0) then
              (if ls z =? 1 then Err ENonZeroedLeadByte else Err ENonZeroedLeadBytes)
            else from_bytes paw (ls z) in
        Ok (Mt hard size raw)
  end.

(** matter/mod.rs:419-505; as [bexfil], with the arithmetic of [A]. *)
Definition bexfil_in (qb2 : bytes) : R matter :=
  match qb2 with
  | [] => Err EEmptyMaterial
  | _ =>
    let* sx := nab_sextets qb2 1 in
    let* h := match sx with first :: _ => bardage first | [] => Panic end in
    let bhs := (h * 3 + 3) / 4 in
    if len qb2 <? bhs then Err EShortage
    else
      let* hard := code_b2_to_b64 qb2 h in
      let* z := sizage_of hard in
      let cs := hs z + ss z in
      let bcs := ((cs + 1) * 3) / 4 in
      let* t :=
        if fs z =? u32_max then
          if negb (cs mod 4 =? 0) then Err EParseQb2
          else if len qb2 <? bcs then Err EShortage
          else
            let* both := code_b2_to_b64 qb2 cs in
            let* soft := slice_str both (hs z) cs in
            let* size := b64_to_u32 soft in
            let* q := times A size 4 in
            let* f := plus A q cs in
            Ok (f, size)
        else Ok (fs z, 0) in
      let '(fs', size) := t in
      let bfs := ((fs' + 1) * 3) / 4 in
      if len qb2 <? bfs then Err EShortage
      else
        let* trim := slice_bytes qb2 0 bfs in
        let ps := cs mod 4 in
        let* _u :=
          if negb (ps =? 0) then
            match nth_error trim (N.to_nat (bcs - 1)) with
            | Some p => if negb (b2n p mod 2 ^ (2 * ps) =? 0) then Err ENonZeroedPadBits else Ok tt
            | None => Panic
            end
          else
            (* iter().take(bcs + ls).skip(bcs) *)
            if forallb (fun b => Byte.eqb b x00) (drop bcs (take (bcs + ls z) trim)) then Ok tt
            else (if ls z =? 1 then Err ENonZeroedLeadByte else Err ENonZeroedLeadBytes) in
        let* raw := from_bytes trim (bcs + ls z) in
        Ok (Mt hard size raw)
  end.

(** matter/mod.rs:507-514; as [full_size], with the arithmetic of [A]. *)
Definition full_size_in (m : matter) : R N :=
  let* z := sizage_of (m_code m) in
  if negb (fs z =? u32_max) then Ok (fs z)
  else
    let* q := times A (m_size m) 4 in
    plus A (hs z + ss z) q.

(** indexer/mod.rs:61-149; as [indexer_of_code_raw], with the arithmetic of [A]. *)
Definition indexer_of_code_raw_in (code raw : bytes) (index : N) (ondex : option N) : R indexer :=
  match code with
  | [] => Err EEmptyMaterial
  | _ =>
    let* z := isizage_of code in
    let cs := ihs z + iss z in
    let* ms := minus A (iss z) (ios z) in
    let* p := power A ms in
    let* p := minus A p 1 in
    if p <? index then Err EInvalidVarIndex
    else
      let* _u :=
        match ondex with
        | Some o =>
          if 0 <? ios z then
            let* q := power A (ios z) in
            let* q := minus A q 1 in
            if q <? o then Err EInvalidVarIndex else Ok tt
          else Ok tt
        | None => Ok tt
        end in
      if current_sig code && match ondex with Some _ => true | None => false end then Err EInvalidVarIndex
      else
        let* ondex' :=
          if both_sig code then
            Ok (match ondex with None => Some index | Some o => Some o end)
          else
            match ondex with
            | Some o => if negb (o =? index) && (ios z =? 0) then Err EInvalidVarIndex else Ok ondex
            | None => Ok ondex
            end in
        let* f :=
          if ifs z =? u32_max then
            if negb (cs mod 4 =? 0) then Err EInvalidCodeSize
            else if negb (ios z =? 0) then Err EInvalidCodeSize
            else let* q := times A index 4 in plus A q cs
          else Ok (ifs z) in
        let* d := minus A f cs in
        let* d3 := times A d 3 in
        let rize := d3 / 4 in
        if len raw <? rize then Err EShortage
        else
          let* r := slice_bytes raw 0 rize in
          Ok (Ix code r index (match ondex' with Some o => o | None => 0 end))
  end.

(** indexer/mod.rs:202-280; as [iinfil], with the arithmetic of [A]. *)
Definition iinfil_in (x : indexer) : R bytes :=
  let code := i_code x in
  let index := i_index x in
  let ondex := i_ondex x in
  let raw := i_raw x in
  let ps := (3 - len raw mod 3) mod 3 in
  let* z := isizage_of code in
  let cs := ihs z + iss z in
  let* ms := minus A (iss z) (ios z) in
  let* f :=
    if ifs z =? u32_max then
      if negb (cs mod 4 =? 0) then Err EInvalidCodeSize
      else if negb (ios z =? 0) then Err EInvalidCodeSize
      else let* q := times A index 4 in plus A q cs
    else Ok (ifs z) in
  let* p := power A ms in
  let* p := minus A p 1 in
  if p <? index then Err EInvalidVarIndex
  else
    let* _u :=
      if 0 <? ios z then
        let* q := power A (ios z) in
        let* q := minus A q 1 in
        if q <? ondex then Err EInvalidVarIndex else Ok tt
      else Ok tt in
    let both := code ++ uint_to_b64 index ms ++ uint_to_b64 ondex (ios z) in
    if negb (len both =? cs) then Err EInvalidCodeSize
    else
      let* d := minus A ps (ils z) in
      if negb (cs mod 4 =? d) then Err EInvalidCodeSize
      else
        let buffer := zeros ps ++ raw in
        let* t := from_str (encode buffer) d in
        let full := both ++ t in
        if negb (len full =? f) then Err EInvalidCodeSize else Ok full.

(** indexer/mod.rs:285-377; as [ibinfil], with the arithmetic of [A]. *)
Definition ibinfil_in (x : indexer) : R bytes :=
  let code := i_code x in
  let index := i_index x in
  let ondex := i_ondex x in
  let raw := i_raw x in
  let ps := (3 - len raw mod 3) mod 3 in
  let* z := isizage_of code in
  let cs := ihs z + iss z in
  let* ms := minus A (iss z) (ios z) in
  let* p := power A (iss z) in
  let* p := minus A p 1 in
  if p <? index then Err EInvalidVarIndex
  else
    let* _u :=
      if ios z =? 1 then
        let* q := power A (ios z) in
        let* q := minus A q 1 in
        if q <? ondex then Err EInvalidVarIndex else Ok tt
      else Ok tt in
    let* f :=
      if ifs z =? u32_max then
        if negb (cs mod 4 =? 0) then Err EInvalidCodeSize
        else if negb (ios z =? 0) then Err EInvalidCodeSize
        else let* q := times A index 4 in plus A q cs
      else Ok (ifs z) in
    let both := code ++ uint_to_b64 index ms ++ uint_to_b64 ondex (ios z) in
    if negb (len both =? cs) then Err EInvalidCodeSize
    else
      let* d := minus A ps (ils z) in
      if negb (cs mod 4 =? d) then Err EInvalidCodeSize
      else
        let n := ((cs + 1) * 3) / 4 in
        let* full :=
          if n <=? 3 then
            let* v := b64_to_u32 both in Ok (be_bytes 4 ((v * 2 ^ (2 * (cs mod 4))) mod 4294967296))
          else if n <=? 6 then
            let* v := b64_to_u64 both in Ok (be_bytes 8 ((v * 2 ^ (2 * (cs mod 4))) mod 18446744073709551616))
          else Err EInvalidCodeSize in
        let* bcode := from_bytes full (len full - n) in
        let buffer := bcode ++ zeros (ils z) ++ raw in
        let bfs := len buffer in
        if negb (bfs mod 3 =? 0) || negb (bfs * 4 / 3 =? f) then Err EInvalidCodeSize
        else Ok buffer.

(** indexer/mod.rs:383-509; as [iexfil], with the arithmetic of [A]. *)
Definition iexfil_in (qb64 : bytes) : R indexer :=
  match qb64 with
  | [] => Err EEmptyMaterial
  | first :: _ =>
    let* h := ihardage first in
    if len qb64 <? h then Err EShortage
    else
      let* hard := slice_str qb64 0 h in
      let* z := isizage_of hard in
      let cs := ihs z + iss z in
      let* ms := minus A (iss z) (ios z) in
      if len qb64 <? cs then Err EShortage
      else
        let* is := slice_str qb64 h (h + ms) in
        let* index := b64_to_u32 is in
        let* odx := slice_str qb64 (h + ms) (h + (ms + ios z)) in
        let* ondex := read_ondex hard z index odx in
        let* f :=
          if ifs z =? u32_max then
            if negb (cs mod 4 =? 0) then Err EValidation
            else if negb (ios z =? 0) then Err EValidation
            else let* q := times A index 4 in plus A q cs
          else Ok (ifs z) in
        if len qb64 <? f then Err EShortage
        else
          let* trim := slice_str qb64 0 f in
          let ps := cs mod 4 in
          let* raw :=
            if negb (ps =? 0) then
              let* rest := from_str trim cs in
              let* paw := decode (repeat x41 (N.to_nat ps) ++ rest) in
              let* lead := slice_bytes paw 0 ps in
              if negb (be_val lead mod 2 ^ (2 * ps) =? 0) then Err EPrepad
              else from_bytes paw ps
            else
              let* rest := from_str trim cs in
              let* paw := decode rest in
              let* lead := slice_bytes paw 0 (ils z) in
              if negb (be_val lead =? 0) then
                (if ils z =? 1 then Err ENonZeroedLeadByte else Err ENonZeroedLeadBytes)
              else from_bytes paw ps in
          Ok (Ix hard raw index ondex)
  end.

(** indexer/mod.rs:515-632; as [ibexfil], with the arithmetic of [A]. *)
Definition ibexfil_in (qb2 : bytes) : R indexer :=
  match qb2 with
  | [] => Err EEmptyMaterial
  | _ =>
    let* sx := nab_sextets qb2 1 in
    let* h := match sx with first :: _ => ibardage first | [] => Panic end in
    let bhs := (h * 3 + 3) / 4 in
    if len qb2 <? bhs then Err EShortage
    else
      let* hard := code_b2_to_b64 qb2 h in
      let* z := isizage_of hard in
      let cs := ihs z + iss z in
      let* ms := minus A (iss z) (ios z) in
      let bcs := ((cs + 1) * 3) / 4 in
      if len qb2 <? bcs then Err EShortage
      else
        let* both := code_b2_to_b64 qb2 cs in
        let* is := slice_str both h (h + ms) in
        let* index := b64_to_u32 is in
        let* odx := slice_str both (h + ms) (h + (ms + ios z)) in
        let* ondex := read_ondex hard z index odx in
        let* f :=
          if ifs z =? u32_max then
            if negb (cs mod 4 =? 0) then Err EParseQb2
            else if negb (ios z =? 0) then Err EValidation
            else let* q := times A index 4 in plus A q cs
          else Ok (ifs z) in
        let bfs := ((f + 1) * 3) / 4 in
        if len qb2 <? bfs then Err EShortage
        else
          let* trim := slice_bytes qb2 0 bfs in
          let ps := cs mod 4 in
          let* _u :=
            if negb (ps =? 0) then
              match nth_error trim (N.to_nat (bcs - 1)) with
              | Some p => if negb (b2n p mod 2 ^ (2 * ps) =? 0) then Err ENonZeroedPadBits else Ok tt
              | None => Panic
              end
            else
              if forallb (fun b => Byte.eqb b x00) (drop bcs (take (bcs + ils z) trim)) then Ok tt
              else (if ils z =? 1 then Err ENonZeroedLeadByte else Err ENonZeroedLeadBytes) in
          let* raw := from_bytes trim (bcs + ils z) in
          Ok (Ix hard raw index ondex)
  end.

(** indexer/mod.rs:634-642; as [ifull_size], with the arithmetic of [A]. *)
Definition ifull_size_in (x : indexer) : R N :=
  let* z := isizage_of (i_code x) in
  if negb (ifs z =? u32_max) then Ok (ifs z)
  else
    let* q := times A (i_index x) 4 in
    plus A q (ihs z + iss z).

(** matter/tables.rs:94-102; as [raw_size], with the arithmetic of [A]. *)
Definition raw_size_in (code : bytes) : R N :=
  let* z := sizage_of code in
  if fs z =? u32_max then Err EUnexpectedCode
  else
    let cs := hs z + ss z in
    let* d := minus A (fs z) cs in
    minus A (d * 3 / 4) (ls z).

(** counter/mod.rs:109-132; as [counter_of_code_count], with the arithmetic of [A]. *)
Definition counter_of_code_count_in (code : bytes) (count : N) : R counter :=
  match code with
  | [] => Err EEmptyMaterial
  | _ =>
    let* z := csizage_of code in
    let cs := hs z + ss z in
    if negb (fs z =? cs) || negb (cs mod 4 =? 0) then Err EInvalidCodeSize
    else
      let* p := power A (ss z) in
      let* p := minus A p 1 in
      if p <? count then Err EInvalidVarIndex else Ok (Ct code count)
  end.

(** counter/mod.rs:175-208; as [cinfil], with the arithmetic of [A]. *)
Definition cinfil_in (c : counter) : R bytes :=
  let* z := csizage_of (c_code c) in
  let cs := hs z + ss z in
  if negb (fs z =? cs) || negb (cs mod 4 =? 0) then Err EInvalidCodeSize
  else
    let* p := power A (ss z) in
    let* p := minus A p 1 in
    if p <? c_count c then Err EInvalidVarIndex
    else
      let both := c_code c ++ uint_to_b64 (c_count c) (ss z) in
      if negb (len both =? cs) then Err EInvalidCodeSize else Ok both.

End Codec.

(** ** Thresholds *)
(** tholder.rs:29-80: what a clause is compared with; [heavy ws] says whether the weights come to at least one. *)
Section Threshold.
Variable heavy : list rat -> R bool.
Variable add : N -> N -> R N.

(** tholder.rs:62-77 *)
Fixpoint check_clauses_in (cs : list (list rat)) : R unit :=
  match cs with
  | [] => Ok tt
  | c :: r => let* h := heavy c in if h then check_clauses_in r else Err EValue
  end.

(** tholder.rs:29-80 values_to_rationals. *)
Definition values_to_rationals_in (v : value) : R (list (list rat)) :=
  let* cs := to_vec v in
  let* rs := mapR clause_rats cs in
  let* _u := check_clauses_in rs in
  Ok rs.

(** tholder.rs:365-368 *)
Fixpoint size_sum_in (acc : N) (cs : list (list rat)) : R N :=
  match cs with [] => Ok acc | c :: r => let* a := add acc (as_u32 (len c)) in size_sum_in a r end.

(** tholder.rs:363-391 process_weighted. *)
Definition process_weighted_in (v : value) : R tholder :=
  let* cs := values_to_rationals_in v in
  let* size := size_sum_in 0 cs in
  let thold := VArr (map (fun c => VArr (map (fun w => VStr (rat_text x2f w)) c)) cs) in
  let* b := bexter_new (Some (rationals_to_bext cs)) None None None None None in
  Ok (Th thold true size None (Some b)).

(** tholder.rs:249-259 process_thold. *)
Definition process_thold_in (v : value) : R tholder :=
  match to_i64 v with
  | Ok z => process_unweighted z
  | _ => process_weighted_in v
  end.

(** tholder.rs:261-295 process_limen; reading a primitive is the same in both profiles ([ReleaseThms]). *)
Definition process_limen_in (limen : bytes) : R (option tholder) :=
  match limen with
  | [] => Ok None
  | first :: _ =>
    let* limen := from_utf8 limen in
    let* h := hardage first in
    let* code := slice_str limen 0 h in
    if has_code number_codes code then
      let* n := number_new None None None None None (Some limen) None in
      let* k := number_num n in
      if i64_max <? k then Err EForeign
      else let* t := process_unweighted (Z.of_N k) in Ok (Some t)
    else if has_code bexter_codes code then
      let* b := bexter_new None None None None (Some limen) None in
      let* t := bext_of b in
      let clauses := split_on x61 (replace1 x73 x2f t) in
      let v := VArr (map (fun c => VArr (map VStr (split_on x63 c))) clauses) in
      let* t := process_weighted_in v in Ok (Some t)
    else Err EUnexpectedCode
  end.

(** tholder.rs:297-347 process_sith. *)
Definition sith_array_in (v : value) : R tholder :=
  let* array := to_vec v in
  match array with
  | [] => Err EValue
  | _ =>
    let v := if forallb (fun c => is_ok (to_vec c)) array then v else VArr [v] in
    let* cs := to_vec v in
    let* _u := mapR (fun c => let* ws := to_vec c in if forallb (fun w => is_ok (to_string w)) ws then Ok tt else Err EValue) cs in
    process_weighted_in v
  end.
Definition process_sith_in (canon : bytes -> option bytes) (v : value) : R tholder :=
  match to_i64 v with
  | Ok z => process_unweighted z
  | _ =>
    match to_string v with
    | Ok s =>
      match s with
      | x5b :: _ => let* v := value_of_text canon s in sith_array_in v
      | _ => match parse_i64_hex s with Some z => process_unweighted z | None => Err EForeign end
      end
    | _ => sith_array_in v
    end
  end.

(** tholder.rs:99-119 new. *)
Definition tholder_new_in (canon : bytes -> option bytes) (thold : option value) (limen : option bytes) (sith : option value) : R tholder :=
  let* t1 := match thold with Some v => let* t := process_thold_in v in Ok (Some t) | None => Ok None end in
  let* t2 := match limen with Some l => let* o := process_limen_in l in Ok (match o with Some t => Some t | None => t1 end) | None => Ok t1 end in
  let* t3 := match sith with Some v => let* t := process_sith_in canon v in Ok (Some t) | None => Ok t2 end in
  match t3 with Some t => Ok t | None => Err EEmptyMaterial end.

(** tholder.rs:231-245 *)
Fixpoint satisfy_clauses_in (signed : N -> bool) (wio : N) (cs : list (list rat)) : R bool :=
  match cs with
  | [] => Ok true
  | c :: r =>
    let* h := heavy (signed_weights signed wio c) in
    if h then satisfy_clauses_in signed (wio + len c) r else Ok false
  end.
(** tholder.rs:216-247 satisfy_weighted: a flag outside the vector panics in both profiles, whether it is set or read. It is read one weight after the other, so
    what the clauses before it come to matters: [sats[wio]] beyond the size is reached only if they are satisfied. Here, as in [satisfy_weighted], any weight
    beyond the size is a panic; the size falls short of the weights only for 2^32 of them. *)
Definition satisfy_weighted_in (t : tholder) (indices : list N) : R bool :=
  if existsb (fun i => t_size t <=? i) indices then Panic
  else
    let* cs := values_to_rationals_in (t_thold t) in
    if t_size t <? len (concat cs) then Panic
    else satisfy_clauses_in (fun i => existsb (N.eqb i) indices) 0 cs.
(** tholder.rs:196-204 satisfy. *)
Definition satisfy_in (t : tholder) (indices : list N) : R bool :=
  match t_number t with
  | Some _ => satisfy_numeric t indices
  | None => match t_bexter t with Some _ => satisfy_weighted_in t indices | None => Ok false end
  end.
End Threshold.

(** Comparison with one in the checked profile, as in Tholder.v. *)
Definition heavy_checked (ws : list rat) : R bool := let* s := rat_sum ws in Ok (negb (rat_lt1 s)).

(** Signed 32-bit arithmetic modulo 2^32. *)
Definition wrap32 (z : Z) : Z := ((z + 2147483648) mod 4294967296 - 2147483648)%Z.

(** num-rational 0.4 Ratio::reduce on wrapped values: a zero denominator panics; lowest terms with a positive denominator, by num-integer's gcd (of absolute values).
    The gcd of a zero or minimal value and the division by it do not arise on the values met here except where said in ReleaseFacts. *)
Definition zrat := (Z * Z)%type.
Definition zrat_reduce (n d : Z) : R zrat :=
  if (d =? 0)%Z then Panic
  else if (n =? 0)%Z then Ok (0, 1)%Z
  else if (n =? d)%Z then Ok (1, 1)%Z
  else
    let g := Z.gcd n d in
    let n := wrap32 (Z.quot n g) in
    let d := wrap32 (Z.quot d g) in
    if (d <? 0)%Z then Ok (wrap32 (- n), wrap32 (- d)) else Ok (n, d).

(** num-rational 0.4 AddAssign, over num-integer's lcm: [(a * (b / gcd)).abs()]. Division truncates. *)
Definition zrat_add (x y : zrat) : R zrat :=
  let '(n1, d1) := x in
  let '(n2, d2) := y in
  if (d1 =? d2)%Z then zrat_reduce (wrap32 (n1 + n2)) d1
  else
    let l := wrap32 (Z.abs (wrap32 (d1 * wrap32 (Z.quot d2 (Z.gcd d1 d2))))) in
    let a := wrap32 (n1 * wrap32 (Z.quot l d1)) in
    let b := wrap32 (n2 * wrap32 (Z.quot l d2)) in
    zrat_reduce (wrap32 (a + b)) l.
Fixpoint sum_with (add : zrat -> rat -> R zrat) (acc : zrat) (ws : list rat) : R zrat :=
  match ws with [] => Ok acc | w :: r => let* a := add acc w in sum_with add a r end.
Definition zrat_sum_from : zrat -> list rat -> R zrat := sum_with (fun acc w => zrat_add acc (Z.of_N (fst w), Z.of_N (snd w))).
(** tholder.rs:62-77 and 231-245: the comparison [< 1] of num-rational is exact for positive denominators. *)
Definition heavy_wrapping (ws : list rat) : R bool := let* s := zrat_sum_from (0, 1)%Z ws in Ok (negb (fst s <? snd s)%Z).

(** The release profile of the threshold functions. *)
Definition release_new := tholder_new_in heavy_wrapping (plus wrapping).
Definition release_satisfy := satisfy_in heavy_wrapping.

(** ** Creators *)
Section Crypto.
Variable cr : crypto.
Variable kdf : bytes -> bytes -> N -> N -> N -> option bytes.

(** salter.rs:126-148; [i + start] wraps around at 2^64. *)
Fixpoint signers_loop_wrapping (n : nat) (i : N) (self : matter * bytes) (start : N) (path : bytes) (code : option bytes) (transferable : option bool)
    (tier : option bytes) (temp : option bool) : R (list signer) :=
  match n with
  | O => Ok []
  | S n =>
    let* g := salter_signer cr kdf self code transferable (Some (path ++ to_hex ((i + start) mod 2 ^ 64))) tier temp in
    let* l := signers_loop_wrapping n (i + 1) self start path code transferable tier temp in
    Ok (g :: l)
  end.
Definition release_signers (self : matter * bytes) (count start : option N) (path code : option bytes) (transferable : option bool) (tier : option bytes)
    (temp : option bool) : R (list signer) :=
  signers_loop_wrapping (N.to_nat (or_else count 1)) 0 self (or_else start 0) (or_else path []) code transferable tier temp.

(** creating.rs:104-113; [kidx + i as u16] wraps around at 2^16. *)
Fixpoint create_loop_wrapping (self : salty) (stem : bytes) (ridx kidx : N) (transferable temp : bool) (i : N) (codes : list bytes) : R (list signer) :=
  match codes with
  | [] => Ok []
  | c :: codes =>
    let path := stem ++ to_hex ridx ++ to_hex ((kidx + i mod 2 ^ 16) mod 2 ^ 16) in
    let* g := unwrap (salter_signer cr kdf (sc_salter self) (Some c) (Some transferable) (Some path) (Some (sc_tier self)) (Some temp)) in
    let* l := create_loop_wrapping self stem ridx kidx transferable temp (i + 1) codes in
    Ok (g :: l)
  end.
(** creating.rs:76-114 *)
Definition release_create (self : salty) (codes : option (list bytes)) (count : option N) (code : option bytes) (pidx ridx kidx : option N) (stem : option bytes)
    (transferable : option bool) (temp : bool) : R (list signer) :=
  let stem := match sc_stem self with [] => or_else stem (to_hex (or_else pidx 0)) | s => s end in
  create_loop_wrapping self stem (or_else ridx 0) (or_else kidx 0) (or_else transferable true) temp 0 (all_codes codes count code).
End Crypto.
