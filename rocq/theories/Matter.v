(** Model of [src/cesr/core/matter/mod.rs]. Definitions only. *)
From Coq Require Import NArith List Bool String.
From Verif Require Import Base B64 Util Tables.
Import ListNotations.
Open Scope N_scope.

(** The state every Matter carries: code, size, raw (matter/mod.rs:10-15 getters and setters). *)
Record matter := Mt { m_code : bytes; m_size : N; m_raw : bytes }.

(** matter/tables.rs:3 and 4: SMALL_VRZ_DEX and LARGE_VRZ_DEX. *)
Definition small_vrz (i : N) : byte := match i with 0 => x34 | 1 => x35 | _ => x36 end.
Definition large_vrz (i : N) : byte := match i with 0 => x37 | 1 => x38 | _ => x39 end.
Definition is_small_vrz (b : byte) : bool := Byte.eqb b x34 || Byte.eqb b x35 || Byte.eqb b x36.
Definition is_large_vrz (b : byte) : bool := Byte.eqb b x37 || Byte.eqb b x38 || Byte.eqb b x39.

(** matter/mod.rs:43-114 new_with_code_and_raw. [rize + ls] cannot overflow u32 since 2^32-1 is divisible by 3. *)
Definition matter_of_code_raw (code raw : bytes) : R matter :=
  match code with
  | [] => Err EEmptyMaterial
  | first :: _ =>
    let* t :=
      if is_small_vrz first || is_large_vrz first then
        let rize := as_u32 (len raw) in
        let ls := (3 - rize mod 3) mod 3 in
        let size := (rize + ls) / 3 in
        if is_small_vrz first then
          if size <? 4096 then
            let* c := slice_str code 1 2 in
            Ok (small_vrz ls :: c, size, rize)
          else if size <? 16777216 then
            let* c := slice_str code 1 2 in
            Ok (large_vrz ls :: x41 :: x41 :: c, size, rize)
          else Err EInvalidVarRawSize
        else
          if size <? 16777216 then
            let* c := slice_str code 1 4 in
            Ok (large_vrz ls :: c, size, rize)
          else Err EInvalidVarRawSize
      else
        let* rize := raw_size code in
        Ok (code, 0, rize)
    in
    let '(code', size, rize) := t in
    if len raw <? rize then Err EShortage
    else let* r := slice_bytes raw 0 rize in Ok (Mt code' size r)
  end.

(** matter/mod.rs:180-243 infil ([qb64]). [encode_slice] into [buffer.len()*4/3] bytes fails unless the buffer is a
    multiple of three bytes long. *)
Definition infil (m : matter) : R bytes :=
  let code := m_code m in
  let size := m_size m in
  let raw := m_raw m in
  let ps := (3 - len raw mod 3) mod 3 in
  let* z := sizage_of code in
  if fs z =? u32_max then
    let cs := hs z + ss z in
    if negb (cs mod 4 =? 0) then Err EInvalidCodeSize
    else
      let* p := pow64_u32 (ss z) in
      if p - 1 <? size then Err EInvalidVarSize
      else
        let both := code ++ uint_to_b64 size (ss z) in
        if ((ls z <=? ps) && negb (len both mod 4 =? ps - ls z))
           || ((ps <? ls z) && negb (len both mod 4 =? ls z - ps))
        then Err EInvalidCodeSize
        else
          let buffer := zeros (ls z) ++ raw in
          if negb (len buffer mod 3 =? 0) then Err EForeign
          else Ok (both ++ encode buffer)
  else
    let cs := len code in
    let* d := u32_sub ps (ls z) in
    if negb (cs mod 4 =? d) then Err EInvalidCodeSize
    else
      let buffer := zeros ps ++ raw in
      if negb (len buffer mod 3 =? 0) then Err EForeign
      else
        let* t := from_str (encode buffer) (cs mod 4) in
        Ok (code ++ t).

(** matter/mod.rs:245-314 binfil ([qb2]). [cs + size*4] cannot overflow once size < 64^ss. *)
Definition binfil (m : matter) : R bytes :=
  let code := m_code m in
  let size := m_size m in
  let raw := m_raw m in
  let* z := sizage_of code in
  let cs := hs z + ss z in
  let* t :=
    if fs z =? u32_max then
      if negb (cs mod 4 =? 0) then Err EInvalidCodeSize
      else
        let* p := pow64_u32 (ss z) in
        if p - 1 <? size then Err EInvalidVarSize
        else Ok (cs + size * 4, code ++ uint_to_b64 size (ss z))
    else Ok (fs z, code) in
  let '(fs', both) := t in
  if negb (len both =? cs) then Err EInvalidCodeSize
  else
    let n := ((cs + 1) * 3) / 4 in
    let* full :=
      if n <=? 3 then
        let* v := b64_to_u32 both in Ok (be_bytes 4 ((v * 2 ^ (2 * (cs mod 4))) mod 4294967296))
      else if n <=? 6 then
        let* v := b64_to_u64 both in Ok (be_bytes 8 ((v * 2 ^ (2 * (cs mod 4))) mod 18446744073709551616))
      else Err EInvalidCodeSize in
    let* bcode := from_bytes full (len full - n) in
    let buffer := bcode ++ zeros (ls z) ++ raw in
    let bfs := len buffer in
    if negb (bfs mod 3 =? 0) || negb (bfs * 4 / 3 =? fs') then Err EInvalidCodeSize
    else Ok buffer.

(** matter/mod.rs:316-417 exfil (parse qb64). *)
Definition exfil (qb64 : bytes) : R matter :=
  match qb64 with
  | [] => Err EEmptyMaterial
  | first :: _ =>
    let* h := hardage first in
    if len qb64 <? h then Err EShortage
    else
      let* hard := slice_str qb64 0 h in
      let* z := sizage_of hard in
      let cs := hs z + ss z in
      let* t :=
        if fs z =? u32_max then
          if negb (cs mod 4 =? 0) then Err EInvalidCodeSize
          else if len qb64 <? cs then Err EShortage
          else
            let* soft := slice_str qb64 (hs z) cs in
            let* size := b64_to_u32 soft in
            let* q := u32_mul size 4 in
            let* f := u32_add q cs in
            Ok (f, size)
        else Ok (fs z, 0) in
      let '(fs', size) := t in
      if len qb64 <? fs' then Err EShortage
      else
        let* trim := slice_str qb64 0 fs' in
        let ps := cs mod 4 in
        let* raw :=
          if negb (ps =? 0) then
            let* rest := from_str trim cs in
            let* paw := decode (repeat x41 (N.to_nat ps) ++ rest) in
            let* lead := slice_bytes paw 0 ps in
            (* pi & (2^pbs - 1), pbs = 2 * ps *)
            if negb (be_val lead mod 2 ^ (2 * ps) =? 0) then Err EPrepad
            else from_bytes paw ps
          else
            let* rest := from_str trim cs in
            let* paw := decode rest in
            let* lead := slice_bytes paw 0 (ls z) in
            if negb (be_val lead =? 0) then
              (if ls z =? 1 then Err ENonZeroedLeadByte else Err ENonZeroedLeadBytes)
            else from_bytes paw (ls z) in
        Ok (Mt hard size raw)
  end.

(** matter/mod.rs:419-505 bexfil (parse qb2). *)
Definition bexfil (qb2 : bytes) : R matter :=
  match qb2 with
  | [] => Err EEmptyMaterial
  | _ =>
    let* sx := nab_sextets qb2 1 in
    let* h := match sx with first :: _ => bardage first | [] => Panic end in
    let bhs := (h * 3 + 3) / 4 in
    if len qb2 <? bhs then Err EShortage
    else
      let* hard := code_b2_to_b64 qb2 h in
      let* z := sizage_of hard in
      let cs := hs z + ss z in
      let bcs := ((cs + 1) * 3) / 4 in
      let* t :=
        if fs z =? u32_max then
          if negb (cs mod 4 =? 0) then Err EParseQb2
          else if len qb2 <? bcs then Err EShortage
          else
            let* both := code_b2_to_b64 qb2 cs in
            let* soft := slice_str both (hs z) cs in
            let* size := b64_to_u32 soft in
            let* q := u32_mul size 4 in
            let* f := u32_add q cs in
            Ok (f, size)
        else Ok (fs z, 0) in
      let '(fs', size) := t in
      let bfs := ((fs' + 1) * 3) / 4 in
      if len qb2 <? bfs then Err EShortage
      else
        let* trim := slice_bytes qb2 0 bfs in
        let ps := cs mod 4 in
        let* _u :=
          if negb (ps =? 0) then
            match nth_error trim (N.to_nat (bcs - 1)) with
            | Some p => if negb (b2n p mod 2 ^ (2 * ps) =? 0) then Err ENonZeroedPadBits else Ok tt
            | None => Panic
            end
          else
            (* iter().take(bcs + ls).skip(bcs) *)
            if forallb (fun b => Byte.eqb b x00) (drop bcs (take (bcs + ls z) trim)) then Ok tt
            else (if ls z =? 1 then Err ENonZeroedLeadByte else Err ENonZeroedLeadBytes) in
        let* raw := from_bytes trim (bcs + ls z) in
        Ok (Mt hard size raw)
  end.

(** matter/mod.rs:507-514 full_size. *)
Definition full_size (m : matter) : R N :=
  let* z := sizage_of (m_code m) in
  if negb (fs z =? u32_max) then Ok (fs z)
  else
    let* q := u32_mul (m_size m) 4 in
    u32_add (hs z + ss z) q.

(** matter/mod.rs:125-134 new_with_qb64b. *)
Definition exfil_b (qb64b : bytes) : R matter := let* s := from_utf8 qb64b in exfil s.

(** matter/mod.rs:17-41 new. *)
Definition matter_new (code raw qb64b qb64 qb2 : option bytes) : R matter :=
  match raw with
  | Some raw =>
    match code with
    | Some code => matter_of_code_raw code raw
    | None => Err EEmptyMaterial
    end
  | None =>
    match qb64b with
    | Some b => exfil_b b
    | None =>
      match qb64 with
      | Some s => exfil s
      | None =>
        match qb2 with
        | Some b => bexfil b
        | None => Err EValidation
        end
      end
    end
  end.

(** matter/mod.rs:157-171 digestive. *)
Definition digest_codes : list bytes :=
  [s! "E"; s! "0D"; s! "F"; s! "0E"; s! "G"; s! "H"; s! "0F"; s! "I"; s! "0G"].
Definition digestive (m : matter) : bool := existsb (beq (m_code m)) digest_codes.

(** matter/mod.rs:173-178 transferable. *)
Definition transferable (m : matter) : bool :=
  negb (existsb (beq (m_code m)) [s! "B"; s! "1AAA"; s! "1AAC"]).
