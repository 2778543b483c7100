(** Model of [src/cesr/core/counter/tables.rs] and [src/cesr/core/counter/mod.rs]. Definitions only. *)
From Coq Require Import String.
From Coq Require Import NArith ZArith List Bool.
From Verif Require Import Base B64 Util Tables.
Import ListNotations.
Open Scope N_scope.

(** counter/tables.rs:11-30 sizage. *)
Definition counter_table : list (bytes * sizage) :=
  [ (s! "-A", Szg 2 2 4 0); (s! "-B", Szg 2 2 4 0); (s! "-C", Szg 2 2 4 0); (s! "-D", Szg 2 2 4 0);
    (s! "-E", Szg 2 2 4 0); (s! "-F", Szg 2 2 4 0); (s! "-G", Szg 2 2 4 0); (s! "-H", Szg 2 2 4 0);
    (s! "-I", Szg 2 2 4 0); (s! "-J", Szg 2 2 4 0); (s! "-K", Szg 2 2 4 0); (s! "-L", Szg 2 2 4 0);
    (s! "-V", Szg 2 2 4 0); (s! "-0V", Szg 3 5 8 0); (s! "--AAA", Szg 5 3 8 0) ].
Definition csizage_of (code : bytes) : R sizage :=
  match lookup counter_table code with Some z => Ok z | None => Err EUnknownSizage end.

(** counter/tables.rs:32-40 hardage. *)
Definition chardage (s : bytes) : R N :=
  if existsb (beq s) [s! "-A"; s! "-B"; s! "-C"; s! "-D"; s! "-E"; s! "-F"; s! "-G"; s! "-H"; s! "-I"; s! "-J"; s! "-K";
                      s! "-L"; s! "-V"] then Ok 2
  else if beq s (s! "-0") then Ok 3
  else if beq s (s! "--") then Ok 5
  else Err EUnknownHardage.

(** counter/tables.rs:42-50 bardage (a pair of sextets; 0x3e is '>'). *)
Definition cbardage (b : list N) : R N :=
  match b with
  | [x; y] =>
    if x =? 62 then
      if (y <=? 11) || (y =? 21) then Ok 2
      else if y =? 52 then Ok 3
      else if y =? 62 then Ok 5
      else Err EUnknownBardage
    else Err EUnknownBardage
  | _ => Err EUnknownBardage
  end.

(** counter/mod.rs:6-10. *)
Record counter := Ct { c_code : bytes; c_count : N }.

(** counter/mod.rs:109-132 new_with_code_and_count. *)
Definition counter_of_code_count (code : bytes) (count : N) : R counter :=
  match code with
  | [] => Err EEmptyMaterial
  | _ =>
    let* z := csizage_of code in
    let cs := hs z + ss z in
    if negb (fs z =? cs) || negb (cs mod 4 =? 0) then Err EInvalidCodeSize
    else
      let* p := pow64_u32 (ss z) in
      if p - 1 <? count then Err EInvalidVarIndex else Ok (Ct code count)
  end.

(** counter/mod.rs:50-53 count_as_b64. *)
Definition count_as_b64 (c : counter) (length : N) : R bytes :=
  if length =? 0 then let* z := csizage_of (c_code c) in Ok (uint_to_b64 (c_count c) (ss z))
  else Ok (uint_to_b64 (c_count c) length).

(** counter/mod.rs:175-208 infil. *)
Definition cinfil (c : counter) : R bytes :=
  let* z := csizage_of (c_code c) in
  let cs := hs z + ss z in
  if negb (fs z =? cs) || negb (cs mod 4 =? 0) then Err EInvalidCodeSize
  else
    let* p := pow64_u32 (ss z) in
    if p - 1 <? c_count c then Err EInvalidVarIndex
    else
      let both := c_code c ++ uint_to_b64 (c_count c) (ss z) in
      if negb (len both =? cs) then Err EInvalidCodeSize else Ok both.

(** counter/mod.rs:210-213 binfil. *)
Definition cbinfil (c : counter) : R bytes := let* both := cinfil c in code_b64_to_b2 both.

(** counter/mod.rs:215-250 exfil. *)
Definition cexfil (qb64 : bytes) : R counter :=
  match qb64 with
  | [] => Err EEmptyMaterial
  | _ =>
    let* first := slice_str qb64 0 2 in
    let* h := chardage first in
    if len qb64 <? h then Err EShortage
    else
      let* hard := slice_str qb64 0 h in
      let* z := csizage_of hard in
      let cs := hs z + ss z in
      if len qb64 <? cs then Err EShortage
      else
        let* cb := slice_str qb64 (hs z) cs in
        let* n := b64_to_u64 cb in
        Ok (Ct hard (as_u32 n))
  end.

(** counter/mod.rs:252-304 bexfil. The count is accumulated by shift and add in u32 (as in b64_to_u32); the test
    [first[0] > 0x3e] leaves only 0x3f. *)
Definition cbexfil (qb2 : bytes) : R counter :=
  match qb2 with
  | [] => Err EEmptyMaterial
  | _ =>
    let* sx := nab_sextets qb2 2 in
    match sx with
    | [] => Panic
    | x :: _ =>
      if 62 <? x then (if x =? 63 then Err EUnexpectedOpCode else Err EUnexpectedCode)
      else
        let* h := cbardage sx in
        let bhs := ((h + 1) * 3) / 4 in
        if len qb2 <? bhs then Err EShortage
        else
          let* hard := code_b2_to_b64 qb2 h in
          let* z := csizage_of hard in
          let cs := hs z + ss z in
          let bcs := ((cs + 1) * 3) / 4 in
          if len qb2 <? bcs then Err EShortage
          else
            let* both := code_b2_to_b64 qb2 cs in
            let* cb := slice_str both h cs in
            let* n := b64_to_u32 cb in
            Ok (Ct hard n)
    end
  end.

(** counter/mod.rs:306-308 full_size. *)
Definition cfull_size (c : counter) : R N := let* z := csizage_of (c_code c) in Ok (fs z).

(** counter/mod.rs:140-147 new_with_qb64b and 13-40 new. *)
Definition cexfil_b (qb64b : bytes) : R counter := let* s := from_utf8 qb64b in cexfil s.
Definition counter_new (count : option N) (count_b64 code qb64b qb64 qb2 : option bytes) : R counter :=
  match code with
  | Some code =>
    let* n := match count with
              | Some n => Ok n
              | None => match count_b64 with Some s => b64_to_u32 s | None => Ok 1 end
              end in
    counter_of_code_count code n
  | None =>
    match qb64b with
    | Some b => cexfil_b b
    | None =>
      match qb64 with
      | Some s => cexfil s
      | None => match qb2 with Some b => cbexfil b | None => Err EValidation end
      end
    end
  end.

(** [str::split(sep)]: the pieces between separators (always at least one piece). *)
Fixpoint split_on (sep : byte) (s : bytes) : list bytes :=
  match s with
  | [] => [[]]
  | c :: r =>
    if Byte.eqb c sep then [] :: split_on sep r
    else match split_on sep r with p :: ps => (c :: p) :: ps | [] => [[c]] end
  end.

(** [str::parse::<i8>]: optional sign, at least one decimal digit, value in -128..=127. *)
Fixpoint dec_val (acc : N) (s : bytes) : option N :=
  match s with
  | [] => Some acc
  | c :: r => let n := b2n c in if (48 <=? n) && (n <=? 57) then dec_val (acc * 10 + (n - 48)) r else None
  end.
Definition parse_i8 (s : bytes) : option Z :=
  match s with
  | x2b :: r => match r with [] => None | _ => match dec_val 0 r with Some v => if v <=? 127 then Some (Z.of_N v) else None | None => None end end
  | x2d :: r => match r with [] => None | _ => match dec_val 0 r with Some v => if v <=? 128 then Some (- Z.of_N v)%Z else None | None => None end end
  | [] => None
  | _ => match dec_val 0 s with Some v => if v <=? 127 then Some (Z.of_N v) else None | None => None end
  end.

(** counter/mod.rs:154-173 sem_ver_parts_to_b64. *)
Definition sem_ver_parts_to_b64 (parts : list N) : R bytes :=
  if existsb (fun p => 63 <? p) parts then Err EParsing
  else Ok (concat (map (fun p => uint_to_b64 p 1) parts)).

(** counter/mod.rs:104-107 sem_ver_to_b64. *)
Definition sem_ver_to_b64 (major minor patch : N) : R bytes := sem_ver_parts_to_b64 [major; minor; patch].

(** counter/mod.rs:75-97: one piece of the version string. *)
Definition sem_ver_piece (s : bytes) : R N :=
  match parse_i8 s with
  | Some n => if (n <? 0)%Z then Err EConversion else Ok (Z.to_N n)
  | None => match s with [] => Ok 0 | _ => Err EConversion end
  end.
Fixpoint sem_ver_pieces (l : list bytes) : R (list N) :=
  match l with
  | [] => Ok []
  | s :: r => let* n := sem_ver_piece s in let* ns := sem_ver_pieces r in Ok (n :: ns)
  end.
(** counter/mod.rs:67-102 sem_ver_str_to_b64: missing parts are zero. *)
Definition sem_ver_str_to_b64 (version : bytes) : R bytes :=
  let strings := split_on x2e version in
  if 3 <? len strings then Err EConversion
  else
    let* ns := sem_ver_pieces strings in
    sem_ver_parts_to_b64 (ns ++ repeat 0 (3 - length ns)).
