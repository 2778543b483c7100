(** Version strings, sizing, loading and sniffing of serialised events: src/cesr/core/common.rs. *)
From Coq Require Import String.
From Coq Require Import NArith ZArith Bool List.
From Verif Require Import Base Prims Json.
Import ListNotations.
Open Scope N_scope.

(** ** The version pattern: common.rs:102 REVER_STRING
    [A-Z]{4}[0-9a-f][0-9a-f][A-Z]{4}[0-9a-f]{6}_ : a pattern of fixed length 17 over single-byte classes, so the regex engine is modelled by trying
    it at each position from the left; the pattern matches ASCII only, so positions are byte positions. *)
Definition upper (c : byte) : bool := (65 <=? b2n c) && (b2n c <=? 90).
Definition lhex (c : byte) : bool := ((48 <=? b2n c) && (b2n c <=? 57)) || ((97 <=? b2n c) && (b2n c <=? 102)).
Definition underscore (c : byte) : bool := Byte.eqb c x5f.
Definition rever : list (byte -> bool) :=
  [upper; upper; upper; upper; lhex; lhex; upper; upper; upper; upper; lhex; lhex; lhex; lhex; lhex; lhex; underscore].
Fixpoint match_classes (p : list (byte -> bool)) (s : bytes) : bool :=
  match p, s with
  | [], _ => true
  | f :: p, c :: s => f c && match_classes p s
  | _ :: _, [] => false
  end.
Definition rever_here (s : bytes) : bool := match_classes rever s.
(** Start of the leftmost match. [Regex::shortest_match] returns its end, 17 bytes further on. *)
Fixpoint find_rever (s : bytes) : option N :=
  if rever_here s then Some 0
  else match s with
       | [] => None
       | _ :: r => match find_rever r with Some i => Some (i + 1) | None => None end
       end.
(** [Regex::replace_all] with a capture group: [skip] bytes of the current match remain to be skipped. *)
Fixpoint rever_replace (group : bytes -> bytes) (skip : nat) (s : bytes) : bytes :=
  match s with
  | [] => []
  | c :: r =>
    match skip with
    | S k => rever_replace group k r
    | O => if rever_here s then group (take 17 s) ++ rever_replace group 16 r else c :: rever_replace group 0 r
    end
  end.
Definition g_ident (m : bytes) : bytes := take 4 m.
Definition g_major (m : bytes) : bytes := take 1 (drop 4 m).
Definition g_minor (m : bytes) : bytes := take 1 (drop 5 m).
Definition g_kind (m : bytes) : bytes := take 4 (drop 6 m).
Definition g_size (m : bytes) : bytes := take 6 (drop 10 m).
Definition replace_all (group : bytes -> bytes) (s : bytes) : bytes := rever_replace group 0 s.

(** [uN::from_str_radix(s, 16)]. *)
Definition uint_from_hex (max : N) (s : bytes) : R N :=
  let digits := match s with c :: r => if Byte.eqb c x2b then r else s | [] => s end in
  match digits with
  | [] => Err EForeign
  | _ => match hex_val 0 digits with
         | Some n => if n <=? max then Ok n else Err EForeign
         | None => Err EForeign
         end
  end.

(** common.rs:33-36 Version, 16-30 DeversifyResult and SniffResult; 103-104 IDENTS and SERIALS; 128 CURRENT_VERSION. *)
Record version := Ver { v_major : N; v_minor : N }.
Definition version_eqb (a b : version) : bool := (v_major a =? v_major b) && (v_minor a =? v_minor b).
Record vinfo := Vi { vi_ident : bytes; vi_kind : bytes; vi_version : version; vi_size : N }.
Definition idents : list bytes := [s! "ACDC"; s! "KERI"].
Definition serials : list bytes := [s! "JSON"].
Definition current_version : version := Ver 1 0.

(** common.rs:134-158 deversify. *)
Definition deversify (vs : bytes) : R vinfo :=
  match find_rever vs with
  | None => Err EValidation
  | Some _ =>
    let ident := replace_all g_ident vs in
    let* major := uint_from_hex 255 (replace_all g_major vs) in
    let* minor := uint_from_hex 255 (replace_all g_minor vs) in
    let kind := replace_all g_kind vs in
    let* size := uint_from_hex u32_max (replace_all g_size vs) in
    if negb (has_code idents ident) then Err EValidation
    else if negb (has_code serials kind) then Err EValidation
    else Ok (Vi ident kind (Ver major minor) size)
  end.

(** [format!("{n:0wx}")]. *)
Definition hex_pad (w n : N) : bytes := let h := to_hex n in repeat x30 (N.to_nat (w - len h)) ++ h.

(** common.rs:217-241 versify. *)
Definition versify (ident : option bytes) (ver : option version) (kind : option bytes) (size : option N) : R bytes :=
  let ident := or_else ident (s! "KERI") in
  let ver := or_else ver current_version in
  let kind := or_else kind (s! "JSON") in
  let size := or_else size 0 in
  if negb (has_code idents ident) then Err EValidation
  else if negb (has_code serials kind) then Err EValidation
  else Ok (ident ++ hex_pad 1 (v_major ver) ++ hex_pad 1 (v_minor ver) ++ kind ++ hex_pad 6 size ++ [x5f]).

(** common.rs:266-272 dumps. *)
Definition dumps (ked : value) (kind : option bytes) : R bytes :=
  if beq (or_else kind (s! "JSON")) (s! "JSON") then Ok (to_json ked) else Err EValue.

(** common.rs:7-14 SizeifyResult. *)
Record sized := Sz { z_raw : bytes; z_ident : bytes; z_kind : bytes; z_ked : value; z_version : version }.

(** common.rs:160-215 sizeify. [raw.len()] never exceeds the address space, so the cast to u32 is the only truncation. *)
Definition sizeify (ked : value) (kind : option bytes) : R sized :=
  let* map := to_map ked in
  if negb (contains_key (s! "v") map) then Err EValue
  else
    let* v := index_str ked (s! "v") in
    let* vs := to_string v in
    let* result := deversify vs in
    if negb (version_eqb (vi_version result) current_version) then Err EValue
    else
      let kind := or_else kind (vi_kind result) in
      if negb (has_code serials kind) then Err EValue
      else
        let* raw := dumps ked (Some kind) in
        let size := len raw in
        let* text := from_utf8 raw in
        match find_rever text with
        | None => Err EValue
        | Some start =>
          if 12 <? start then Err EValue
          else
            let* fore := slice_bytes raw 0 start in
            let* back := from_bytes raw (start + 17) in
            let* vs := versify (Some (vi_ident result)) (Some (vi_version result)) (Some kind) (Some (as_u32 size)) in
            let raw := fore ++ vs ++ back in
            if negb (len raw =? size) then Err EValue
            else
              let* ked := set_str ked (s! "v") (VStr vs) in
              Ok (Sz raw (vi_ident result) kind ked (vi_version result))
        end.

(** common.rs:243-264 loads. *)
Definition loads (canon : bytes -> option bytes) (raw : bytes) (size : option N) (kind : option bytes) : R value :=
  if beq (or_else kind (s! "JSON")) (s! "JSON") then
    let* raw := match size with Some n => slice_bytes raw 0 n | None => Ok raw end in
    let* text := from_utf8 raw in
    value_of_text canon text
  else Err EValidation.

(** common.rs:274-312 sniff. *)
Definition sniff (raw : bytes) : R vinfo :=
  if len raw <? 29 then Err EValue
  else
    let* raw := from_utf8 raw in
    match find_rever raw with
    | None => Err EValue
    | Some start =>
      if 12 <? start then Err EValue
      else
        let* vs := slice_str raw start (start + 17) in
        let ident := replace_all g_ident vs in
        let* major := uint_from_hex 255 (replace_all g_major vs) in
        let* minor := uint_from_hex 255 (replace_all g_minor vs) in
        let kind := replace_all g_kind vs in
        let* size := uint_from_hex u32_max (replace_all g_size vs) in
        if negb (has_code serials kind) then Err EValidation
        else Ok (Vi ident kind (Ver major minor) size)
    end.
