(** Paths into self-addressing data: src/pathing/pather.rs. *)
From Coq Require Import String.
From Coq Require Import NArith ZArith Bool List.
From Verif Require Import Base B64 Util Tables Matter Counter Prims Json Common Saider Sadder.
Import ListNotations.
Open Scope N_scope.

(** pather.rs:38-50 pather_from_bext. *)
Definition pather_from_bext (bext code : bytes) : R matter :=
  if negb (reb64 bext) then Err EValue
  else
    let* raw := rawify bext in
    matter_new (Some code) (Some raw) None None None.

(** pather.rs:185-194: the text of one element, a string or an integer. *)
Definition element_text (e : value) : R bytes :=
  let* p := match to_string e with
            | Ok p => Ok p
            | _ => let* z := to_i64 e in Ok (int_text z)
            end in
  if negb (reb64 p) then Err EValue else Ok p.
Fixpoint element_texts (l : list value) : R (list bytes) :=
  match l with
  | [] => Ok []
  | e :: r => let* p := element_text e in let* ps := element_texts r in Ok (p :: ps)
  end.
(** pather.rs:178-197 bextify. *)
Definition bextify (path : value) : R bytes :=
  let* path := to_vec path in
  let* vath := element_texts path in
  Ok (s! "-" ++ join (s! "-") vath).

(** pather.rs:30-36 validate_code, 53-84 new. *)
Definition pather_new (path : option value) (bext code raw qb64b qb64 qb2 : option bytes) : R matter :=
  let code := or_else code (s! "4A") in
  let* m :=
    if is_none bext && is_none raw && is_none qb64b && is_none qb64 && is_none qb2 then
      match path with
      | Some path => let* b := bextify path in pather_from_bext b code
      | None => Err EEmptyMaterial
      end
    else
      match bext with
      | Some b => pather_from_bext b code
      | None => matter_new (Some code) raw qb64b qb64 qb2
      end in
  let* _u := validate bexter_codes (m_code m) in
  Ok m.
(** pather.rs:86-88 new_with_path, 90-92 new_with_bext. *)
Definition pather_of_path (path : value) : R matter := pather_new (Some path) None None None None None None.
Definition pather_of_bext (bext : bytes) : R matter := pather_new None (Some bext) None None None None None.

(** pather.rs:110-124 path. *)
Definition path_of (m : matter) : R value :=
  let* bext := bext_of m in
  match bext with
  | c :: _ =>
    if negb (Byte.eqb c x2d) then Err EValue
    else
      let* rest := from_str bext 1 in
      let result := map VStr (split_on x2d rest) in
      match result with
      | [] => Panic
      | x :: _ => let* t := to_string x in Ok (VArr (match t with [] => [] | _ => result end))
      end
  | [] => Err EValue
  end.

(** pather.rs:126-134 root. *)
Definition path_root (self root : matter) : R matter :=
  let* p := path_of root in
  let* path := to_vec p in
  let* p := path_of self in
  let* to_append := to_vec p in
  pather_of_path (VArr (path ++ to_append)).

(** pather.rs:140-141: the last position of each element text; the elements are texts, so [unwrap] cannot fail, it is kept as a panic. *)
Fixpoint positions (i : N) (path : list value) (m : list (bytes * N)) : R (list (bytes * N)) :=
  match path with
  | [] => Ok m
  | v :: r => match to_string v with Ok t => positions (i + 1) r (insert t i m) | _ => Panic end
  end.
(** [Vec::remove]: panics out of bounds. *)
Definition vec_remove {A} (i : N) (l : list A) : R (list A) :=
  if i <? len l then Ok (take i l ++ drop (i + 1) l) else Panic.
(** pather.rs:148-150; indexing the hash map panics on a missing key. *)
Fixpoint remove_each (hashmap : list (bytes * N)) (root path : list value) : R (list value) :=
  match root with
  | [] => Ok path
  | p :: r =>
    let* t := to_string p in
    match assoc t hashmap with
    | Some i => let* path := vec_remove i path in remove_each hashmap r path
    | None => Panic
    end
  end.
(** pather.rs:136-153 strip. *)
Definition path_strip (self root : matter) : R matter :=
  let* p := path_of root in
  let* root_path := to_vec p in
  let* p := path_of self in
  let* path := to_vec p in
  let* hashmap := positions 0 path [] in
  if len path <? len root_path then Ok self
  else
    let* path := remove_each hashmap (rev root_path) path in
    pather_of_path (VArr path).

(** pather.rs:155-157 starts_with: [str::starts_with]. *)
Definition path_starts_with (self path : matter) : R bool :=
  let* a := bext_of self in
  let* b := bext_of path in
  Ok (beq (take (len b) a) b).

(** [str::parse::<usize>], 64 bits: an optional plus sign, at least one digit, value within range. *)
Definition parse_usize (s : bytes) : option N :=
  let num r := match r with [] => None | _ => match dec_val 0 r with Some v => if v <=? u64_max then Some v else None | None => None end end in
  match s with
  | x2b :: r => num r
  | _ => num s
  end.

(** pather.rs:199-236 _resolve: one step; [inr] is the early return of line 217. *)
Definition resolve_step (val : value) (idx : bytes) : R (value + value) :=
  match to_map val with
  | Ok m =>
    match parse_usize idx with
    | Some i =>
      if len m <=? i then Err EValue
      else match nth_error m (N.to_nat i) with Some (_, x) => Ok (inl x) | None => Panic end
    | None =>
      match idx with
      | [] => Ok (inr (VObj m))
      | _ =>
        if negb (contains_key idx m) then Err EValue
        else match assoc idx m with Some x => Ok (inl x) | None => Panic end
      end
    end
  | _ =>
    match to_vec val with
    | Ok l =>
      match parse_usize idx with
      | Some i =>
        if len l <=? i then Err EValue
        else match nth_error l (N.to_nat i) with Some x => Ok (inl x) | None => Panic end
      | None => Err EForeign
      end
    | _ => Err EValue
    end
  end.
Fixpoint resolve_ptr (ptr : list value) (val : value) : R value :=
  match ptr with
  | [] => Ok val
  | p :: r =>
    let* idx := to_string p in
    let* cur := resolve_step val idx in
    match cur with inr v => Ok v | inl cur => resolve_ptr r cur end
  end.
(** pather.rs:159-161 resolve. *)
Definition path_resolve (self : matter) (sad : value) : R value :=
  let* p := path_of self in
  let* ptr := to_vec p in
  resolve_ptr ptr sad.

(** pather.rs:163-176 tail. *)
Definition path_tail (self : matter) (serder : sadder) : R bytes :=
  let* val := path_resolve self (d_ked serder) in
  match to_string val with
  | Ok result => let* _s := said_of_qb64 result in Ok result
  | _ =>
    if is_ok (to_map val) || is_ok (to_vec val) then Ok (to_json val)
    else Err EValue
  end.
