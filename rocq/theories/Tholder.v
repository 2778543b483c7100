(** Model of [src/cesr/core/tholder.rs]. Definitions only.
    Weights are [Rational32] of crate num-rational 0.4: a numerator and a positive denominator in lowest terms, both i32. All of them are non-negative here, so
    they are naturals with explicit overflow of i32 (a panic in the overflow-checked profile). *)
From Coq Require Import String.
From Coq Require Import NArith ZArith List Bool.
From Verif Require Import Base B64 Util Tables Matter Counter Prims Json.
Import ListNotations.
Open Scope N_scope.

Definition i32_max : N := 2147483647.
Definition i32 (n : N) : R N := if n <=? i32_max then Ok n else Panic.

(** A rational in lowest terms. *)
Definition rat := (N * N)%type.

(** num-rational Ratio::new / reduce: panics on a zero denominator. *)
Definition rat_reduce (n d : N) : R rat :=
  if d =? 0 then Panic
  else if n =? 0 then Ok (0, 1)
  else if n =? d then Ok (1, 1)
  else let g := N.gcd n d in Ok (n / g, d / g).

(** num-rational AddAssign: equal denominators add numerators; otherwise over the least common multiple (num-integer: a * (b / gcd)). *)
Definition rat_add (x y : rat) : R rat :=
  let '(n1, d1) := x in
  let '(n2, d2) := y in
  if d1 =? d2 then let* n := i32 (n1 + n2) in rat_reduce n d1
  else
    let* l := i32 (d1 * (d2 / N.gcd d1 d2)) in
    let* a := i32 (n1 * (l / d1)) in
    let* b := i32 (n2 * (l / d2)) in
    let* n := i32 (a + b) in
    rat_reduce n l.

Fixpoint rat_sum_from (acc : rat) (ws : list rat) : R rat :=
  match ws with [] => Ok acc | w :: r => let* a := rat_add acc w in rat_sum_from a r end.
Definition rat_sum (ws : list rat) : R rat := rat_sum_from (0, 1) ws.
(** num-rational Ord: exact comparison with one. *)
Definition rat_lt1 (x : rat) : bool := fst x <? snd x.

(** [str::parse::<i32>] and [i64::from_str_radix]: optional sign, at least one digit, value within range. *)
Definition signed (neg : N) (pos : N) (digits : bytes -> option N) (s : bytes) : option Z :=
  let num bound sg r := match r with [] => None | _ => match digits r with Some v => if v <=? bound then Some (sg (Z.of_N v)) else None | None => None end end in
  match s with
  | x2b :: r => num pos (fun z => z) r
  | x2d :: r => num neg Z.opp r
  | _ => num pos (fun z => z) s
  end.
Definition parse_i32 : bytes -> option Z := signed 2147483648 2147483647 (dec_val 0).
Definition parse_i64_hex : bytes -> option Z := signed 9223372036854775808 9223372036854775807 (hex_val 0).

(** tholder.rs:38-58: one weight. *)
Definition weight_rat (w : bytes) : R rat :=
  match split_on x2f w with
  | [a; b] =>
    match parse_i32 a with
    | None => Err EForeign
    | Some n =>
      match parse_i32 b with
      | None => Err EForeign
      | Some d =>
        if (n <? 0)%Z || (d <? 0)%Z then Err EValue
        else if (d <? n)%Z then Err EValue
        else rat_reduce (Z.to_N n) (Z.to_N d)
      end
    end
  | p :: _ => if beq p (s! "0") then Ok (0, 1) else if beq p (s! "1") then Ok (1, 1) else Err EValue
  | [] => Panic
  end.

(** Left to right, stopping at the first failure. *)
Fixpoint mapR {A B} (f : A -> R B) (l : list A) : R (list B) :=
  match l with [] => Ok [] | x :: r => let* y := f x in let* ys := mapR f r in Ok (y :: ys) end.

Definition clause_rats (c : value) : R (list rat) :=
  let* ws := to_vec c in
  mapR (fun w => let* s := to_string w in weight_rat s) ws.

(** tholder.rs:62-77: every clause must sum to at least one. *)
Fixpoint check_clauses (cs : list (list rat)) : R unit :=
  match cs with
  | [] => Ok tt
  | c :: r => let* s := rat_sum c in if rat_lt1 s then Err EValue else check_clauses r
  end.

(** tholder.rs:29-80 values_to_rationals. *)
Definition values_to_rationals (v : value) : R (list (list rat)) :=
  let* cs := to_vec v in
  let* rs := mapR clause_rats cs in
  let* _u := check_clauses rs in
  Ok rs.

(** tholder.rs:82-96 rationals_to_bext. *)
Definition rat_text (sep : byte) (w : rat) : bytes :=
  if snd w =? 1 then dec_text (fst w) else dec_text (fst w) ++ sep :: dec_text (snd w).
Definition rationals_to_bext (cs : list (list rat)) : bytes := join [x61] (map (fun c => join [x63] (map (rat_text x73) c)) cs).

(** tholder.rs:14-21 and 23-27 default. *)
Record tholder := Th { t_thold : value; t_weighted : bool; t_size : N; t_number : option matter; t_bexter : option matter }.
Definition tholder_default : tholder := Th (VInt 1) false 1 None None.

(** tholder.rs:349-361 process_unweighted. *)
Definition process_unweighted (z : Z) : R tholder :=
  if (z <? 0)%Z then Err EValue
  else if (Z.of_N u32_max <? z)%Z then Err EForeign
  else
    let* n := number_new (Some (Z.to_N z)) None None None None None None in
    Ok (Th (VInt z) false (Z.to_N z) (Some n) None).

(** tholder.rs:365-368: the number of weights, in u32. *)
Fixpoint size_sum (acc : N) (cs : list (list rat)) : R N :=
  match cs with [] => Ok acc | c :: r => let* a := u32_add acc (as_u32 (len c)) in size_sum a r end.

(** tholder.rs:363-391 process_weighted. *)
Definition process_weighted (v : value) : R tholder :=
  let* cs := values_to_rationals v in
  let* size := size_sum 0 cs in
  let thold := VArr (map (fun c => VArr (map (fun w => VStr (rat_text x2f w)) c)) cs) in
  let* b := bexter_new (Some (rationals_to_bext cs)) None None None None None in
  Ok (Th thold true size None (Some b)).

(** tholder.rs:249-259 process_thold. *)
Definition process_thold (v : value) : R tholder :=
  match to_i64 v with
  | Ok z => process_unweighted z
  | _ => process_weighted v
  end.

(** tholder.rs:261-295 process_limen; [None] when there is nothing to do. *)
Definition process_limen (limen : bytes) : R (option tholder) :=
  match limen with
  | [] => Ok None
  | first :: _ =>
    let* limen := from_utf8 limen in
    let* h := hardage first in
    let* code := slice_str limen 0 h in
    if has_code number_codes code then
      let* n := number_new None None None None None (Some limen) None in
      let* k := number_num n in
      if i64_max <? k then Err EForeign
      else let* t := process_unweighted (Z.of_N k) in Ok (Some t)
    else if has_code bexter_codes code then
      let* b := bexter_new None None None None (Some limen) None in
      let* t := bext_of b in
      let clauses := split_on x61 (replace1 x73 x2f t) in
      let v := VArr (map (fun c => VArr (map VStr (split_on x63 c))) clauses) in
      let* t := process_weighted v in Ok (Some t)
    else Err EUnexpectedCode
  end.

(** tholder.rs:297-347 process_sith. [canon] is the treatment of floats by the JSON reader (Json.v). *)
Definition sith_array (v : value) : R tholder :=
  let* array := to_vec v in
  match array with
  | [] => Err EValue
  | _ =>
    let v := if forallb (fun c => is_ok (to_vec c)) array then v else VArr [v] in
    let* cs := to_vec v in
    let* _u := mapR (fun c => let* ws := to_vec c in if forallb (fun w => is_ok (to_string w)) ws then Ok tt else Err EValue) cs in
    process_weighted v
  end.
Definition process_sith (canon : bytes -> option bytes) (v : value) : R tholder :=
  match to_i64 v with
  | Ok z => process_unweighted z
  | _ =>
    match to_string v with
    | Ok s =>
      match s with
      | x5b :: _ => let* v := value_of_text canon s in sith_array v
      | _ => match parse_i64_hex s with Some z => process_unweighted z | None => Err EForeign end
      end
    | _ => sith_array v
    end
  end.

(** tholder.rs:99-119 new: every argument present is processed in turn, each replacing the fields set before. The comparison with the default value
    amounts to asking whether any of them did anything, since processing always sets the number or the text. *)
Definition tholder_new (canon : bytes -> option bytes) (thold : option value) (limen : option bytes) (sith : option value) : R tholder :=
  let* t1 := match thold with Some v => let* t := process_thold v in Ok (Some t) | None => Ok None end in
  let* t2 := match limen with Some l => let* o := process_limen l in Ok (match o with Some t => Some t | None => t1 end) | None => Ok t1 end in
  let* t3 := match sith with Some v => let* t := process_sith canon v in Ok (Some t) | None => Ok t2 end in
  match t3 with Some t => Ok t | None => Err EEmptyMaterial end.

(** tholder.rs:145-151 num. *)
Definition tholder_num (t : tholder) : R (option N) :=
  if t_weighted t then Ok None
  else let* z := to_i64 (t_thold t) in
       if (z <? 0)%Z || (Z.of_N u32_max <? z)%Z then Err EForeign else Ok (Some (Z.to_N z)).

(** tholder.rs:161-175 limen. *)
Definition tholder_limen (t : tholder) : R bytes :=
  if t_weighted t then match t_bexter t with Some b => infil b | None => Err EValue end
  else match t_number t with Some n => infil n | None => Err EValue end.

(** [format!("{:x}")] of an i64 is two's complement for negative values. *)
Definition i64_hex (z : Z) : bytes := to_hex (Z.to_N (z mod 18446744073709551616)).
(** tholder.rs:177-190 sith. *)
Definition tholder_sith (t : tholder) : R value :=
  if t_weighted t then
    let* l := to_vec (t_thold t) in
    match l with [x] => Ok x | _ => Ok (t_thold t) end
  else let* z := to_i64 (t_thold t) in Ok (VStr (i64_hex z)).
(** tholder.rs:192-194 to_json. *)
Definition tholder_to_json (t : tholder) : R bytes := let* v := tholder_sith t in Ok (to_json v).

(** tholder.rs:231-245: the weights of a clause at signed positions, from position [wio] on. *)
Fixpoint signed_weights (signed : N -> bool) (wio : N) (c : list rat) : list rat :=
  match c with [] => [] | w :: r => if signed wio then w :: signed_weights signed (wio + 1) r else signed_weights signed (wio + 1) r end.
Fixpoint satisfy_clauses (signed : N -> bool) (wio : N) (cs : list (list rat)) : R bool :=
  match cs with
  | [] => Ok true
  | c :: r =>
    let* cw := rat_sum (signed_weights signed wio c) in
    if rat_lt1 cw then Ok false else satisfy_clauses signed (wio + len c) r
  end.
(** tholder.rs:216-247 satisfy_weighted. Sorting and removing duplicates does not change which flags are set; a flag outside the vector panics.
    [sats[wio]] stays within the vector because the size is the number of weights. *)
Definition satisfy_weighted (t : tholder) (indices : list N) : R bool :=
  if existsb (fun i => t_size t <=? i) indices then Panic
  else
    let* cs := values_to_rationals (t_thold t) in
    if t_size t <? len (concat cs) then Panic
    else satisfy_clauses (fun i => existsb (N.eqb i) indices) 0 cs.
(** tholder.rs:206-214 satisfy_numeric. *)
Definition satisfy_numeric (t : tholder) (indices : list N) : R bool :=
  let* z := to_i64 (t_thold t) in
  Ok ((0 <? z)%Z && (z <=? Z.of_N (len indices))%Z).
(** tholder.rs:196-204 satisfy. *)
Definition satisfy (t : tholder) (indices : list N) : R bool :=
  match t_number t with
  | Some _ => satisfy_numeric t indices
  | None => match t_bexter t with Some _ => satisfy_weighted t indices | None => Ok false end
  end.
