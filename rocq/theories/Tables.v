(** Code tables of Matter: [src/cesr/core/matter/tables.rs]. Definitions only. *)
From Coq Require Import NArith List Bool String.
From Verif Require Import Base.
Import ListNotations.
Open Scope N_scope.

(** matter/tables.rs:8-14 Sizage. *)
Record sizage := Szg { hs : N; ss : N; fs : N; ls : N }.

(** matter/tables.rs:18-66. [u32_max] marks variable size, as in the source. *)
Definition matter_table : list (bytes * sizage) :=
  [ (s! "A", Szg 1 0 44 0); (s! "B", Szg 1 0 44 0); (s! "C", Szg 1 0 44 0); (s! "D", Szg 1 0 44 0);
    (s! "E", Szg 1 0 44 0); (s! "F", Szg 1 0 44 0); (s! "G", Szg 1 0 44 0); (s! "H", Szg 1 0 44 0);
    (s! "I", Szg 1 0 44 0); (s! "J", Szg 1 0 44 0); (s! "K", Szg 1 0 76 0); (s! "L", Szg 1 0 76 0);
    (s! "M", Szg 1 0 4 0); (s! "N", Szg 1 0 12 0); (s! "O", Szg 1 0 44 0); (s! "P", Szg 1 0 124 0);
    (s! "Q", Szg 1 0 44 0);
    (s! "0A", Szg 2 0 24 0); (s! "0B", Szg 2 0 88 0); (s! "0C", Szg 2 0 88 0); (s! "0D", Szg 2 0 88 0);
    (s! "0E", Szg 2 0 88 0); (s! "0F", Szg 2 0 88 0); (s! "0G", Szg 2 0 88 0); (s! "0H", Szg 2 0 8 0);
    (s! "0I", Szg 2 0 88 0);
    (s! "1AAA", Szg 4 0 48 0); (s! "1AAB", Szg 4 0 48 0); (s! "1AAC", Szg 4 0 80 0); (s! "1AAD", Szg 4 0 80 0);
    (s! "1AAE", Szg 4 0 56 0); (s! "1AAF", Szg 4 0 8 0); (s! "1AAG", Szg 4 0 36 0); (s! "1AAH", Szg 4 0 100 0);
    (s! "1AAI", Szg 4 0 48 0); (s! "1AAJ", Szg 4 0 48 0);
    (s! "2AAA", Szg 4 0 8 1); (s! "3AAA", Szg 4 0 8 2);
    (s! "4A", Szg 2 2 u32_max 0); (s! "5A", Szg 2 2 u32_max 1); (s! "6A", Szg 2 2 u32_max 2);
    (s! "7AAA", Szg 4 4 u32_max 0); (s! "8AAA", Szg 4 4 u32_max 1); (s! "9AAA", Szg 4 4 u32_max 2);
    (s! "4B", Szg 2 2 u32_max 0); (s! "5B", Szg 2 2 u32_max 1); (s! "6B", Szg 2 2 u32_max 2);
    (s! "7AAB", Szg 4 4 u32_max 0); (s! "8AAB", Szg 4 4 u32_max 1); (s! "9AAB", Szg 4 4 u32_max 2) ].

Fixpoint lookup {A} (t : list (bytes * A)) (k : bytes) : option A :=
  match t with
  | [] => None
  | (c, v) :: r => if beq c k then Some v else lookup r k
  end.

(** matter/tables.rs:16-70 sizage. *)
Definition sizage_of (code : bytes) : R sizage :=
  match lookup matter_table code with Some z => Ok z | None => Err EUnknownSizage end.

(** matter/tables.rs:72-81 hardage, on the first byte of the text: a non-ASCII first character has a first byte >= 0x80
    and gives UnknownHardage as in the source. *)
Definition hardage (c : byte) : R N :=
  let n := b2n c in
  if ((65 <=? n) && (n <=? 90)) || ((97 <=? n) && (n <=? 122)) then Ok 1
  else if (n =? 48) || (n =? 52) || (n =? 53) || (n =? 54) then Ok 2
  else if (n =? 49) || (n =? 50) || (n =? 51) || (n =? 55) || (n =? 56) || (n =? 57) then Ok 4
  else if n =? 45 then Err EUnexpectedCode
  else if n =? 95 then Err EUnexpectedCode
  else Err EUnknownHardage.

(** matter/tables.rs:83-92 bardage. *)
Definition bardage (b : N) : R N :=
  if b <=? 51 then Ok 1
  else if (b =? 52) || ((56 <=? b) && (b <=? 58)) then Ok 2
  else if ((53 <=? b) && (b <=? 55)) || ((59 <=? b) && (b <=? 61)) then Ok 4
  else if b =? 62 then Err EUnexpectedCode
  else if b =? 63 then Err EUnexpectedCode
  else Err EUnknownBardage.

(** matter/tables.rs:94-102 raw_size. *)
Definition raw_size (code : bytes) : R N :=
  let* z := sizage_of code in
  if fs z =? u32_max then Err EUnexpectedCode
  else
    let cs := hs z + ss z in
    let* d := u32_sub (fs z) cs in
    u32_sub (d * 3 / 4) (ls z).
