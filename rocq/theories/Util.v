(** Model of [src/cesr/core/util.rs]. Definitions only. *)
From Coq Require Import NArith List Bool.
From Verif Require Import Base B64.
Import ListNotations.
Open Scope N_scope.

(** util.rs:145-153 b64_to_u32 and 155-163 b64_to_u64; [w] is 2^32 resp. 2^64. [out << 6] drops the high bits
    silently (a shift by 6 never panics) and the addition cannot carry because the low six bits are zero. *)
Fixpoint b64_to_uint_from (w : N) (out : N) (s : bytes) : R N :=
  match s with
  | [] => Ok out
  | c :: r =>
    match b64_index c with
    | Some i => b64_to_uint_from w ((out * 64) mod w + i) r
    | None => Err EInvalidBase64Character
    end
  end.
Definition b64_to_u32 (s : bytes) : R N := b64_to_uint_from 4294967296 0 s.
Definition b64_to_u64 (s : bytes) : R N := b64_to_uint_from 18446744073709551616 0 s.

(** util.rs:174-184 / 199-209: the [while x > 0] loop. The code keeps [overflow = length - log2(n)/6] in f32 and
    skips a digit while it is negative, adding 1 each time; after [k] skips the test [overflow >= 0] is
    [n <= 64^(length+k)], which is what the model tests (exact logarithm; see FloatLog.v for the f32 version).
    [fuel] bounds the number of base-64 digits of a u64. *)
Fixpoint uint_to_b64_loop (fuel : nat) (n length k x : N) (out : bytes) : bytes :=
  match fuel with
  | O => out
  | S f =>
    if x =? 0 then out
    else if n <=? 64 ^ (length + k) then uint_to_b64_loop f n length k (x / 64) (b64_char (x mod 64) :: out)
    else uint_to_b64_loop f n length (k + 1) (x / 64) out
  end.

(** util.rs:165-188 u32_to_b64 and 190-213 u64_to_b64 (same code at two widths). The index passed to
    b64_index_to_char is below 64, so the [?] never fails and the result is not wrapped in [R]. *)
Definition uint_to_b64 (n length : N) : bytes :=
  if length =? 0 then []
  else
    let out := uint_to_b64_loop 11 n length 0 n [] in
    repeat x41 (N.to_nat length - List.length out) ++ out.

(** util.rs:215-243 code_b2_to_b64. *)
Definition code_b2_to_b64 (b2 : bytes) (length : N) : R bytes :=
  if length =? 0 then Ok []
  else
    let n := ((length + 1) * 3) / 4 in
    if len b2 <? n then Err EMatter
    else if length <=? 4 then
      let i := be_val (take n b2 ++ zeros (4 - n)) in
      let tbs := 2 * (length mod 4) + (4 - n) * 8 in
      Ok (uint_to_b64 (i / 2 ^ tbs) length)
    else if length <=? 8 then
      let i := be_val (take n b2 ++ zeros (8 - n)) in
      let tbs := 2 * (length mod 4) + (8 - n) * 8 in
      Ok (uint_to_b64 (i / 2 ^ tbs) length)
    else Err EMatter.

(** util.rs:245-250 code_b64_to_b2; [8 - n] underflows (panic) for codes of 11 or more characters; [<<=] drops high
    bits. *)
Definition code_b64_to_b2 (code : bytes) : R bytes :=
  let* i := b64_to_u64 code in
  let i := (i * 2 ^ (2 * (len code mod 4))) mod 18446744073709551616 in
  let n := ((len code + 1) * 3) / 4 in
  if 8 <? n then Panic else Ok (drop (8 - n) (be_bytes 8 i)).

(** The sextets of one three-byte group (util.rs:267-272). *)
Definition sextets3 (a b c : byte) : list N :=
  let n := b2n a * 65536 + b2n b * 256 + b2n c in
  [n / 262144; (n / 4096) mod 64; (n / 64) mod 64; n mod 64].

(** util.rs:262-279: the loop over the padded bytes, whose length is a multiple of three. *)
Fixpoint sextets (l : bytes) : list N :=
  match l with
  | a :: b :: c :: r => sextets3 a b c ++ sextets r
  | _ => []
  end.

(** util.rs:252-282 nab_sextets. *)
Definition nab_sextets (binary : bytes) (count : N) : R (list N) :=
  let n := ((count + 1) * 3) / 4 in
  if len binary <? n then Err ETooSmall
  else
    let bps := 3 - len binary mod 3 in
    slice_bytes (sextets (binary ++ zeros bps)) 0 count.
