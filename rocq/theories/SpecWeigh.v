(** Vocabulary of the exact statements about weighted thresholds: what a weight text is read as, and which sums need more than 31 bits. Independent of the
    model's internals. *)
From Coq Require Import String.
From Coq Require Import NArith ZArith QArith List Bool.
From Verif Require Import Base Json SpecCounter SpecTholder.
Import ListNotations.
Open Scope N_scope.

(** The number of division signs of a text. *)
Definition slashes (s : bytes) : N := len (filter (fun c => Byte.eqb c x2f) s).
(** What a weight text is read as: with exactly one division sign a fraction from zero to one, otherwise 0 or 1, anything being allowed after a division sign. *)
Definition reads (s : bytes) (q : Q) : Prop :=
  (exists a b n d, s = a ++ s! "/" ++ b /\ numeral a n /\ numeral b (Npos d) /\ n <= Npos d /\ Npos d < 2 ^ 31 /\ q = Z.of_N n # d) \/
  (slashes s <> 1 /\ exists p, (p = s! "0" /\ q = 0%Q \/ p = s! "1" /\ q = 1%Q) /\ (s = p \/ exists r, s = p ++ s! "/" ++ r)).

Fixpoint total (c : list Q) : Q := match c with [] => 0%Q | w :: r => (w + total r)%Q end.
(** Adding the weights from the left in lowest terms, some step needs a number of 2^31 or more: the least common denominator of the sum so far and of the
    next weight, or the numerator of the new sum over that denominator. *)
Definition overflows (c : list Q) : Prop :=
  exists a w b, c = a ++ w :: b /\
    let l := N.lcm (Npos (Qden (Qred (total a)))) (Npos (Qden (Qred w))) in
    2 ^ 31 <= l \/ (inject_Z (2 ^ 31) <= total (a ++ [w]) * inject_Z (Z.of_N l))%Q.

(** A clause that passes: its sum can be formed and is at least one. *)
Definition passes (c : list Q) : Prop := ~ overflows c /\ (1 <= total c)%Q.

(** Values on which reading the weights panics: the first entry that is not a weight is zero over zero, or all are weights and the first clause that does
    not pass overflows. *)
Definition breaks (v : value) : Prop :=
  (exists ts qs t q s rest more, v = VArr (map (fun c => VArr (map VStr c)) ts ++ VArr (map VStr t ++ VStr s :: rest) :: more) /\
    Forall2 (Forall2 reads) ts qs /\ Forall2 reads t q /\ zero_over_zero s) \/
  (exists ts qs c more, texts v ts /\ Forall2 (Forall2 reads) ts (qs ++ c :: more) /\ Forall passes qs /\ overflows c).

(** The weights of the keys that signed, in order, the first weight belonging to key [pos]. *)
Fixpoint signed_by (idx : list N) (pos : N) (c : list Q) : list Q :=
  match c with [] => [] | w :: r => if in_dec N.eq_dec pos idx then w :: signed_by idx (pos + 1) r else signed_by idx (pos + 1) r end.
(** The clauses with the weights of the keys that signed only. *)
Fixpoint signed_clauses (idx : list N) (pos : N) (ws : list (list Q)) : list (list Q) :=
  match ws with [] => [] | c :: r => signed_by idx pos c :: signed_clauses idx (pos + len c) r end.

(** An array given as sith: a list of clauses, or one clause. *)
Definition sith_clauses (v : value) (ts : list (list bytes)) : Prop :=
  ts <> [] /\ texts v ts \/ exists c, c <> [] /\ ts = [c] /\ v = VArr (map VStr c).

(** The clauses written in the text of a weighted threshold: clauses apart by 'a', weights by 'c', and 's' for the division sign. *)
Definition written (b : bytes) (ts : list (list bytes)) : Prop :=
  ts <> [] /\ (forall c, In c ts -> c <> [] /\ forall w, In w c -> ~ In x61 w /\ ~ In x63 w) /\
  map (fun c => if Byte.eqb c x73 then x2f else c) b = join (s! "a") (map (join (s! "c")) ts).
