(** Vocabulary of the statements about signing thresholds: exact rational weights. *)
From Coq Require Import String.
From Coq Require Import NArith ZArith QArith List Bool.
From Verif Require Import Base Json SpecCounter.
Import ListNotations.
Open Scope N_scope.

(** A non-negative integer in decimal, possibly with a sign. *)
Definition numeral (s : bytes) (n : N) : Prop := exists d, decimal d n /\ (s = d \/ s = s! "+" ++ d \/ n = 0 /\ s = s! "-" ++ d).
(** The text of a weight: an integer, or a fraction with a positive denominator. *)
Inductive weight_text : bytes -> Q -> Prop :=
| weight_int s n : decimal s n -> weight_text s (inject_Z (Z.of_N n))
| weight_frac a b n d : numeral a n -> numeral b (Npos d) -> weight_text (a ++ s! "/" ++ b) (Z.of_N n # d).

(** A threshold value as lists (clauses) of texts, and its exact weights. *)
Definition texts (v : value) (ts : list (list bytes)) : Prop := v = VArr (map (fun c => VArr (map VStr c)) ts).
Definition weights (v : value) (ws : list (list Q)) : Prop := exists ts, texts v ts /\ Forall2 (Forall2 weight_text) ts ws.

(** The weight earned in a clause whose first weight belongs to key [pos] when the keys in [idx] have signed. *)
Fixpoint earned (idx : list N) (pos : N) (c : list Q) : Q :=
  match c with
  | [] => 0
  | w :: r => ((if in_dec N.eq_dec pos idx then w else 0) + earned idx (pos + 1) r)%Q
  end.
(** Every clause earns at least one. Clauses take their keys in order, each key in one clause. *)
Fixpoint meets (idx : list N) (pos : N) (ws : list (list Q)) : Prop :=
  match ws with
  | [] => True
  | c :: r => (1 <= earned idx pos c)%Q /\ meets idx (pos + len c) r
  end.

(** Denominators small enough for 32-bit arithmetic: some common multiple of the denominators of each clause, times the number of its weights, is
    below 2^31. *)
Definition small (ws : list (list Q)) : Prop :=
  forall c, In c ws -> exists m, 0 < m /\ (forall w, In w c -> (Z.pos (Qden w) | Z.of_N m)%Z) /\ len c * m < 2 ^ 31.

(** The strings among the weights of a threshold value, and the number of weights. *)
Definition weight_in (v : value) (s : bytes) : Prop := exists l c, v = VArr l /\ In (VArr c) l /\ In (VStr s) c.
Definition keys (v : value) : N :=
  match v with VArr l => fold_right (fun c n => match c with VArr ws => len ws + n | _ => n end) 0 l | _ => 0 end.
(** At most one division sign. *)
Definition one_slash (s : bytes) : Prop := len (filter (fun c => Byte.eqb c x2f) s) <= 1.
Definition zero_over_zero (s : bytes) : Prop := exists a b, numeral a 0 /\ numeral b 0 /\ s = a ++ s! "/" ++ b.
(** A threshold value without any of the forms that make its evaluation panic: 0/0, a text with several division signs, large denominators. *)
Definition safe (v : value) : Prop :=
  (forall s, weight_in v s -> one_slash s /\ ~ zero_over_zero s) /\ (forall ws, weights v ws -> small ws) /\ keys v < 2 ^ 27.
