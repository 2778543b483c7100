(** Vocabulary of the statements about self-addressing data. *)
From Coq Require Import String.
From Coq Require Import NArith ZArith List Bool.
From Verif Require Import Base Json.
Import ListNotations.
Open Scope N_scope.

(** The digest codes and the number of bytes of each digest. *)
Definition digest_sizes : list (bytes * N) :=
  [(s! "E", 32); (s! "F", 32); (s! "G", 32); (s! "H", 32); (s! "I", 32); (s! "0D", 64); (s! "0E", 64); (s! "0F", 64); (s! "0G", 64)].
(** The digest functions return digests of these sizes. *)
Definition sized_hash (hash : bytes -> bytes -> bytes) : Prop := forall code n ser, In (code, n) digest_sizes -> len (hash code ser) = n.
Definition collision (hash : bytes -> bytes -> bytes) (code : bytes) : Prop := exists a b, a <> b /\ hash code a = hash code b.

(** The fields of [m] without those labelled [ks], in order. *)
Definition without (ks : list bytes) (m : list (bytes * value)) : list (bytes * value) :=
  filter (fun kv => negb (existsb (beq (fst kv)) ks)) m.
(** The fields of [m] with the value of [k] replaced by [x]. *)
Definition replaced (k : bytes) (x : value) (m : list (bytes * value)) : list (bytes * value) :=
  map (fun kv => if beq (fst kv) k then (fst kv, x) else kv) m.
(** [n] hash signs. *)
Definition dummies (n : N) : value := VStr (repeat x23 (N.to_nat n)).
(** The first value labelled [k]. *)
Definition get (k : bytes) (m : list (bytes * value)) : option value := option_map snd (find (fun kv => beq (fst kv) k) m).
(** Number of characters of the text of a digest primitive. *)
Definition text_width (code : bytes) : N := if len code =? 1 then 44 else 88.

(** Taking the field labelled [k] out of a list of fields: the last field moves to the place that falls free. *)
Inductive taken (k : bytes) : list (bytes * value) -> list (bytes * value) -> Prop :=
| taken_absent m : ~ In k (map fst m) -> taken k m m
| taken_last a v : ~ In k (map fst a) -> taken k (a ++ [(k, v)]) a
| taken_inner a v b x : ~ In k (map fst a) -> taken k (a ++ (k, v) :: b ++ [x]) (a ++ x :: b).
(** Taking the fields labelled [ks] out, one after the other. *)
Inductive all_taken : list bytes -> list (bytes * value) -> list (bytes * value) -> Prop :=
| taken_none m : all_taken [] m m
| taken_next k ks m m1 m2 : taken k m m1 -> all_taken ks m1 m2 -> all_taken (k :: ks) m m2.
