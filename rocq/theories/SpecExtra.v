(** Vocabulary of the statements about further signatures on accepted events. *)
From Coq Require Import String.
From Coq Require Import NArith ZArith QArith List Bool.
From Verif Require Import Base Matter Indexer Json Tholder Sadder Short Verify SpecTholder SpecSadder SpecLog.
Import ListNotations.
Open Scope N_scope.

(** All of them have a text. *)
Definition printable (l : list matter) : Prop := Forall (fun m => exists t, infil m = Ok t) l.
(** A threshold that is numeric, or has weights with a small common denominator and one of them for each of [n] keys. *)
Definition steady (t : tholder) (n : N) : Prop :=
  t_weighted t = true -> n <= keys (t_thold t) < 2 ^ 32 /\ exists ws, weights (t_thold t) ws /\ small ws.
(** The keys in force are printable and so are the digests announced for the next ones. *)
Definition legible (canon : bytes -> option bytes) (st : store) (pre : bytes) (n : N) (ks : list matter) : Prop :=
  printable ks /\ forall e' ds, announcing canon st pre n e' -> serder_digers e' = Ok ds -> printable ds.
(** The threshold in force and the announced one are steady. *)
Definition settled (canon : bytes -> option bytes) (st : store) (pre : bytes) (n : N) (ks : list matter) (t : tholder) : Prop :=
  steady t (len ks) /\ forall e' ds nt, announcing canon st pre n e' -> serder_digers e' = Ok ds -> serder_ntholder canon e' = Ok (Some nt) -> steady nt (len ds).
(** The indices of the signatures in a list of groups. *)
Definition indexed (g : list group) (i : N) : Prop := exists l x, In (GSigs l) g /\ In x l /\ i_index x = i.
