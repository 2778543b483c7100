(** Properties C99, C100. Theorem statements only; the proofs are in [EditThms]. *)
From Coq Require Import String.
From Coq Require Import NArith ZArith QArith Bool List Permutation.
From Verif Require Import Base Json SpecJson Edit SpecEdit EditThms BaseFacts.
Import ListNotations.
Open Scope N_scope.

(** Reading through any chain of brackets v[a][b]... returns exactly the part of the value those brackets denote (a position counts the
   children of an array or object in order, a label is the child of an object with that label), and panics exactly when they denote none. *)
Theorem C99_reading :
  forall (v : value) (path : list step),
  proper v ->
  (forall x, read v path = Ok x <-> exists p, denotes v path p /\ subtree v p = Some x) /\
  (read v path = Panic <-> ~ exists p, denotes v path p) /\ (forall e, read v path <> Err e).
Proof. exact C99_reading_l. Qed.
Print Assumptions C99_reading.

Example C99_reading_case : let v := VObj [(s! "a", VArr [VInt 1; VInt 2]); (s! "b", VNull)] in
  proper v /\ read v [SLabel (s! "a"); SPos 1] = Ok (VInt 2) /\ read v [SPos 0; SPos 1] = Ok (VInt 2) /\ read v [SLabel (s! "c")] = Panic.
Proof.
  repeat split; try (vm_compute; reflexivity); repeat (constructor; cbn; auto); try (intros H; repeat destruct H as [H|H]; try discriminate; auto).
Qed.

(** Assigning through brackets that denote a part of the value, v[a][b]... = x, never fails: it replaces exactly that part by x. The part
   then reads back as x, every part that neither contains it nor lies in it is unchanged, and the arrays and objects around it keep their
   length, their labels and the order of those. Taking a mutable reference without writing through it changes nothing. *)
Theorem C99_assigning :
  forall (v x : value) (path : list step) (p : list nat),
  proper v -> denotes v path p ->
  (exists w, assign v path x = Ok w /\ replaced p x v w /\ read w path = Ok x) /\ touch v path = Ok v.
Proof. exact C99_assigning_l. Qed.
Print Assumptions C99_assigning.

Example C99_assigning_case : let v := VObj [(s! "a", VArr [VInt 1; VInt 2]); (s! "b", VNull)] in
  denotes v [SLabel (s! "a"); SPos 1] [0%nat; 1%nat] /\
  assign v [SLabel (s! "a"); SPos 1] (VBool true) = Ok (VObj [(s! "a", VArr [VInt 1; VBool true]); (s! "b", VNull)]).
Proof.
  split; [|vm_compute; reflexivity]. eapply den_label; [vm_compute; reflexivity|]. apply (den_pos _ 1) with (l := None) (x := VInt 2); [vm_compute; reflexivity|]. constructor.
Qed.

(** The description used in C99_assigning leaves no freedom: at most one value is the given one with the given part replaced. *)
Theorem C99_replaced_is_determined :
  forall (p : list nat) (x v w w' : value),
  replaced p x v w -> replaced p x v w' -> w = w'.
Proof. exact C99_determined_l. Qed.
Print Assumptions C99_replaced_is_determined.

Example C99_determined_case : replaced [0%nat] VNull (VArr [VInt 1]) (VArr [VNull]).
Proof.
  split; [reflexivity|]. split.
  - intros [|[|n] q] A B; [elim B; now exists [0%nat]|elim A; now exists q|]. cbn. now destruct n.
  - intros [|[|n] q] (r & E) B; try discriminate.
    + exists (VArr [VInt 1]), (VArr [VNull]). repeat split; reflexivity.
    + injection E as E. symmetry in E. apply app_eq_nil in E as [-> ->]. now elim B.
Qed.

(** Assigning to a label that an object of the value does not have, v[a][b]["new"] = x, never fails: the object gains exactly that label,
   after all its others, with the value x, and nothing else in the value changes. Merely taking the mutable reference already adds the
   label, with the value null. *)
Theorem C99_new_label :
  forall m k f,
  assoc k m = None -> index_mut1 (VObj m) (SLabel k) f = let* y' := f VNull in Ok (VObj (m ++ [(k, y')])).
Proof. exact index_mut_new. Qed.
Print Assumptions C99_new_label.

Example C99_new_label_case : let v := VObj [(s! "a", VObj [(s! "z", VInt 1)]); (s! "b", VNull)] in
  denotes v [SLabel (s! "a")] [0%nat] /\ subtree v [0%nat] = Some (VObj [(s! "z", VInt 1)]) /\
  assign v [SLabel (s! "a"); SLabel (s! "c")] (VBool true) = Ok (VObj [(s! "a", VObj [(s! "z", VInt 1); (s! "c", VBool true)]); (s! "b", VNull)]) /\
  touch v [SLabel (s! "a"); SLabel (s! "c")] = Ok (VObj [(s! "a", VObj [(s! "z", VInt 1); (s! "c", VNull)]); (s! "b", VNull)]).
Proof. split; [|vm_compute; auto]. eapply den_label; [vm_compute; reflexivity|constructor]. Qed.

(** Assignment through brackets never returns an error value, and it panics exactly in the remaining cases: when the brackets neither
   denote a part of the value nor end in a label missing from the object that the brackets before it denote. In particular a label is
   never created on the way: v["new"]["deeper"] = x panics. *)
Theorem C99_assign_panics :
  forall (v x : value) (path : list step),
  proper v ->
  (forall e, assign v path x <> Err e) /\
  (assign v path x = Panic <->
   ~ (exists p, denotes v path p) /\
   ~ (exists path0 k p m, path = path0 ++ [SLabel k] /\ denotes v path0 p /\ subtree v p = Some (VObj m) /\ ~ In k (map fst m))).
Proof. exact C99_assign_panics_l. Qed.
Print Assumptions C99_assign_panics.

Example C99_panics_case : assign (VObj []) [SLabel (s! "new"); SLabel (s! "deeper")] VNull = Panic /\
  assign (VArr [VNull]) [SPos 1] VNull = Panic /\ assign (VArr [VNull]) [SLabel (s! "0")] VNull = Panic.
Proof. vm_compute. auto. Qed.

(** Whatever is assigned wherever, a value stays a value: labels of each object stay distinct, and a value that has an exact JSON text
   (64-bit integers, text labels and strings, no floats) still has one after assigning another such value, so that the edited value
   can be written and, nested at most 127 deep, read back as it is. *)
Theorem C99_editing_keeps_data :
  forall (canon : bytes -> option bytes) (v x w : value) (path : list step),
  assign v path x = Ok w ->
  (proper v -> proper x -> proper w) /\
  (data v -> data x -> Forall step_ok path -> data w /\ (nests 127 w -> value_of_text canon (to_json w) = Ok w)).
Proof. exact C99_keeps_l. Qed.
Print Assumptions C99_editing_keeps_data.

Example C99_keeps_case : exists w, assign (VObj [(s! "a", VArr [VInt 1])]) [SLabel (s! "a"); SPos 0] (VStr (s! "x")) = Ok w /\
  data w /\ nests 127 w.
Proof. eexists. split; [vm_compute; reflexivity|]. split; repeat (constructor; auto); cbn; intuition. Qed.

(** An object written entry by entry has each label once, at the place where it was first given, with the value given last; it holds no
   other label. *)
Theorem C100_object_literals :
  forall (l : list (bytes * value)),
  exists m, object_of l = VObj m /\ map fst m = first_labels [] l /\ NoDup (map fst m) /\
  forall k, (forall x, last_value k l = Some x <-> exists n, nth_error (children (object_of l)) n = Some (Some k, x)) /\
            (last_value k l = None -> index_str (object_of l) k = Panic) /\
            (forall x, last_value k l = Some x -> index_str (object_of l) k = Ok x).
Proof. exact C100_literals_l. Qed.
Print Assumptions C100_object_literals.

Example C100_literal_case : let l := [(s! "a", VInt 1); (s! "b", VInt 2); (s! "a", VInt 3)] in
  object_of l = VObj [(s! "a", VInt 3); (s! "b", VInt 2)] /\ first_labels [] l = [s! "a"; s! "b"] /\ last_value (s! "a") l = Some (VInt 3).
Proof. vm_compute. auto. Qed.

(** Converting a HashMap takes the entries in whatever order the map iterates. Every order gives an object that answers every label alike;
   but two different orders never give the same JSON text. So serialised text, and with it any digest taken over it, is not a function of
   the map. *)
Theorem C100_hash_maps :
  forall (l l' : list (bytes * value)),
  Permutation l l' -> NoDup (map fst l) ->
  Forall (fun k => utf8 k = true) (map fst l) -> Forall data (map snd l) ->
  (forall k, index_str (object_of l) k = index_str (object_of l') k) /\
  (to_json (object_of l) = to_json (object_of l') <-> l = l').
Proof. exact C100_hash_l. Qed.
Print Assumptions C100_hash_maps.

Example C100_hash_case : let l := [(s! "a", VInt 1); (s! "b", VInt 2)] in let l' := [(s! "b", VInt 2); (s! "a", VInt 1)] in
  Permutation l l' /\ to_json (object_of l) = s! "{""a"":1,""b"":2}" /\ to_json (object_of l') = s! "{""b"":2,""a"":1}".
Proof. split; [constructor|vm_compute; auto]. Qed.

(** The two families of conversions agree: whenever to_x succeeds, TryFrom gives the same result. They differ only on numbers: TryFrom
   also takes a float for an integer (cutting it) and an integer for a float, which the to_x methods refuse. Neither family panics. *)
Theorem C100_conversions :
  forall (trunc : bytes -> Z) (widen : Z -> bytes) (v : value),
  try_string v = to_string v /\ try_bool v = to_bool v /\ try_vec v = to_vec v /\ try_map v = to_map v /\
  (forall z, try_i64 trunc v = Ok z <-> to_i64 v = Ok z \/ exists t, v = VFloat t /\ z = trunc t) /\
  (forall t, try_f64 widen v = Ok t <-> to_f64 v = Ok t \/ exists z, v = VInt z /\ t = widen z) /\
  try_i64 trunc v <> Panic /\ try_f64 widen v <> Panic /\ to_i64 v <> Panic /\ to_f64 v <> Panic /\
  to_string v <> Panic /\ to_bool v <> Panic /\ to_vec v <> Panic /\ to_map v <> Panic.
Proof. exact C100_conversions_l. Qed.
Print Assumptions C100_conversions.

Example C100_conversions_case : to_i64 (VInt 5) = Ok 5%Z /\ to_i64 (VFloat (s! "1.5")) = Err EConversion /\ try_i64 (fun _ => 1%Z) (VFloat (s! "1.5")) = Ok 1%Z.
Proof. vm_compute. auto. Qed.
