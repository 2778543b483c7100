(** Properties C103, C104. Theorem statements only; the proofs are in [PrettyThms]. *)
From Coq Require Import String.
From Coq Require Import NArith ZArith QArith Bool List.
From Verif Require Import Base Matter Json Common Sadder Pretty SpecJson SpecPretty PrettyThms BaseFacts.
Import ListNotations.
Open Scope N_scope.

(** A JSON text of a data value with any white space around and between its tokens reads back as that value if the value nests at most 127 deep,
   and is refused if it nests deeper. *)
Theorem C103_any_layout :
  forall (canon : bytes -> option bytes) (v : value) (t w1 w2 : bytes),
  data v -> text_of v t -> blank w1 -> blank w2 ->
  (nests 127 v -> value_of_text canon (w1 ++ t ++ w2) = Ok v) /\ (~ nests 127 v -> value_of_text canon (w1 ++ t ++ w2) = Err EForeign).
Proof. exact C103_layout_l. Qed.
Print Assumptions C103_any_layout.

Definition spaced : bytes := s! " [ 1 ,{ ""a"" :null}]".
Example C103_layout_case : exists w t, spaced = w ++ t ++ [] /\ blank w /\ text_of (VArr [VInt 1; VObj [(s! "a", VNull)]]) t /\ nests 127 (VArr [VInt 1; VObj [(s! "a", VNull)]]).
Proof.
  exists (s! " "), (s! "[ 1 ,{ ""a"" :null}]"). split; [reflexivity|]. assert (blank (s! " ")) as B by (intros c [<-|[]]; cbn; tauto). assert (blank []) as B0 by (intros c []).
  split; [exact B|]. split; [|repeat (constructor; cbn [map snd])].
  apply (to_arr _ (s! " " ++ s! "1" ++ s! " " ++ s! "," ++ [] ++ s! "{ ""a"" :null}" ++ [])). constructor; auto; [apply (to_int 1)|]. constructor; auto.
  apply (to_obj _ (s! " " ++ json_string (s! "a") ++ s! " " ++ s! ":" ++ [] ++ s! "null" ++ [])). constructor; auto. constructor.
Qed.

(** The JSON text the library prints is read back exactly when the value nests at most 127 deep: data that nest deeper can be printed, and put
   into events, but never read. *)
Theorem C103_own_output :
  forall (canon : bytes -> option bytes) (v : value),
  data v ->
  (nests 127 v <-> value_of_text canon (to_json v) = Ok v) /\ (~ nests 127 v <-> value_of_text canon (to_json v) = Err EForeign).
Proof. exact C103_own_l. Qed.
Print Assumptions C103_own_output.

Fixpoint nested (n : nat) : value := match n with O => VInt 0 | S n => VArr [nested n] end.
Example C103_own_case : value_of_text (fun _ => None) (to_json (nested 127)) = Ok (nested 127) /\ value_of_text (fun _ => None) (to_json (nested 128)) = Err EForeign.
Proof. split; vm_compute; reflexivity. Qed.

(** The readable form of an event is a JSON text of its data in some layout: uncut (the default limit is 1024 bytes) it reads back as the same
   data. Above the limit it is the front of that text of exactly that many bytes, when that does not split a character. Data that nest
   deeper than 127 give an error. *)
Theorem C104_pretty_partial :
  forall (canon : bytes -> option bytes) (e : sadder),
  data (d_ked e) -> nests 127 (d_ked e) ->
  exists t, text_of (d_ked e) t /\ utf8 t = true /\ value_of_text canon t = Ok (d_ked e) /\
  forall size, let n := match size with Some n => n | None => 1024 end in
  (len t <= n -> pretty canon e size = Ok t) /\
  (n < len t -> forall x, pretty canon e size = Ok x <-> cut t n x) /\
  (n < len t -> (pretty canon e size = Panic <-> forall x, ~ cut t n x)).
Proof. exact C104_pretty_l. Qed.
Print Assumptions C104_pretty_partial.

Definition event_with (v : value) : sadder := Sd (s! "E") [] v [] [] 0 (Ver 1 0) (Mt [] 0 []).
Example C104_pretty_case : data (VObj [(s! "v", VStr (s! "x")); (s! "a", VArr [VInt 1; VObj []])]) /\ nests 127 (VObj [(s! "v", VStr (s! "x")); (s! "a", VArr [VInt 1; VObj []])]) /\
  pretty (fun _ => None) (event_with (VObj [(s! "v", VStr (s! "x")); (s! "a", VArr [VInt 1; VObj []])])) None =
  Ok (s! "{" ++ [x0a] ++ s! "  ""v"": ""x""," ++ [x0a] ++ s! "  ""a"": [" ++ [x0a] ++ s! "    1," ++ [x0a] ++ s! "    {}" ++ [x0a] ++ s! "  ]" ++ [x0a] ++ s! "}").
Proof.
  split; [|split; [repeat (constructor; cbn [map snd])|vm_compute; reflexivity]]. apply data_obj.
  - repeat constructor; cbn; intuition discriminate.
  - repeat constructor.
  - repeat (constructor; try (vm_compute; intuition discriminate)).
Qed.

(** The readable form of an event whose data nest deeper than 127 is an error, whatever the limit. *)
Theorem C104_pretty_deep :
  forall (canon : bytes -> option bytes) (e : sadder) (size : option N),
  data (d_ked e) -> ~ nests 127 (d_ked e) -> pretty canon e size = Err EForeign.
Proof. exact C104_deep_l. Qed.
Print Assumptions C104_pretty_deep.

Example C104_deep_case : exists v, data v /\ ~ nests 127 v.
Proof.
  exists (nested 128). split.
  - assert (forall n, data (nested n)) as G; [|apply G]. induction n; [constructor; split; [discriminate|reflexivity]|]. constructor. auto.
  - assert (forall n, ~ nests n (nested (S n))) as G; [|apply G]. induction n; intros H; cbn [nested] in H; inversion H; subst.
    apply IHn. match goal with H : Forall _ _ |- _ => inversion H; subst end. assumption.
Qed.

(** The readable form panics for some event and limit: a limit that falls inside a character. *)
Theorem C104_pretty_refuted :
  exists e n, data (d_ked e) /\ forall canon, pretty canon e (Some n) = Panic.
Proof. exact C104_refuted_l. Qed.
Print Assumptions C104_pretty_refuted.

Example C104_refuted_case : utf8 [xc3; xa9] = true. Proof. reflexivity. Qed.
