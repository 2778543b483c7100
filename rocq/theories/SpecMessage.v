(** Vocabulary of the exact statements about messages: the texts written after the event. *)
From Coq Require Import String.
From Coq Require Import NArith List.
From Verif Require Import Base Matter Indexer Prims Messaging Spec SpecPrims.
Import ListNotations.
Open Scope N_scope.

(** The texts of these signatures, one after the other. *)
Definition shown (l : list (indexer * matter)) (ts : bytes) : Prop := exists us, Forall2 (fun p u => iinfil (fst p) = Ok u) l us /\ ts = concat us.
(** Printing these signatures one after the other comes to one that panics. *)
Definition stumbles (l : list (indexer * matter)) : Prop := exists a p b ts, l = a ++ p :: b /\ shown a ts /\ iinfil (fst p) = Panic.
(** The number announced for a list: its length in 32 bits. *)
Definition announced_number (l : list (indexer * matter)) : N := len l mod 2 ^ 32.
(** A code, the number in two characters and the texts. *)
Definition group_text (code : bytes) (l : list (indexer * matter)) (g : bytes) : Prop :=
  exists cs ts, len cs = 2 /\ base64_number 0 cs = Some (announced_number l) /\ shown l ts /\ g = code ++ cs ++ ts.
(** The header made from a seal; the sequence number is written in hexadecimal in the seal. *)
Definition header_text (z : seal) (h : bytes) : Prop :=
  if sl_last z then h = s! "-HAB" ++ sl_i z
  else exists n m q, hex_reading (sl_s z) n /\ n < 2 ^ 128 /\ seqner_new (Some n) None None None None None None = Ok m /\ infil m = Ok q /\ h = s! "-FAB" ++ sl_i z ++ q ++ sl_d z.
(** What is written for the signatures of the controller, if there are any, with the seal, if there is one. *)
Definition controller_text (sigers : option (list (indexer * matter))) (z : option seal) (a : bytes) : Prop :=
  match sigers with
  | None => a = []
  | Some l => exists h g, match z with Some z => header_text z h | None => h = [] end /\ group_text (s! "-A") l g /\ a = h ++ g
  end.
(** What is written for the signatures of the witnesses. *)
Definition witness_text (wigers : option (list (indexer * matter))) (b : bytes) : Prop :=
  match wigers with None => b = [] | Some l => group_text (s! "-B") l b end.
