(** Vocabulary of the statements about attachments: a reader of streams. *)
From Coq Require Import String.
From Coq Require Import NArith List Bool.
From Verif Require Import Base Matter Indexer Counter Prims Json.
Import ListNotations.
Open Scope N_scope.

(** [n] signatures read one after the other from the front of the text, each as long as its full size, and what follows. *)
Fixpoint read_signatures (n : nat) (t : bytes) : option (list indexer * bytes) :=
  match n with
  | O => Some ([], t)
  | S n =>
    match iexfil t with
    | Ok x =>
      match ifull_size x with
      | Ok k => match read_signatures n (drop k t) with Some (xs, r) => Some (x :: xs, r) | None => None end
      | _ => None
      end
    | _ => None
    end
  end.
(** A counter and as many signatures as it says. *)
Definition read_group (t : bytes) : option (bytes * list indexer * bytes) :=
  match cexfil t with
  | Ok c =>
    match cfull_size c with
    | Ok k => match read_signatures (N.to_nat (c_count c)) (drop k t) with Some (xs, r) => Some (c_code c, xs, r) | None => None end
    | _ => None
    end
  | _ => None
  end.
(** The text consists of groups with these codes and signatures. *)
Fixpoint groups (gs : list (bytes * list indexer)) (t : bytes) : Prop :=
  match gs with
  | [] => t = []
  | (code, xs) :: gs => exists r, read_group t = Some (code, xs, r) /\ groups gs r
  end.

(** Signatures as the constructor makes them. *)
Definition made (p : indexer * matter) : Prop := exists verfer index ondex code raw qb64b qb64 qb2, siger_new verfer index ondex code raw qb64b qb64 qb2 = Ok p.
(** The same signature; where the code has no room for the other index, it is the index. *)
Definition same_signature (p : indexer * matter) (y : indexer) : Prop :=
  let x := fst p in
  i_code y = i_code x /\ i_raw y = i_raw x /\ i_index y = i_index x /\
  i_ondex y = if existsb (beq (i_code x)) [s! "A"; s! "C"; s! "E"] then i_index x else i_ondex x.
(** The signature can be printed. *)
Definition printable (p : indexer * matter) : Prop := exists t, iinfil (fst p) = Ok t.
(** The given list of signatures, with the code announcing it. *)
Definition given (code : bytes) (l : option (list (indexer * matter))) : list (bytes * list (indexer * matter)) :=
  match l with Some l => [(code, l)] | None => [] end.
(** The groups hold exactly the given signatures, in order. *)
Definition same_groups (ps : list (bytes * list (indexer * matter))) (gs : list (bytes * list indexer)) : Prop :=
  Forall2 (fun p g => fst g = fst p /\ Forall2 same_signature (snd p) (snd g)) ps gs.

(** The data of a receipt: version string, type, identifiers of the event and of its controller, sequence number in hexadecimal. *)
Definition receipt_of (vs said pre h : bytes) : value :=
  VObj [(s! "v", VStr vs); (s! "t", VStr (s! "rct")); (s! "d", VStr said); (s! "i", VStr pre); (s! "s", VStr h)].
