(** Vocabulary of the statements about setters and default values. *)
From Coq Require Import String.
From Coq Require Import NArith List Bool.
From Verif Require Import Base Tables Matter Indexer Json Common Setters State SpecKinds.
Import ListNotations.
Open Scope N_scope.

(** The last value that a sequence of calls sets, or the value before when it sets none. *)
Fixpoint last_set {C A} (sets : C -> option A) (l : list C) (before : A) : A :=
  match l with
  | [] => before
  | c :: r => last_set sets r (match sets c with Some x => x | None => before end)
  end.

Definition sets_code c := match c with CallCode x => Some x | _ => None end.
Definition sets_size c := match c with CallSize x => Some x | _ => None end.
Definition sets_raw c := match c with CallRaw x => Some x | _ => None end.
Definition sets_icode c := match c with CallICode x => Some x | _ => None end.
Definition sets_iraw c := match c with CallIRaw x => Some x | _ => None end.
Definition sets_index c := match c with CallIndex x => Some x | _ => None end.
Definition sets_ondex c := match c with CallOndex x => Some x | _ => None end.
Definition sets_dcode c := match c with CallDCode x => Some x | _ => None end.
Definition sets_draw c := match c with CallDRaw x => Some x | _ => None end.
Definition sets_ked c := match c with CallKed x => Some x | _ => None end.
Definition sets_ident c := match c with CallIdent x => Some x | _ => None end.
Definition sets_kind c := match c with CallKind x => Some x | _ => None end.
Definition sets_dsize c := match c with CallDSize x => Some x | _ => None end.
Definition sets_version c := match c with CallVersion x => Some x | _ => None end.
Definition sets_saider c := match c with CallSaider x => Some x | _ => None end.

(** The default value of each kind of primitive, with the codes of its kind. *)
Definition defaults : list (list bytes * matter) :=
  [ (base64_texts, bexter_default); (signatures, cigar_default); (date_times, dater_default); (digests, digest_default); (prefixes, digest_default);
    (numbers, number_default); (sequence_numbers, salt_default); (salts, salt_default); (keys, verfer_default); (seeds, signer_default) ].
