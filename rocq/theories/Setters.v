(** Model of the setters not in [State] and [Stale], and of sequences of calls of setters. Definitions only. *)
From Coq Require Import String.
From Coq Require Import NArith List Bool.
From Verif Require Import Base Tables Matter Indexer Counter Prims Json Common Sadder Signer State Stale.
Import ListNotations.
Open Scope N_scope.

(** One call of a setter of the Matter trait (matter/mod.rs:13-15) and its effect, the same for all primitives. *)
Inductive matter_call := CallCode (code : bytes) | CallSize (size : N) | CallRaw (raw : bytes).
Definition matter_calls (l : list matter_call) (m : matter) : matter :=
  fold_left (fun m c => match c with CallCode x => set_code x m | CallSize x => set_size x m | CallRaw x => set_raw x m end) l m.
(** The same for a signer (signer.rs:242-252). *)
Definition signer_calls (l : list matter_call) (g : signer) : signer :=
  fold_left (fun g c => match c with CallCode x => signer_set_code x g | CallSize x => signer_set_size x g | CallRaw x => signer_set_raw x g end) l g.
(** The same for a signature with its key (cigar.rs:94-104). *)
Definition cigar_calls (l : list matter_call) (c : matter * matter) : matter * matter :=
  fold_left (fun p c => match c with CallCode x => (set_code x (fst p), snd p) | CallSize x => (set_size x (fst p), snd p) | CallRaw x => (set_raw x (fst p), snd p) end) l c.

(** One call of a setter of the Indexer trait (indexer/mod.rs:19-22). *)
Inductive indexer_call := CallICode (code : bytes) | CallIRaw (raw : bytes) | CallIndex (index : N) | CallOndex (ondex : N).
(** siger.rs:121-135: the key stays as it is. *)
Definition siger_calls (l : list indexer_call) (x : indexer * matter) : indexer * matter :=
  fold_left (fun p c => match c with
    | CallICode v => (iset_code v (fst p), snd p)
    | CallIRaw v => (iset_raw v (fst p), snd p)
    | CallIndex v => (iset_index v (fst p), snd p)
    | CallOndex v => (iset_ondex v (fst p), snd p)
    end) l x.

(** One call of a setter of the Sadder trait (sadder.rs:69-76). *)
Inductive sadder_call :=
| CallDCode (code : bytes) | CallDRaw (raw : bytes) | CallKed (ked : value) | CallIdent (ident : bytes)
| CallKind (kind : bytes) | CallDSize (size : N) | CallVersion (version : version) | CallSaider (saider : matter).
(** serder.rs:243-273 and creder.rs:140-170. *)
Definition sadder_set (c : sadder_call) (e : sadder) : sadder :=
  match c with
  | CallDCode x => Sd x (d_raw e) (d_ked e) (d_ident e) (d_kind e) (d_size e) (d_version e) (d_saider e)
  | CallDRaw x => Sd (d_code e) x (d_ked e) (d_ident e) (d_kind e) (d_size e) (d_version e) (d_saider e)
  | CallKed x => Sd (d_code e) (d_raw e) x (d_ident e) (d_kind e) (d_size e) (d_version e) (d_saider e)
  | CallIdent x => Sd (d_code e) (d_raw e) (d_ked e) x (d_kind e) (d_size e) (d_version e) (d_saider e)
  | CallKind x => Sd (d_code e) (d_raw e) (d_ked e) (d_ident e) x (d_size e) (d_version e) (d_saider e)
  | CallDSize x => Sd (d_code e) (d_raw e) (d_ked e) (d_ident e) (d_kind e) x (d_version e) (d_saider e)
  | CallVersion x => Sd (d_code e) (d_raw e) (d_ked e) (d_ident e) (d_kind e) (d_size e) x (d_saider e)
  | CallSaider x => Sd (d_code e) (d_raw e) (d_ked e) (d_ident e) (d_kind e) (d_size e) (d_version e) x
  end.
Definition sadder_calls (l : list sadder_call) (e : sadder) : sadder := fold_left (fun e c => sadder_set c e) l e.

(** counter/mod.rs:311-315 default. *)
Definition counter_default : counter := Ct [] 0.
