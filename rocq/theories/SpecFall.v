(** Vocabulary of the statement about attachments that bring the verification of a credential down. *)
From Coq Require Import String.
From Coq Require Import NArith List Bool.
From Verif Require Import Base Matter Indexer Prims Json Tholder Signer Sadder Pather Short Verify SpecSadder SpecTholder SpecLog SpecCred SpecExtra SpecEndorse.
Import ListNotations.
Open Scope N_scope.

(** The store answers about the event a group of signatures names: it has none with this number, one with another identifier, or this one, with a threshold for its keys. *)
Definition placed (canon : bytes -> option bytes) (st : store) (g : sad_path_sig) : Prop :=
  (exists pre n er, infil (sp_prefixer g) = Ok pre /\ seqner_sn (sp_seqner g) = Ok n /\ get_key_event st pre (asked_for n) = Err er) \/
  (exists pre n e said want, infil (sp_prefixer g) = Ok pre /\ seqner_sn (sp_seqner g) = Ok n /\ logged canon st pre (asked_for n) e said /\ infil (sp_saider g) = Ok want /\ want <> said) \/
  exists e ks t, refers canon st g e ks t /\ steady t (len ks).
(** The group names a stored event, and has a signature with the number of its keys as the index, after signatures that can be checked only. *)
Definition overruns (canon : bytes -> option bytes) (cr : crypto) (st : store) (raw : bytes) (g : sad_path_sig) : Prop :=
  exists e ks t l x l', refers canon st g e ks t /\ sp_sigers g = l ++ x :: l' /\ i_index x = len ks /\ Forall (answered cr ks raw) l.
(** Reading the groups from the front, such a group about the whole credential comes, after groups of signatures on parts, and those about the whole among them all endorse it. *)
Definition falls (canon : bytes -> option bytes) (cr : crypto) (st : store) (raw : bytes) (g : list group) : Prop :=
  exists ls l p l' rest, g = map GPaths ls ++ GPaths (l ++ p :: l') :: rest /\ bext_of (sp_pather p) = Ok (s! "-") /\ overruns canon cr st raw p /\
    forall q, In q (concat ls ++ l) -> bext_of (sp_pather q) = Ok (s! "-") -> endorsed canon cr st raw q.
