(** Properties C111 and C112: setters and default values. *)
From Coq Require Import String.
From Coq Require Import NArith Bool List.
From Verif Require Import Base BaseFacts Tables Matter Indexer Counter Prims Json Common Saider Sadder Signer State Stale Setters Spec SpecKinds SpecSetter.
Import ListNotations.
Open Scope N_scope.

(*# C111_setters
   After any sequence of calls of setters, each field of a primitive is the last value set for it, or what it was before if none was set; so a primitive can be copied field by
   field in any order. The key attached to a seed or signature stays as it was.
##
Example C111_case : matter_calls [CallRaw (s! "x"); CallCode (s! "5B"); CallSize 1; CallRaw (s! "hi")] dater_default = Mt (s! "5B") 1 (s! "hi") /\
  infil (matter_calls [CallRaw (s! "x"); CallCode (s! "5B"); CallSize 1; CallRaw (s! "hi")] dater_default) = Ok (s! "5BABAGhp").
Proof. split; vm_compute; reflexivity. Qed.
#*)
Lemma C111_l (l : list matter_call) (m v : matter) (g : signer) :
  (m_code (matter_calls l m) = last_set sets_code l (m_code m) /\ m_size (matter_calls l m) = last_set sets_size l (m_size m) /\
   m_raw (matter_calls l m) = last_set sets_raw l (m_raw m)) /\
  cigar_calls l (m, v) = (matter_calls l m, v) /\
  g_seed (signer_calls l g) = matter_calls l (g_seed g) /\ g_verfer (signer_calls l g) = g_verfer g.
Proof.
  revert m g. induction l as [|c l IH]; intros m g; [repeat split|].
  unfold matter_calls, cigar_calls, signer_calls in *. cbn [fold_left last_set fst snd].
  destruct c as [x|x|x]; cbn [sets_code sets_size sets_raw fst snd].
  - destruct (IH (set_code x m) (signer_set_code x g)) as ((A & B & C) & D & _). destruct (IH m (signer_set_code x g)) as (_ & _ & E & F). rewrite A, B, C, D, E, F. repeat split.
  - destruct (IH (set_size x m) (signer_set_size x g)) as ((A & B & C) & D & _). destruct (IH m (signer_set_size x g)) as (_ & _ & E & F). rewrite A, B, C, D, E, F. repeat split.
  - destruct (IH (set_raw x m) (signer_set_raw x g)) as ((A & B & C) & D & _). destruct (IH m (signer_set_raw x g)) as (_ & _ & E & F). rewrite A, B, C, D, E, F. repeat split.
Qed.

(*# C111_indexed_setters
   The same for indexed signatures: code, raw material and both indices are set independently of each other, and the key stays as it was.
##
Example C111_indexed_case : fst (siger_calls [CallOndex 7; CallIndex 3; CallIRaw (s! "r"); CallIndex 5; CallICode (s! "2A")] (siger_default, verfer_default)) = Ix (s! "2A") (s! "r") 5 7.
Proof. vm_compute. reflexivity. Qed.
#*)
Lemma C111_indexed_l (l : list indexer_call) (x : indexer) (v : matter) :
  i_code (fst (siger_calls l (x, v))) = last_set sets_icode l (i_code x) /\ i_raw (fst (siger_calls l (x, v))) = last_set sets_iraw l (i_raw x) /\
  i_index (fst (siger_calls l (x, v))) = last_set sets_index l (i_index x) /\ i_ondex (fst (siger_calls l (x, v))) = last_set sets_ondex l (i_ondex x) /\
  snd (siger_calls l (x, v)) = v.
Proof.
  revert x. induction l as [|c l IH]; intros x; [repeat split|].
  unfold siger_calls in *. cbn [fold_left last_set fst snd]. destruct c as [y|y|y|y]; [exact (IH (iset_code y x))|exact (IH (iset_raw y x))|exact (IH (iset_index y x))|exact (IH (iset_ondex y x))].
Qed.

(*# C111_event_setters
   The same for the eight fields of events.
##
Example C111_event_case : sadder_calls [CallKed VNull; CallKed (VInt 3); CallKind (s! "CBOR")] serder_empty =
  Sd (s! "E") [] (VInt 3) (s! "KERI") (s! "CBOR") 0 current_version digest_default.
Proof. vm_compute. reflexivity. Qed.
#*)
Lemma C111_event_l (l : list sadder_call) (e : sadder) :
  d_code (sadder_calls l e) = last_set sets_dcode l (d_code e) /\ d_raw (sadder_calls l e) = last_set sets_draw l (d_raw e) /\
  d_ked (sadder_calls l e) = last_set sets_ked l (d_ked e) /\ d_ident (sadder_calls l e) = last_set sets_ident l (d_ident e) /\
  d_kind (sadder_calls l e) = last_set sets_kind l (d_kind e) /\ d_size (sadder_calls l e) = last_set sets_dsize l (d_size e) /\
  d_version (sadder_calls l e) = last_set sets_version l (d_version e) /\ d_saider (sadder_calls l e) = last_set sets_saider l (d_saider e).
Proof.
  revert e. induction l as [|c l IH]; intros e; [repeat split|].
  unfold sadder_calls in *. cbn [fold_left last_set]. destruct c as [y|y|y|y|y|y|y|y];
    [exact (IH (sadder_set (CallDCode y) e))|exact (IH (sadder_set (CallDRaw y) e))|exact (IH (sadder_set (CallKed y) e))|exact (IH (sadder_set (CallIdent y) e))
    |exact (IH (sadder_set (CallKind y) e))|exact (IH (sadder_set (CallDSize y) e))|exact (IH (sadder_set (CallVersion y) e))|exact (IH (sadder_set (CallSaider y) e))].
Qed.

(*# C112_defaults_partial
   The default value of every kind of primitive has a code of that kind and no material. Except for date-times, printing it gives an error, or, for base64 texts, the
   text and binary form of the empty text, which read back as the default. Default indexed signatures and counters do not print. Default events have the data of an empty object.
   Missing: date-times, see C112_default_date_time_refuted.
##
Example C112_case : infil cigar_default = Err EInvalidCodeSize /\ bext_of bexter_default = Ok [].
Proof. split; vm_compute; reflexivity. Qed.
#*)
Lemma C112_partial_l :
  (forall kind d, In (kind, d) defaults -> In (m_code d) kind /\ m_raw d = [] /\ m_size d = 0 /\ ((exists e, binfil d = Err e) \/ exists b, binfil d = Ok b /\ bexfil b = Ok d) /\
    (~ In (m_code d) date_times -> (exists e, infil d = Err e) \/ exists t, infil d = Ok t /\ exfil t = Ok d)) /\
  (In (i_code siger_default) indexed_signatures /\ i_raw siger_default = [] /\ (exists e, iinfil siger_default = Err e) /\ exists e, ibinfil siger_default = Err e) /\
  ((exists e, cinfil counter_default = Err e) /\ (exists e, cbinfil counter_default = Err e) /\ exists e, cfull_size counter_default = Err e) /\
  (to_json (d_ked serder_empty) = s! "{}" /\ to_json (creder_crd creder_empty) = s! "{}" /\ d_raw serder_empty = [] /\ d_raw creder_empty = [] /\
   d_ident serder_empty = s! "KERI" /\ d_ident creder_empty = s! "ACDC").
Proof.
  split; [|split; [|split]].
  - intros kind d H. cbn [defaults In] in H.
    repeat (destruct H as [H|H]; [injection H as <- <-; split; [vm_compute; tauto|]; split; [reflexivity|]; split; [reflexivity|]; split;
      [first [left; eexists; vm_compute; reflexivity|right; eexists; split; [vm_compute; reflexivity|vm_compute; reflexivity]]
      |first [intros _; left; eexists; vm_compute; reflexivity|intros _; right; eexists; split; [vm_compute; reflexivity|vm_compute; reflexivity]|intros X; exfalso; apply X; now left]]|]). destruct H.
  - split; [vm_compute; tauto|]. split; [reflexivity|]. split; eexists; vm_compute; reflexivity.
  - repeat split; eexists; vm_compute; reflexivity.
  - repeat split; vm_compute; reflexivity.
Qed.

(*# C112_default_date_time_refuted
   The default date-time prints as the bare code 1AAG although it holds no date: the text does not read back. Its binary form is refused.
#*)
Lemma C112_no_l : infil dater_default = Ok (s! "1AAG") /\ (exists e, exfil (s! "1AAG") = Err e) /\ exists e, binfil dater_default = Err e.
Proof. split; [vm_compute; reflexivity|]. split; eexists; vm_compute; reflexivity. Qed.
