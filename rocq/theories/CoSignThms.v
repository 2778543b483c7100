(** Property C178: how many keys have signed an accepted credential. *)
From Coq Require Import String.
From Coq Require Import NArith ZArith QArith Bool List Lia Permutation.
From Verif Require Import Base Tables Matter Indexer Prims Json Tholder Common Saider Diger Sadder Signer Prefixer Pather Short Verify Ingest Events.
From Verif Require Import Spec SpecPrims SpecJson SpecCommon SpecTholder SpecSaider SpecSadder SpecPrefixer SpecSigner SpecLog SpecIngest SpecCred SpecExtra SpecEndorse SpecAgain World Forgery Chain.
From Verif Require Import BaseFacts MatterFacts PrimsFacts SadderFacts SadderThms TholderFacts TholderThms SignerThms VerifyFacts VerifyThms ExtraFacts ExtraThms IngestThms CredThms ChainThms AgainThms EndorseThms DepthThms FallThms.
Import ListNotations.
Open Scope N_scope.

(** One signature of the first key on the first credential, written in two ways. *)
Definition lent := Eval vm_compute in i_raw (hd (Ix [] [] 0 0) (sp_sigers csigs0)).
Definition cosigned : sad_path_sig := Sps (sp_pather csigs0) (sp_prefixer csigs0) (sp_seqner csigs0) (sp_saider csigs0) [Ix (s! "2A") lent 0 0; Ix (s! "2A") lent 0 1].

Lemma cosigned_refers : exists ev ks t, refers no_floats (view no_floats issued) cosigned ev ks t /\ t_thold t = VInt 2 /\ len ks = 2 /\ exists v, nth_error ks 0 = Some v /\ verfer_verify toy v lent (d_raw cred0) = Ok true.
Proof.
  assert (exists ks v, serder_verfers event0 = Ok ks /\ len ks = 2 /\ nth_error ks 0 = Some v /\ verfer_verify toy v lent (d_raw cred0) = Ok true) as (ks & v & K1 & K2 & K3 & K4).
  { do 2 eexists. split; [vm_compute; reflexivity|]. split; [vm_compute; reflexivity|]. split; [vm_compute; reflexivity|]. vm_compute. reflexivity. }
  assert (exists t, serder_tholder no_floats event0 = Ok (Some t) /\ t_thold t = VInt 2) as (t & T1 & T2). { eexists. split; [vm_compute; reflexivity|]. vm_compute. reflexivity. }
  exists event0, ks, t. split; [|eauto 6]. exists pre0, 0, (World.got [] (sad_said event0)). split; [vm_compute; reflexivity|]. split; [vm_compute; reflexivity|]. split; [vm_compute; reflexivity|]. split; [|auto].
  exists (d_raw event0 ++ s! "a"). split; [vm_compute; reflexivity|]. split; vm_compute; reflexivity.
Qed.

(*# C178_threshold_of_signers_refuted
   False as stated: a credential whose signer asks for two keys is accepted with the signature of one. It is given twice, in the form with two indices, and the second index, which nothing here depends on, differs.
   Both read from texts.
#*)
Lemma C178_no_l : correct toy /\ sized_hash mix /\ exists l e said g ev ks t, reached no_floats mix toy runic rune_of accepts_all young (fun _ _ => true) l /\ held no_floats (view no_floats l) said e /\
  verify_acdc no_floats mix toy runic accepts_all young 9 (view no_floats l) e [GPaths [g]] (Some false) [] = Ok (true, []) /\
  about_all [GPaths [g]] g /\ refers no_floats (view no_floats l) g ev ks t /\ t_thold t = VInt 2 /\ len ks = 2 /\ (forall x, In x (sp_sigers g) -> i_index x = 0 /\ exists text v, siger_with_qb64 text None = Ok (x, v)).
Proof.
  split; [exact toy_correct|]. split; [exact mix_sized|]. destruct cosigned_refers as (ev & ks & t & R & T & K & _). exists issued, cred0, csaid0, cosigned, ev, ks, t. split; [apply taken, reached_empty|].
  split; [exists (World.got [] (get_acdc (view no_floats issued) csaid0)); split; [vm_compute; reflexivity|vm_compute; reflexivity]|]. split; [vm_compute; reflexivity|].
  split; [exists [cosigned]; split; [now left|]; split; [now left|]; vm_compute; reflexivity|]. split; [exact R|]. split; [exact T|]. split; [exact K|].
  assert (forall o, In o [0; 1] -> exists text v, siger_with_qb64 text None = Ok (Ix (s! "2A") lent 0 o, v)) as S.
  { intros o [<-|[<-|[]]]; [exists (World.got [] (iinfil (Ix (s! "2A") lent 0 0)))|exists (World.got [] (iinfil (Ix (s! "2A") lent 0 1)))]; eexists; vm_compute; reflexivity. }
  intros x [<-|[<-|[]]]; (split; [reflexivity|]); apply S; cbn; auto.
Qed.

(*# C178_threshold_of_signers_partial
   In an accepted credential every group about the whole names a stored key event whose threshold its good signatures fulfil, equal ones counted once: with weights the keys that signed earn every clause; with a number k,
   at least k signatures verify, and if signatures with the same index are equal, they are made with k different keys. Missing for the full statement: with a number, signatures of one key that differ in their form or their
   second index are counted each.
##
Example C178_partial_case : verify_acdc no_floats mix toy runic accepts_all young 9 (view no_floats issued) cred0 [GPaths [csigs0]] (Some false) [] = Ok (true, []) /\ about_all [GPaths [csigs0]] csigs0 /\
  (forall x y, In x (sp_sigers csigs0) -> In y (sp_sigers csigs0) -> i_index x = i_index y -> x = y) /\ length (sp_sigers csigs0) = 2%nat.
Proof.
  split; [exact issued_accepted|]. split; [exact issued_about|]. split; [|reflexivity]. intros x y [<-|[<-|[]]] [<-|[<-|[]]] H; try reflexivity; discriminate H.
Qed.
#*)
Lemma C178_partial_l (canon : bytes -> option bytes) (hash : bytes -> bytes -> bytes) (cr : crypto) (messages_of : bytes -> R (list message)) (schema_check : bytes -> bytes -> R bool) (age : bytes -> R Z)
    (fuel : nat) (st : store) (e : sadder) (g : list group) (deep : option bool) (seen : list bytes) (r : bool * list bytes) (p : sad_path_sig) :
  verify_acdc canon hash cr messages_of schema_check age fuel st e g deep seen = Ok r -> about_all g p ->
  exists ev ks t good, refers canon st p ev ks t /\ NoDup good /\ (forall x, In x good <-> In x (sp_sigers p) /\ verifies cr ks (d_raw e) x) /\ fulfilled t (map i_index good) /\
    ((forall x y, In x (sp_sigers p) -> In y (sp_sigers p) -> i_index x = i_index y -> x = y) -> forall k, t_thold t = VInt (Z.of_N k) ->
      exists idx, NoDup idx /\ k <= len idx /\ forall i, In i idx -> exists x, In x (sp_sigers p) /\ i_index x = i /\ verifies cr ks (d_raw e) x).
Proof.
  intros H A. apply C132_l in H as (registry & said & schema & state & ilk & dt & secs & _ & _ & _ & _ & _ & _ & _ & _ & _ & _ & _ & _ & _ & _ & W).
  destruct (W p A) as (pre & n & sd & ev & ks & t & sigs & good & V1 & V2 & V3 & V4 & V5 & V6 & V7 & V8 & V9 & T & S). clear W.
  assert (forall x, In x good <-> In x (sp_sigers p) /\ verifies cr ks (d_raw e) x) as I. { intros x. rewrite (those_in _ _ _ _ T), V8. reflexivity. }
  assert (NoDup good) as ND. { rewrite <- (map_id good). apply (those_map _ (fun x => x) _ _ T). now rewrite map_id. }
  pose proof (threshold_satisfied _ _ _ _ _ V6 S) as F. exists ev, ks, t, good. split; [exists pre, n, sd; auto 7|]. split; [exact ND|]. split; [exact I|]. split; [exact F|].
  intros INJ k K. exists (map i_index good). split.
  { assert (forall x, In x good -> In x (sp_sigers p)) as SUB by (intros x X; now apply I). clear -ND INJ SUB. induction good as [|x l IH]; cbn [map]; [constructor|]. inversion ND; subst. constructor.
    - intros X. apply in_map_iff in X as (y & E & Y). assert (y = x) as ->; [|contradiction]. apply INJ; auto; apply SUB; [now right|now left].
    - apply IH; auto. intros y Y. apply SUB. now right. }
  split. 2: { intros i X. apply in_map_iff in X as (x & <- & X). exists x. apply I in X. tauto. }
  destruct F as [(k' & F1 & _ & F2)|(WT & _)]; [rewrite K in F1; injection F1 as F1; lia|]. exfalso. apply threshold_new in V6 as (v & V6). apply TholderFacts.accepted in V6 as [(k' & TT)|(cs & TT)].
  - destruct TT as [_ (nn & _ & ->)]. discriminate.
  - rewrite (wt_thold _ _ TT) in K. discriminate.
Qed.

Lemma one_endorses canon cr st raw p ev ks t k i sig v :
  bext_of (sp_pather p) = Ok (s! "-") -> refers canon st p ev ks t -> t_thold t = VInt (Z.of_N k) -> 1 <= k ->
  nth_error ks (N.to_nat i) = Some v -> verfer_verify cr v sig raw = Ok true ->
  NoDup (sp_sigers p) -> Forall (fun x => i_index x = i /\ i_raw x = sig) (sp_sigers p) -> k <= len (sp_sigers p) ->
  Forall on_parts [GPaths [p]] /\ (exists q, about_all [GPaths [p]] q) /\ forall q, about_all [GPaths [p]] q -> endorsed canon cr st raw q.
Proof.
  intros B RF TK K1 V C ND F L.
  assert (Forall (verifies cr ks raw) (sp_sigers p)) as VF. { eapply Forall_impl; [|exact F]. intros x (X1 & X2). exists v. rewrite X1, X2. auto. }
  split. { repeat constructor. exists [p]. split; auto. constructor; eauto. } split. { exists p, [p]. split; [now left|]. split; [now left|exact B]. }
  intros q (l & [E|[]] & I & _). injection E as <-. destruct I as [<-|[]]. exists ev, ks, t, (sp_sigers p), (sp_sigers p). split; [exact RF|]. split; auto. split; [tauto|].
  split. { eapply Forall_impl; [|exact VF]. intros x (w & W1 & W2). exists w, true. auto. }
  split. { clear -VF. induction VF; constructor; auto. }
  destruct RF as (pre & n & said & _ & _ & _ & _ & _ & TH). apply threshold_new in TH as (w & TH). apply TholderFacts.accepted in TH as [(k' & T)|(cs & T)].
  - assert (k' = k) as ->. { destruct T as [_ (nn & _ & ->)]. cbn [t_thold] in TK. injection TK as TK. lia. } rewrite (satisfy_numeric_eq k t _ T). f_equal. apply andb_true_iff. split; [apply N.ltb_lt; lia|].
    apply N.leb_le. unfold len in *. now rewrite map_length.
  - rewrite (wt_thold _ _ T) in TK. discriminate TK.
Qed.

(*# C178_one_key_is_enough
   How far it is from holding: for every credential that is acceptable, with the store trusted, and every key event stored that has a number k as its threshold, one good signature of any one of its keys is enough. Written in
   k or more different ways, that is, with different forms or second indices, and nothing else, it has the credential accepted.
##
Example C178_one_key_case : verify_acdc no_floats mix toy runic accepts_all young 9 (view no_floats issued) cred0 [GPaths [csigs0]] (Some false) [] = Ok (true, []) /\
  (exists ev ks t, refers no_floats (view no_floats issued) cosigned ev ks t /\ t_thold t = VInt 2 /\ len ks = 2 /\ exists v, nth_error ks 0 = Some v /\ verfer_verify toy v lent (d_raw cred0) = Ok true) /\
  bext_of (sp_pather cosigned) = Ok (s! "-") /\ NoDup (sp_sigers cosigned) /\ Forall (fun x => i_index x = 0 /\ i_raw x = lent) (sp_sigers cosigned) /\ len (sp_sigers cosigned) = 2.
Proof.
  split; [exact issued_accepted|]. split; [exact cosigned_refers|]. split; [vm_compute; reflexivity|].
  split; [repeat constructor; cbn; intuition discriminate|]. split; [repeat constructor|reflexivity].
Qed.
#*)
Lemma C178_one_key_l (canon : bytes -> option bytes) (hash : bytes -> bytes -> bytes) (cr : crypto) (messages_of : bytes -> R (list message)) (schema_check : bytes -> bytes -> R bool) (age : bytes -> R Z)
    (fuel : nat) (st : store) (e : sadder) (g : list group) (seen : list bytes) (r : bool * list bytes) (p : sad_path_sig) (ev : sadder) (ks : list matter) (t : tholder) (k i : N) (sig : bytes) (v : matter) :
  verify_acdc canon hash cr messages_of schema_check age fuel st e g (Some false) seen = Ok r ->
  bext_of (sp_pather p) = Ok (s! "-") -> refers canon st p ev ks t -> t_thold t = VInt (Z.of_N k) -> 1 <= k ->
  nth_error ks (N.to_nat i) = Some v -> verfer_verify cr v sig (d_raw e) = Ok true ->
  NoDup (sp_sigers p) -> Forall (fun x => i_index x = i /\ i_raw x = sig) (sp_sigers p) -> k <= len (sp_sigers p) ->
  verify_acdc canon hash cr messages_of schema_check age fuel st e [GPaths [p]] (Some false) seen = Ok r.
Proof.
  intros H B RF TK K1 V C ND F L. apply (C162_exactly_l canon hash cr messages_of schema_check age fuel st e g [GPaths [p]] seen r H). now apply (one_endorses canon cr st (d_raw e) p ev ks t k i sig v).
Qed.


(** The same with the other credential, which the first party's first key signs. *)
Definition lent_b := Eval vm_compute in i_raw (hd (Ix [] [] 0 0) (signed keys0 cred_b)).
Definition cosigned_b : sad_path_sig := Sps (sp_pather csigs0) (sp_prefixer csigs0) (sp_seqner csigs0) (sp_saider csigs0) [Ix (s! "2A") lent_b 0 0; Ix (s! "2A") lent_b 0 1].
Lemma cosigned_b_refers : exists ev ks t, refers no_floats (view no_floats own_chain) cosigned_b ev ks t /\ t_thold t = VInt 2 /\ len ks = 2 /\ exists v, nth_error ks 0 = Some v /\ verfer_verify toy v lent_b (d_raw cred_b) = Ok true.
Proof.
  assert (exists ks v, serder_verfers event0 = Ok ks /\ len ks = 2 /\ nth_error ks 0 = Some v /\ verfer_verify toy v lent_b (d_raw cred_b) = Ok true) as (ks & v & K1 & K2 & K3 & K4).
  { do 2 eexists. split; [vm_compute; reflexivity|]. split; [vm_compute; reflexivity|]. split; [vm_compute; reflexivity|]. vm_compute. reflexivity. }
  assert (exists t, serder_tholder no_floats event0 = Ok (Some t) /\ t_thold t = VInt 2) as (t & T1 & T2). { eexists. split; [vm_compute; reflexivity|]. vm_compute. reflexivity. }
  exists event0, ks, t. split; [|eauto 6]. exists pre0, 0, (World.got [] (sad_said event0)). split; [vm_compute; reflexivity|]. split; [vm_compute; reflexivity|]. split; [vm_compute; reflexivity|]. split; [|auto].
  exists (d_raw event0 ++ s! "a"). split; [vm_compute; reflexivity|]. split; vm_compute; reflexivity.
Qed.

(*# C178_one_key_is_enough_at_depth
   The same at any depth, once the recursion may be deep enough, in a ledger taken in from an empty one with verification on, if every credential in the chains that start from this one is in good standing.
##
Example C178_at_depth_case : sized_hash mix /\ finds_all no_floats (fun _ _ => true) /\ textual own_knot /\ reads_back knotted own_knot /\
  reached no_floats mix toy knotted own_knot accepts_all young (fun _ _ => true) own_chain /\ (forall pre, len (l_tel own_chain pre) <= 2 ^ 32) /\
  verify_acdc no_floats mix toy knotted accepts_all young 1 (view no_floats own_chain) cred_b [GPaths [csigs_b]] (Some false) [] = Ok (true, []) /\
  (exists ev ks t, refers no_floats (view no_floats own_chain) cosigned_b ev ks t /\ t_thold t = VInt 2 /\ len ks = 2 /\ exists v, nth_error ks 0 = Some v /\ verfer_verify toy v lent_b (d_raw cred_b) = Ok true) /\
  bext_of (sp_pather cosigned_b) = Ok (s! "-") /\ NoDup (sp_sigers cosigned_b) /\ Forall (fun x => i_index x = 0 /\ i_raw x = lent_b) (sp_sigers cosigned_b) /\ len (sp_sigers cosigned_b) = 2 /\
  verdict (verify_acdc no_floats mix toy knotted accepts_all young 9 (view no_floats own_chain) cred_b [GPaths [cosigned_b]] None []) = Ok true.
Proof.
  split; [exact mix_sized|]. split; [intros l said _; reflexivity|]. split; [exact knot_textual|]. split; [exact knot_read|]. split; [exact chain_reached|]. split; [exact own_short|]. split; [exact own_accepted|].
  split; [exact cosigned_b_refers|]. split; [vm_compute; reflexivity|]. split; [repeat constructor; cbn; intuition discriminate|]. split; [repeat constructor|]. split; vm_compute; reflexivity.
Qed.
#*)
Lemma C178_one_key_depth_l (canon : bytes -> option bytes) (hash : bytes -> bytes -> bytes) (cr : crypto) (messages_of : bytes -> R (list message)) (group_text : group -> R bytes)
    (schema_check : bytes -> bytes -> R bool) (age : bytes -> R Z) (seen_said : ledger -> bytes -> bool) (l : ledger) (age' : bytes -> R Z) (e : sadder) (g : list group) (there : bool)
    (p : sad_path_sig) (ev : sadder) (ks : list matter) (t : tholder) (k i : N) (sig : bytes) (v : matter) :
  sized_hash hash -> finds_all canon seen_said -> textual group_text -> reads_back messages_of group_text -> reached canon hash cr messages_of group_text schema_check age seen_said l ->
  (forall pre, len (l_tel l pre) <= 2 ^ 32) -> (forall s, descends canon (view canon l) (d_ked e) s -> standing canon age' (view canon l) s) ->
  verify_acdc canon hash cr messages_of schema_check age' 1 (view canon l) e g (Some false) [] = Ok (there, []) ->
  bext_of (sp_pather p) = Ok (s! "-") -> refers canon (view canon l) p ev ks t -> t_thold t = VInt (Z.of_N k) -> 1 <= k ->
  nth_error ks (N.to_nat i) = Some v -> verfer_verify cr v sig (d_raw e) = Ok true ->
  NoDup (sp_sigers p) -> Forall (fun x => i_index x = i /\ i_raw x = sig) (sp_sigers p) -> k <= len (sp_sigers p) ->
  exists bound, forall fuel deep seen, (bound <= fuel)%nat ->
    exists seen', verify_acdc canon hash cr messages_of schema_check age' fuel (view canon l) e [GPaths [p]] deep seen = Ok (there, seen').
Proof.
  intros SH FA TX RB RE LT DS H B RF TK K1 V C ND F L.
  destruct (C162_at_depth_l canon hash cr messages_of group_text schema_check age seen_said l age' e g [GPaths [p]] there SH FA TX RB RE LT DS H) as (b & Q). exists b. intros fuel deep seen LE. apply (Q fuel deep seen LE).
  now apply (one_endorses canon cr (view canon l) (d_raw e) p ev ks t k i sig v).
Qed.
