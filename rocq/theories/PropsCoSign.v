(** Property C178: how many keys have signed an accepted credential. Theorem statements only; the proofs are in [CoSignThms]. *)
From Coq Require Import String.
From Coq Require Import NArith ZArith QArith Bool List Lia.
From Verif Require Import Base Tables Matter Indexer Prims Json Tholder Common Saider Diger Sadder Signer Prefixer Pather Short Verify Ingest Events SpecPrims SpecTholder SpecSaider SpecSadder SpecSigner SpecLog SpecIngest SpecCred SpecExtra SpecEndorse SpecAgain World Forgery Chain SadderFacts VerifyThms CredThms IngestThms ChainThms AgainThms EndorseThms DepthThms CoSignThms.
Import ListNotations.
Open Scope N_scope.

(** False as stated: a credential whose signer asks for two keys is accepted with the signature of one. It is given twice, in the form with two indices, and the second index, which nothing here depends on, differs.
   Both read from texts. *)
Theorem C178_threshold_of_signers_refuted :
  correct toy /\ sized_hash mix /\ exists l e said g ev ks t, reached no_floats mix toy runic rune_of accepts_all young (fun _ _ => true) l /\ held no_floats (view no_floats l) said e /\
  verify_acdc no_floats mix toy runic accepts_all young 9 (view no_floats l) e [GPaths [g]] (Some false) [] = Ok (true, []) /\
  about_all [GPaths [g]] g /\ refers no_floats (view no_floats l) g ev ks t /\ t_thold t = VInt 2 /\ len ks = 2 /\ (forall x, In x (sp_sigers g) -> i_index x = 0 /\ exists text v, siger_with_qb64 text None = Ok (x, v)).
Proof. exact C178_no_l. Qed.
Print Assumptions C178_threshold_of_signers_refuted.

(** In an accepted credential every group about the whole names a stored key event whose threshold its good signatures fulfil, equal ones counted once: with weights the keys that signed earn every clause; with a number k,
   at least k signatures verify, and if signatures with the same index are equal, they are made with k different keys. Missing for the full statement: with a number, signatures of one key that differ in their form or their
   second index are counted each. *)
Theorem C178_threshold_of_signers_partial :
  forall (canon : bytes -> option bytes) (hash : bytes -> bytes -> bytes) (cr : crypto) (messages_of : bytes -> R (list message)) (schema_check : bytes -> bytes -> R bool) (age : bytes -> R Z)
    (fuel : nat) (st : store) (e : sadder) (g : list group) (deep : option bool) (seen : list bytes) (r : bool * list bytes) (p : sad_path_sig),
  verify_acdc canon hash cr messages_of schema_check age fuel st e g deep seen = Ok r -> about_all g p ->
  exists ev ks t good, refers canon st p ev ks t /\ NoDup good /\ (forall x, In x good <-> In x (sp_sigers p) /\ verifies cr ks (d_raw e) x) /\ fulfilled t (map i_index good) /\
    ((forall x y, In x (sp_sigers p) -> In y (sp_sigers p) -> i_index x = i_index y -> x = y) -> forall k, t_thold t = VInt (Z.of_N k) ->
      exists idx, NoDup idx /\ k <= len idx /\ forall i, In i idx -> exists x, In x (sp_sigers p) /\ i_index x = i /\ verifies cr ks (d_raw e) x).
Proof. exact C178_partial_l. Qed.
Print Assumptions C178_threshold_of_signers_partial.

Example C178_partial_case : verify_acdc no_floats mix toy runic accepts_all young 9 (view no_floats issued) cred0 [GPaths [csigs0]] (Some false) [] = Ok (true, []) /\ about_all [GPaths [csigs0]] csigs0 /\
  (forall x y, In x (sp_sigers csigs0) -> In y (sp_sigers csigs0) -> i_index x = i_index y -> x = y) /\ length (sp_sigers csigs0) = 2%nat.
Proof.
  split; [exact issued_accepted|]. split; [exact issued_about|]. split; [|reflexivity]. intros x y [<-|[<-|[]]] [<-|[<-|[]]] H; try reflexivity; discriminate H.
Qed.

(** How far it is from holding: for every credential that is acceptable, with the store trusted, and every key event stored that has a number k as its threshold, one good signature of any one of its keys is enough. Written in
   k or more different ways, that is, with different forms or second indices, and nothing else, it has the credential accepted. *)
Theorem C178_one_key_is_enough :
  forall (canon : bytes -> option bytes) (hash : bytes -> bytes -> bytes) (cr : crypto) (messages_of : bytes -> R (list message)) (schema_check : bytes -> bytes -> R bool) (age : bytes -> R Z)
    (fuel : nat) (st : store) (e : sadder) (g : list group) (seen : list bytes) (r : bool * list bytes) (p : sad_path_sig) (ev : sadder) (ks : list matter) (t : tholder) (k i : N) (sig : bytes) (v : matter),
  verify_acdc canon hash cr messages_of schema_check age fuel st e g (Some false) seen = Ok r ->
  bext_of (sp_pather p) = Ok (s! "-") -> refers canon st p ev ks t -> t_thold t = VInt (Z.of_N k) -> 1 <= k ->
  nth_error ks (N.to_nat i) = Some v -> verfer_verify cr v sig (d_raw e) = Ok true ->
  NoDup (sp_sigers p) -> Forall (fun x => i_index x = i /\ i_raw x = sig) (sp_sigers p) -> k <= len (sp_sigers p) ->
  verify_acdc canon hash cr messages_of schema_check age fuel st e [GPaths [p]] (Some false) seen = Ok r.
Proof. exact C178_one_key_l. Qed.
Print Assumptions C178_one_key_is_enough.

Example C178_one_key_case : verify_acdc no_floats mix toy runic accepts_all young 9 (view no_floats issued) cred0 [GPaths [csigs0]] (Some false) [] = Ok (true, []) /\
  (exists ev ks t, refers no_floats (view no_floats issued) cosigned ev ks t /\ t_thold t = VInt 2 /\ len ks = 2 /\ exists v, nth_error ks 0 = Some v /\ verfer_verify toy v lent (d_raw cred0) = Ok true) /\
  bext_of (sp_pather cosigned) = Ok (s! "-") /\ NoDup (sp_sigers cosigned) /\ Forall (fun x => i_index x = 0 /\ i_raw x = lent) (sp_sigers cosigned) /\ len (sp_sigers cosigned) = 2.
Proof.
  split; [exact issued_accepted|]. split; [exact cosigned_refers|]. split; [vm_compute; reflexivity|].
  split; [repeat constructor; cbn; intuition discriminate|]. split; [repeat constructor|reflexivity].
Qed.

(** The same at any depth, once the recursion may be deep enough, in a ledger taken in from an empty one with verification on, if every credential in the chains that start from this one is in good standing. *)
Theorem C178_one_key_is_enough_at_depth :
  forall (canon : bytes -> option bytes) (hash : bytes -> bytes -> bytes) (cr : crypto) (messages_of : bytes -> R (list message)) (group_text : group -> R bytes)
    (schema_check : bytes -> bytes -> R bool) (age : bytes -> R Z) (seen_said : ledger -> bytes -> bool) (l : ledger) (age' : bytes -> R Z) (e : sadder) (g : list group) (there : bool)
    (p : sad_path_sig) (ev : sadder) (ks : list matter) (t : tholder) (k i : N) (sig : bytes) (v : matter),
  sized_hash hash -> finds_all canon seen_said -> textual group_text -> reads_back messages_of group_text -> reached canon hash cr messages_of group_text schema_check age seen_said l ->
  (forall pre, len (l_tel l pre) <= 2 ^ 32) -> (forall s, descends canon (view canon l) (d_ked e) s -> standing canon age' (view canon l) s) ->
  verify_acdc canon hash cr messages_of schema_check age' 1 (view canon l) e g (Some false) [] = Ok (there, []) ->
  bext_of (sp_pather p) = Ok (s! "-") -> refers canon (view canon l) p ev ks t -> t_thold t = VInt (Z.of_N k) -> 1 <= k ->
  nth_error ks (N.to_nat i) = Some v -> verfer_verify cr v sig (d_raw e) = Ok true ->
  NoDup (sp_sigers p) -> Forall (fun x => i_index x = i /\ i_raw x = sig) (sp_sigers p) -> k <= len (sp_sigers p) ->
  exists bound, forall fuel deep seen, (bound <= fuel)%nat ->
    exists seen', verify_acdc canon hash cr messages_of schema_check age' fuel (view canon l) e [GPaths [p]] deep seen = Ok (there, seen').
Proof. exact C178_one_key_depth_l. Qed.
Print Assumptions C178_one_key_is_enough_at_depth.

Example C178_at_depth_case : sized_hash mix /\ finds_all no_floats (fun _ _ => true) /\ textual own_knot /\ reads_back knotted own_knot /\
  reached no_floats mix toy knotted own_knot accepts_all young (fun _ _ => true) own_chain /\ (forall pre, len (l_tel own_chain pre) <= 2 ^ 32) /\
  verify_acdc no_floats mix toy knotted accepts_all young 1 (view no_floats own_chain) cred_b [GPaths [csigs_b]] (Some false) [] = Ok (true, []) /\
  (exists ev ks t, refers no_floats (view no_floats own_chain) cosigned_b ev ks t /\ t_thold t = VInt 2 /\ len ks = 2 /\ exists v, nth_error ks 0 = Some v /\ verfer_verify toy v lent_b (d_raw cred_b) = Ok true) /\
  bext_of (sp_pather cosigned_b) = Ok (s! "-") /\ NoDup (sp_sigers cosigned_b) /\ Forall (fun x => i_index x = 0 /\ i_raw x = lent_b) (sp_sigers cosigned_b) /\ len (sp_sigers cosigned_b) = 2 /\
  verdict (verify_acdc no_floats mix toy knotted accepts_all young 9 (view no_floats own_chain) cred_b [GPaths [cosigned_b]] None []) = Ok true.
Proof.
  split; [exact mix_sized|]. split; [intros l said _; reflexivity|]. split; [exact knot_textual|]. split; [exact knot_read|]. split; [exact chain_reached|]. split; [exact own_short|]. split; [exact own_accepted|].
  split; [exact cosigned_b_refers|]. split; [vm_compute; reflexivity|]. split; [repeat constructor; cbn; intuition discriminate|]. split; [repeat constructor|]. split; vm_compute; reflexivity.
Qed.
