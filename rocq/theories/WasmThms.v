From Coq Require Import String.
From Coq Require Import NArith ZArith Lia Bool List.
From Verif Require Import Base BaseFacts Util Matter Indexer Prims PrimsFacts PrimsThms Json JsonFacts Common Saider SpecSaider SaiderFacts SaiderThms Sadder Tholder TholderFacts Prefixer Short SpecPrims SpecJson SpecTholder SpecSadder
  SadderFacts JsonThms TholderThms SadderThms FieldThms FlowThms Tables Wasm SpecWasm.
Import ListNotations.
Open Scope N_scope.

(** ** Reading values and lists of names *)
Lemma js_value_ok canon text v : value_of_text canon text = Ok v -> js_value canon text = Ok v.
Proof. unfold value_of_text, js_value. destruct (pjson canon text); cbn [bind]; auto; discriminate. Qed.
Lemma js_value_err canon text e : value_of_text canon text = Err e -> js_value canon text = Panic.
Proof.
  unfold value_of_text, js_value. destruct (pjson canon text) as [j| |]; cbn [bind]; auto. intros H. exfalso.
  assert (forall j, (exists v, of_json j = Ok v) \/ of_json j = Panic) as Tot.
  { clear. induction j as [|b|n|n|t|s|l IH|m IH] using jval_ind'; try (left; eexists; reflexivity).
    - cbn [of_json]. destruct (_ <=? _); eauto.
    - cbn [of_json]. destruct (existsb _ _); eauto.
    - rewrite of_json_arr. assert ((exists v, ogo_arr l = Ok v) \/ ogo_arr l = Panic) as [(v & Q)|Q]; [|rewrite Q, bind_Ok; eauto|rewrite Q; auto].
      induction IH as [|x l [(v & Hx)|Hx] Hl [(vs & IHl)|IHl]]; cbn [ogo_arr]; fold ogo_arr; eauto; rewrite Hx; cbn [bind]; try rewrite IHl; cbn [bind]; eauto.
    - rewrite of_json_obj. assert (forall acc, (exists v, ogo_obj m acc = Ok v) \/ ogo_obj m acc = Panic) as Q;
        [|destruct (Q []) as [(v & Q1)|Q1]; rewrite Q1; cbn [bind]; eauto].
      induction IH as [|(k, x) l [(v & Hx)|Hx] Hl IHl]; intros acc; cbn [ogo_obj]; fold ogo_obj; eauto; cbn [snd] in Hx; rewrite Hx; cbn [bind]; eauto. }
  destruct (Tot j) as [(v & E)|E]; congruence.
Qed.
Lemma js_texts_opt names : js_texts (option_map strings names) = names.
Proof. destruct names as [l|]; [|reflexivity]. cbn [option_map js_texts]. unfold strings. rewrite map_map. cbn [or_else]. now rewrite map_id. Qed.
Lemma js_texts_strings names : or_else (js_texts (option_map strings names)) [] = match names with Some l => l | None => [] end.
Proof. rewrite js_texts_opt. now destruct names. Qed.

(** ** C156 *)
Lemma num_bound m n : number_num m = Ok n -> n < 2 ^ 128.
Proof.
  unfold number_num. intros H.
  assert (forall w, w <= 16 -> (if len (m_raw m) =? w then Ok (be_val (m_raw m)) else Panic) = Ok n -> n < 2 ^ 128) as F.
  { intros w Hw E. destruct (len (m_raw m) =? w) eqn:L; [|discriminate]. injection E as <-. apply N.eqb_eq in L. pose proof (be_val_lt (m_raw m)) as B. rewrite L in B.
    eapply N.lt_le_trans; [exact B|]. change (2 ^ 128) with (256 ^ 16). apply N.pow_le_mono_r; lia. }
  repeat (destruct (beq _ _); [eapply F; [|exact H]; lia|]). discriminate.
Qed.
Lemma sn_bound m n : seqner_sn m = Ok n -> n < 2 ^ 128.
Proof.
  unfold seqner_sn. intros H. apply bind_ok in H as (b & S & H). injection H as <-. apply slice_bytes_ok in S as (_ & L & ->). pose proof (be_val_lt (take (16 - 0) (drop 0 (m_raw m)))) as B.
  eapply N.lt_le_trans; [exact B|]. change (2 ^ 128) with (256 ^ 16). apply N.pow_le_mono_r; [lia|]. rewrite len_take. lia.
Qed.
Lemma out_denotes n : n < 2 ^ 128 -> denotes (js_of_u128 n) n.
Proof.
  intros H. unfold denotes, js_of_u128. cbn [low high]. rewrite N.shiftr_div_pow2. assert (n / 2 ^ 64 < 2 ^ 64) as Q by (apply N.div_lt_upper_bound; [discriminate|exact H]).
  rewrite (N.mod_small (n / 2 ^ 64)) by exact Q. split; [apply N.mod_lt; discriminate|]. split; [exact Q|]. pose proof (N.div_mod n (2 ^ 64) ltac:(discriminate)). lia.
Qed.
Lemma lor_lt a b k : a < 2 ^ k -> b < 2 ^ k -> N.lor a b < 2 ^ k.
Proof.
  intros A B. destruct (N.eq_dec (N.lor a b) 0) as [->|Z]; [apply N.neq_0_lt_0, N.pow_nonzero; discriminate|]. apply N.log2_lt_pow2; [lia|]. rewrite N.log2_lor.
  apply N.max_lub_lt.
  - destruct (N.eq_dec a 0) as [->|]; [|apply N.log2_lt_pow2; lia]. change (N.log2 0) with 0. destruct (N.eq_dec k 0) as [->|]; [|lia]. cbn in A, B. exfalso. apply Z. assert (b = 0) as -> by lia. reflexivity.
  - destruct (N.eq_dec b 0) as [->|]; [|apply N.log2_lt_pow2; lia]. change (N.log2 0) with 0. destruct (N.eq_dec k 0) as [->|]; [|lia]. cbn in A, B. exfalso. apply Z. assert (a = 0) as -> by lia. reflexivity.
Qed.
Lemma back_iff p n : denotes p n -> (u128_of_js p = n <-> n < 2 ^ 64).
Proof.
  intros (L & Hh & ->). unfold u128_of_js. split.
  - intros <-. now apply lor_lt.
  - intros B. assert (high p = 0) as -> by lia. rewrite N.lor_0_l. lia.
Qed.
Lemma in_bound p : low p < 2 ^ 64 -> high p < 2 ^ 64 -> u128_of_js p < 2 ^ 128.
Proof. intros L Hh. eapply N.lt_le_trans; [apply (lor_lt _ _ 64 Hh L)|]. apply N.pow_le_mono_r; lia. Qed.

(*# C156_numbers_go_out
   The number a script is given is the number: the two words that Number.num, Seqner.sn, Serder.sn and Serder._fn answer with are the high and the low half of what the function of the
   crate answers, and there is an answer exactly when there is one there.
##
Example C156_out_case : exists m p, number_with_numh (s! "10000000000000005") = Ok m /\ number_num m = Ok (2 ^ 64 + 5) /\ js_num m = Ok p /\ p = U128 5 1.
Proof. eexists. eexists. split; [vm_compute; reflexivity|]. split; [vm_compute; reflexivity|]. split; [vm_compute; reflexivity|]. reflexivity. Qed.
#*)
Lemma C156_out_l (m : matter) (e : sadder) :
  (forall n, number_num m = Ok n <-> exists p, js_num m = Ok p /\ denotes p n) /\
  (forall n, seqner_sn m = Ok n <-> exists p, js_sn m = Ok p /\ denotes p n) /\
  (forall n, serder_sn e = Ok n <-> exists p, js_serder_sn e = Ok p /\ denotes p n) /\
  (forall n, serder_fn e = Ok n <-> exists p, js_serder_fn e = Ok p /\ denotes p n).
Proof.
  assert (forall r : R N, (forall n, r = Ok n -> n < 2 ^ 128) -> forall n, r = Ok n <-> exists p, (let* n := r in Ok (js_of_u128 n)) = Ok p /\ denotes p n) as G.
  { intros r B n. split.
    - intros ->. exists (js_of_u128 n). split; [reflexivity|]. apply out_denotes. now apply B.
    - intros (p & E & D). apply bind_ok in E as (k & E & P). injection P as <-. rewrite E. pose proof (out_denotes k (B k E)) as (_ & _ & D1). destruct D as (_ & _ & D). congruence. }
  split; [apply G, num_bound|]. split; [apply G, sn_bound|]. split.
  - apply G. intros n H. unfold serder_sn in H. apply bind_ok in H as (k & _ & H). eapply num_bound, H.
  - apply G. intros n H. unfold serder_fn in H. apply bind_ok in H as ([k|] & _ & H); [|discriminate]. eapply num_bound, H.
Qed.

(*# C156_numbers_come_back_refuted
   A number that a script hands back is not always the number it was given: the conversion joins the two words without shifting the high one. The sequence number of an event, read by
   Serder.sn and handed to Seqner.new_with_sn, becomes another one, and so does the number of Number.num handed to Number.new_with_num: 2^64 becomes 1.
##
Example C156_back_case : u128_of_js (js_of_u128 (2 ^ 64 + 2)) = 3 /\ u128_of_js (js_of_u128 77) = 77.
Proof. split; vm_compute; reflexivity. Qed.
#*)
Lemma C156_refuted_l : exists m p m' s',
  number_with_numh (s! "10000000000000000") = Ok m /\ number_num m = Ok (2 ^ 64) /\ js_num m = Ok p /\
  js_number_with_num p = Ok m' /\ number_num m' = Ok 1 /\ js_seqner_with_sn p = Ok s' /\ seqner_sn s' = Ok 1.
Proof.
  eexists. eexists. eexists. eexists. split; [vm_compute; reflexivity|]. split; [vm_compute; reflexivity|]. split; [vm_compute; reflexivity|].
  split; [vm_compute; reflexivity|]. split; [vm_compute; reflexivity|]. split; vm_compute; reflexivity.
Qed.

(*# C156_numbers_come_back_exactly
   A number handed back always makes a number, and the same one exactly when it is below 2^64, whichever way it is handed in: to Number.new_with_num, Seqner.new_with_sn, or the constructors
   Number and Seqner.
##
Example C156_exactly_case : exists p m, js_num (Mt (s! "N") 0 [x00; x00; x00; x00; x00; x00; x01; x02]) = Ok p /\ denotes p 258 /\ js_number_with_num p = Ok m /\ number_num m = Ok 258.
Proof.
  eexists. eexists. split; [vm_compute; reflexivity|]. split; [vm_compute; auto|]. split; vm_compute; reflexivity.
Qed.
#*)
Lemma C156_exactly_l (p : u128_js) (n : N) : denotes p n ->
  (exists m k, js_number_with_num p = Ok m /\ number_num m = Ok k /\ (k = n <-> n < 2 ^ 64)) /\
  (exists m k, js_seqner_with_sn p = Ok m /\ seqner_sn m = Ok k /\ (k = n <-> n < 2 ^ 64)) /\
  (exists m k, js_number_new (Some p) None None None None None None = Ok m /\ number_num m = Ok k /\ (k = n <-> n < 2 ^ 64)) /\
  (exists m k, js_seqner_new (Some p) None None None None None None = Ok m /\ seqner_sn m = Ok k /\ (k = n <-> n < 2 ^ 64)).
Proof.
  intros D. pose proof (back_iff p n D) as B. destruct D as (L & Hh & _). pose proof (in_bound p L Hh) as I.
  destruct (C34_l _ I) as (m & _ & _ & N1 & N2 & _). destruct (C35_round_l _ I) as (s & _ & _ & S1 & S2 & _).
  split; [exists m, (u128_of_js p); auto|]. split; [exists s, (u128_of_js p); auto|]. split; [exists m, (u128_of_js p); auto|]. exists s, (u128_of_js p). auto.
Qed.

(** ** C157 *)
Lemma built_object canon code raw kind ked sad s : (forall x, sad = Some x -> exists m, d_ked x = VObj m) -> serder_new canon code raw kind ked sad = Ok s -> exists m, d_ked s = VObj m.
Proof.
  intros X H. unfold serder_new in H. apply bind_ok in H as (s' & H & G). destruct (negb _); [discriminate|]. injection G as <-. unfold sadder_new in H. destruct raw as [raw|].
  - destruct (raw_ok _ _ _ _ H) as (_ & _ & t & _ & _ & _ & _ & _ & F & _). destruct (field_obj _ _ _ F) as (m & E & _). eauto.
  - destruct ked as [k|].
    + destruct (ked_ok _ _ _ _ H) as (z & t & sa & _ & F & _ & _ & ->). cbn [d_ked]. destruct (field_obj _ _ _ F) as (m & E & _). eauto.
    + destruct sad as [x|]; [|discriminate]. injection H as <-. now apply X.
Qed.
Lemma scripted_object canon s : scripted canon s -> exists m, d_ked s = VObj m.
Proof.
  induction 1 as [code raw kind ked sad s _ IH H|ked code kind s H].
  - unfold js_serder_new in H. apply bind_ok in H as (k & _ & H). eapply built_object; [|exact H]. exact IH.
  - unfold js_serder_with_ked in H. apply bind_ok in H as (k & _ & H). eapply built_object; [|exact H]. discriminate.
Qed.

(*# C157_body_given_refuted
   Serder.ked never answers: whatever event a script has built, asking for its body traps. The body is an object, and the bindings turn it into text with a function that is for strings and
   unwrap its error.
##
Definition js_event : bytes := s! "{""v"":""KERI10JSON000065_"",""t"":""rct"",""d"":""EAAAAAAAAAAAAAAAAAAAAAAAAAAAAAAAAAAAAAAAAAAA"",""i"":"""",""s"":""0""}".
Example C157_body_case : exists s, js_serder_with_ked (fun _ => None) js_event None None = Ok s /\ scripted (fun _ => None) s /\ js_ked s = Panic.
Proof. eexists. split; [vm_compute; reflexivity|]. split; [|vm_compute; reflexivity]. apply (scripted_with_ked _ js_event None None). vm_compute. reflexivity. Qed.
#*)
Lemma C157_body_l (canon : bytes -> option bytes) (s : sadder) : scripted canon s -> js_ked s = Panic.
Proof. intros H. apply scripted_object in H as (m & E). unfold js_ked. rewrite E. reflexivity. Qed.

(*# C157_saidify_refuted
   Saider.saidify never answers: on a text whose value has a SAID computed, the bindings trap when they turn the completed value into text; where the function of the crate is an error or
   panics, so does it.
##
Example C157_saidify_case : value_of_text (fun _ => None) (s! "{""d"":"""",""a"":1}") = Ok (VObj [(s! "d", VStr []); (s! "a", VInt 1)]) /\
  is_ok (saidify pretend (VObj [(s! "d", VStr []); (s! "a", VInt 1)]) None None None []) = true /\
  js_saidify (fun _ => None) pretend (s! "{""d"":"""",""a"":1}") None None None None = Panic.
Proof. split; [vm_compute; reflexivity|]. split; vm_compute; reflexivity. Qed.
#*)
Lemma C157_saidify_l (canon : bytes -> option bytes) (hash : bytes -> bytes -> bytes) (text : bytes) (code kind label : option bytes) (ignore : option (list (option bytes))) :
  (forall r, js_saidify canon hash text code kind label ignore <> Ok r) /\
  (forall v names, value_of_text canon text = Ok v -> ignore = option_map strings names ->
     (js_saidify canon hash text code kind label ignore = Panic <->
      saidify hash v code kind label (match names with Some l => l | None => [] end) = Panic \/ exists r, saidify hash v code kind label (match names with Some l => l | None => [] end) = Ok r)).
Proof.
  assert (forall v i r, saidify hash v code kind label i = Ok r -> exists m, snd r = VObj m) as O.
  { intros v i (s & out) H. change (saidify hash v code kind label i) with (saidify hash v (Some (or_else code (s! "E"))) kind (Some (or_else label (s! "d"))) i) in H.
    destruct (saidify_ok _ _ _ _ _ _ _ _ H) as (m & md & k' & ser & q & _ & _ & _ & _ & _ & _ & _ & _ & _ & ->). cbn [snd]. eauto. }
  split.
  - intros r H. unfold js_saidify in H. apply bind_ok in H as (v & _ & H). apply bind_ok in H as (x & S & H). destruct (O _ _ _ S) as (m & E). rewrite E in H. discriminate.
  - intros v names V ->. unfold js_saidify. rewrite (js_value_ok _ _ _ V), bind_Ok, js_texts_strings. set (l := match names with Some l => l | None => [] end).
    destruct (saidify hash v code kind label l) as [x|e|] eqn:S; cbn [bind].
    + destruct (O _ _ _ S) as (m & E). rewrite E. cbn [to_string expect bind]. split; eauto.
    + split; [discriminate|]. intros [?|(r & ?)]; discriminate.
    + tauto.
Qed.

(*# C157_handed_out_partial
   What a script can do instead: the bytes of an event read from bytes are the text of its body, and Saider.new_with_sad gives the identifier that saidify would have given. Full statement: Serder.ked
   and Saider.saidify give the body and the completed data.
##
Example C157_instead_case : exists s, js_serder_new (fun _ => None) None (Some js_event) None None None = Ok s /\ js_value (fun _ => None) (d_raw s) = Ok (d_ked s).
Proof. eexists. split; [vm_compute; reflexivity|]. vm_compute. reflexivity. Qed.
#*)
Lemma C157_partial_l (canon : bytes -> option bytes) (hash : bytes -> bytes -> bytes) :
  (forall code raw kind ked sad s, js_serder_new canon code (Some raw) kind ked sad = Ok s -> js_value canon (d_raw s) = Ok (d_ked s)) /\
  (forall text m code kind label names x out, sized_hash hash -> value_of_text canon text = Ok (VObj m) ->
     saidify hash (VObj m) (Some code) kind label (match names with Some l => l | None => [] end) = Ok (x, out) ->
     js_said_with_sad canon hash text label kind (option_map strings names) (Some code) = Ok x).
Proof.
  split.
  - intros code raw kind ked sad s H. unfold js_serder_new in H. apply bind_ok in H as (k & _ & H). apply js_value_ok.
    destruct (C87_l serder_new canon code kind None raw [] k None sad None s) as (_ & _ & V & _); [unfold constructors; cbn [In]; tauto|exact H|exact V].
  - intros text m code kind label names x out SH V H. unfold js_said_with_sad. rewrite (js_value_ok _ _ _ V), bind_Ok, js_texts_opt.
    destruct (C101_new_l hash m code [] kind label _ x out SH H) as (A & _). unfold said_with_sad. replace (or_else names []) with (match names with Some i => i | None => [] end) by (now destruct names). exact A.
Qed.

(** ** C158 *)
(*# C158_bad_text_is_error_refuted
   A text that is not JSON traps at every binding that takes a value, where a Rust caller would be handed an error: the reader's error is unwrapped.
##
Example C158_bad_case : exists e, pjson (fun _ => None) (s! "{'a':1}") = Err e /\ value_of_text (fun _ => None) (s! "{'a':1}") = Err e.
Proof. eexists. split; vm_compute; reflexivity. Qed.
#*)
Lemma C158_refuted_l (canon : bytes -> option bytes) (hash : bytes -> bytes -> bytes) (text : bytes) (e : err) : value_of_text canon text = Err e ->
  (forall limen sith, js_tholder_new canon (Some text) limen sith = Panic) /\ js_tholder_with_thold canon text = Panic /\ js_tholder_with_sith canon text = Panic /\
  (forall label kind ignore code raw qb64b qb64 qb2, js_said_new canon hash (Some text) label kind ignore code raw qb64b qb64 qb2 = Panic) /\
  (forall label kind ignore code, js_said_with_sad canon hash text label kind ignore code = Panic) /\
  (forall code kind label ignore, js_saidify canon hash text code kind label ignore = Panic) /\
  (forall self prefixed versioned kind label ignore, js_said_verify canon hash self text prefixed versioned kind label ignore = Panic) /\
  (forall allows code raw qb64b qb64 qb2, js_prefixer_new canon hash (Some text) allows code raw qb64b qb64 qb2 = Panic) /\
  (forall allows code, js_prefixer_with_ked canon hash text allows code = Panic) /\
  (forall self prefixed, js_prefixer_verify canon hash self text prefixed = Panic) /\
  (forall code raw kind sad, js_serder_new canon code raw kind (Some text) sad = Panic) /\
  (forall code kind, js_serder_with_ked canon text code kind = Panic).
Proof.
  intros H. assert (js_value canon text = Panic) as P by (now apply (js_value_err canon text e)).
  unfold js_tholder_new, js_tholder_with_thold, js_tholder_with_sith, js_said_new, js_said_with_sad, js_saidify, js_said_verify, js_prefixer_new, js_prefixer_with_ked, js_prefixer_verify,
    js_serder_new, js_serder_with_ked, js_value_opt. rewrite P. repeat split.
Qed.

(*# C158_good_text_partial
   Everything else is as for a Rust caller: a text that reads as a value makes each binding do what the function of the crate does with that value, errors included; and the bindings' own reading traps
   on exactly the texts that are not JSON or that the loader of the crate panics on. Full statement: a text that is not JSON is an error.
##
Example C158_good_case : value_of_text (fun _ => None) (s! "[""1/2"", ""1/2""]") = Ok (VArr [VStr (s! "1/2"); VStr (s! "1/2")]) /\
  js_tholder_with_sith (fun _ => None) (s! "[""1/2"", ""1/2""]") = tholder_with_sith (fun _ => None) (VArr [VStr (s! "1/2"); VStr (s! "1/2")]) /\
  is_ok (js_tholder_with_sith (fun _ => None) (s! "[""1/2"", ""1/2""]")) = true.
Proof. split; [vm_compute; reflexivity|]. split; vm_compute; reflexivity. Qed.
#*)
Lemma C158_partial_l (canon : bytes -> option bytes) (hash : bytes -> bytes -> bytes) (text : bytes) :
  (js_value canon text = Panic <-> (exists e, pjson canon text = Err e) \/ exists j, pjson canon text = Ok j /\ unloadable j) /\
  (forall v names, value_of_text canon text = Ok v ->
    js_tholder_with_thold canon text = tholder_with_thold canon v /\ js_tholder_with_sith canon text = tholder_with_sith canon v /\
    (forall limen, js_tholder_new canon (Some text) limen None = tholder_new canon (Some v) limen None /\ js_tholder_new canon None limen (Some text) = tholder_new canon None limen (Some v)) /\
    (forall label kind code raw qb64b qb64 qb2, js_said_new canon hash (Some text) label kind (option_map strings names) code raw qb64b qb64 qb2 =
       said_new hash (Some v) label kind (match names with Some l => l | None => [] end) code raw qb64b qb64 qb2) /\
    (forall label kind code, js_said_with_sad canon hash text label kind (option_map strings names) code = said_with_sad hash v label kind names code) /\
    (forall self prefixed versioned kind label, js_said_verify canon hash self text prefixed versioned kind label (option_map strings names) =
       said_verify hash self v prefixed versioned kind label (match names with Some l => l | None => [] end)) /\
    (forall code raw qb64b qb64 qb2, js_prefixer_new canon hash (Some text) (option_map strings names) code raw qb64b qb64 qb2 = prefixer_new hash (Some v) names code raw qb64b qb64 qb2) /\
    (forall code, js_prefixer_with_ked canon hash text (option_map strings names) code = prefixer_with_ked hash v names code) /\
    (forall self prefixed, js_prefixer_verify canon hash self text prefixed = prefixer_verify hash self v prefixed) /\
    (forall code raw kind sad, js_serder_new canon code raw kind (Some text) sad = serder_new canon code raw kind (Some v) sad) /\
    (forall code kind, js_serder_with_ked canon text code kind = serder_with_ked canon v code kind)).
Proof.
  split.
  - unfold js_value. pose proof (pjson_np canon text) as N. destruct (pjson canon text) as [j|e|].
    + rewrite of_json_panic. split; [intros H; right; eauto|]. intros [(e & E)|(j' & E & H)]; congruence.
    + split; [eauto|reflexivity].
    + congruence.
  - intros v names V. apply js_value_ok in V.
    unfold js_tholder_new, js_tholder_with_thold, js_tholder_with_sith, js_said_new, js_said_with_sad, js_said_verify, js_prefixer_new, js_prefixer_with_ked, js_prefixer_verify,
      js_serder_new, js_serder_with_ked, js_value_opt. rewrite V, js_texts_strings, js_texts_opt. repeat split.
Qed.

(** ** C159 *)
Lemma thold_data canon a b c t : tholder_new canon a b c = Ok t -> wfv (t_thold t) /\ (depth (t_thold t) < 128)%nat /\ (forall s, tholder_sith t = Ok s -> wfv s /\ (depth s < 128)%nat).
Proof.
  intros H. apply accepted in H as [(k & T)|(cs & T)].
  - destruct T as [Hk (n & Hn & ->)]. cbn [t_thold]. unfold u32_max in Hk. split; [cbn [wfv]; unfold is_i64; lia|]. split; [cbn [depth]; lia|].
    unfold tholder_sith. cbn [t_weighted t_thold to_i64]. rewrite bind_Ok. intros s E. injection E as <-. split; [|cbn [depth]; lia]. cbn [wfv].
    assert (i64_hex (Z.of_N k) = to_hex k) as ->. { unfold i64_hex. f_equal. rewrite Z.mod_small; lia. }
    apply utf8_ascii. unfold ascii. destruct (to_hex_lower k) as ((_ & A & _) & _); [unfold u128_max; lia|]. apply forallb_forall. intros x Hx. specialize (A x Hx).
    assert (forallb is_ascii hex_alphabet = true) as F by reflexivity. rewrite forallb_forall in F. now apply F.
  - destruct (vals_wfv cs (wt_wf _ _ T)) as (W1 & W2). assert (forall c : list bytes, (depth (VArr (map VStr c)) <= 1)%nat) as D1 by (intros d; apply arr_depth; apply Forall_map; apply Forall_forall; intros; cbn [depth]; lia).
    assert (depth (vals (canon_texts cs)) <= 2)%nat as D2 by (apply arr_depth; apply Forall_map; apply Forall_forall; intros; apply D1).
    rewrite (wt_thold _ _ T). split; [exact W1|]. split; [lia|]. unfold tholder_sith. rewrite (wt_weighted _ _ T), (wt_thold _ _ T). unfold vals at 1. cbn [to_vec]. rewrite bind_Ok. intros s E.
    destruct (canon_texts cs) as [|d [|d' r]] eqn:C; cbn [map] in E; injection E as <-.
    + split; [exact W1|]. lia.
    + inversion W2; subst. split; [assumption|]. specialize (D1 d). lia.
    + split; [exact W1|]. change (depth (vals (d :: d' :: r)) < 128)%nat. lia.
Qed.

(*# C159_texts_read_back
   The texts a script handles mean what the values of the crate mean. For data without floats nested no deeper than 127, verifying an identifier or a prefix against its JSON text gives the verdict of the
   crate on the data; completed data verify against the identifier that completed them; and the texts that Tholder.thold and Tholder.sith give make the same threshold again.
##
Example C159_case : exists t a b, js_tholder_new (fun _ => None) None None (Some (s! "[[""1/2"",""1/2""],[""1""]]")) = Ok t /\ js_thold t = Ok a /\ js_sith t = Ok b /\
  a = s! "[[""1/2"",""1/2""],[""1""]]" /\ SpecTholder.keys (t_thold t) = 3.
Proof. eexists. eexists. eexists. split; [vm_compute; reflexivity|]. split; [vm_compute; reflexivity|]. split; [vm_compute; reflexivity|]. split; vm_compute; reflexivity. Qed.
#*)
Lemma C159_l (canon : bytes -> option bytes) (hash : bytes -> bytes -> bytes) :
  (forall v self prefixed versioned kind label names, data v -> nests 127 v ->
     js_said_verify canon hash self (to_json v) prefixed versioned kind label (option_map strings names) =
     said_verify hash self v prefixed versioned kind label (match names with Some l => l | None => [] end)) /\
  (forall v self prefixed, data v -> nests 127 v -> js_prefixer_verify canon hash self (to_json v) prefixed = prefixer_verify hash self v prefixed) /\
  (forall m code kind label names x out prefixed versioned, sized_hash hash -> data (VObj m) -> nests 127 (VObj m) ->
     saidify hash (VObj m) (Some code) kind label (match names with Some l => l | None => [] end) = Ok (x, out) ->
     js_said_verify canon hash x (to_json out) prefixed versioned kind label (option_map strings names) = Ok true) /\
  (forall thold limen sith t, js_tholder_new canon thold limen sith = Ok t -> t_thold t <> VArr [] -> SpecTholder.keys (t_thold t) < 2 ^ 27 ->
     exists a b, js_thold t = Ok a /\ js_sith t = Ok b /\ js_tholder_with_thold canon a = Ok t /\ js_tholder_with_sith canon b = Ok t).
Proof.
  assert (forall v self prefixed versioned kind label names, data v -> nests 127 v ->
     js_said_verify canon hash self (to_json v) prefixed versioned kind label (option_map strings names) =
     said_verify hash self v prefixed versioned kind label (match names with Some l => l | None => [] end)) as V.
  { intros v self prefixed versioned kind label names D N. destruct (C158_partial_l canon hash (to_json v)) as (_ & K). destruct (K v names (C49_l canon v D N)) as (_ & _ & _ & _ & _ & X & _). apply X. }
  split; [exact V|]. split.
  { intros v self prefixed D N. destruct (C158_partial_l canon hash (to_json v)) as (_ & K). destruct (K v None (C49_l canon v D N)) as (_ & _ & _ & _ & _ & _ & _ & _ & X & _). apply X. }
  split.
  - intros m code kind label names x out prefixed versioned SH D N H. set (i := match names with Some l => l | None => [] end) in *.
    assert (saidify hash (VObj m) (Some code) kind (Some (match label with Some l => l | None => s! "d" end)) i = Ok (x, out)) as H' by (rewrite <- H; destruct label; reflexivity).
    assert (data out) as D'. { eapply saidify_data; [exact SH|exact D|exact H']. }
    assert (nests 127 out) as N'. { eapply saidify_nests; [exact N|exact H']. }
    rewrite V by auto. exact (C58a_l hash (VObj m) out (Some code) kind label i x prefixed versioned H).
  - intros thold limen sith t H NE K. unfold js_tholder_new in H. apply bind_ok in H as (a & _ & H). apply bind_ok in H as (b & _ & H).
    destruct (thold_data _ _ _ _ _ H) as (W & Dp & Sd). destruct (C46_l canon a b limen t H NE K) as (l & s & _ & _ & E2 & _ & _ & T2 & T3 & _).
    destruct (Sd s E2) as (Ws & Ds). exists (to_json (t_thold t)), (to_json s). split; [reflexivity|]. split; [unfold js_sith; rewrite E2; reflexivity|]. split.
    + unfold js_tholder_with_thold. rewrite (js_value_ok canon _ (t_thold t)), bind_Ok by (apply value_of_text_print; auto). exact T3.
    + unfold js_tholder_with_sith. rewrite (js_value_ok canon _ s), bind_Ok by (apply value_of_text_print; auto). exact T2.
Qed.

(** ** C160 *)
Lemma assoc_in {A} k (l : list (bytes * A)) x : assoc k l = Some x -> In (k, x) l.
Proof. induction l as [|(k', y) l IH]; cbn [assoc]; [discriminate|]. destruct (beq k' k) eqn:E; [apply beq_eq in E; subst; intros [= ->]; now left|right; auto]. Qed.
Section Codex.
Variable variants codex : list (bytes * bytes).
Definition code_at (name : bytes) : option bytes := match assoc name variants with Some c => assoc c codex | None => None end.
Definition plain_name (a : bytes) : bytes := filter (fun c => negb (Byte.eqb c x5f)) a.
Definition sound {Z} (table : list (bytes * Z)) : bool :=
  forallb (fun r => beq (plain_name (fst r)) (plain_name (snd r)) && match assoc (snd r) codex with Some code => existsb (fun e => beq (fst e) code) table | None => false end) variants.
Definition apart : bool :=
  forallb (fun r => forallb (fun r' => match assoc (snd r) codex, assoc (snd r') codex with Some c, Some c' => negb (beq c c') || beq (fst r) (fst r') | _, _ => true end) variants) variants.
Lemma code_at_in name code : code_at name = Some code -> exists c, In (name, c) variants /\ assoc c codex = Some code.
Proof. unfold code_at. destruct (assoc name variants) as [c|] eqn:E; [|discriminate]. intros H. exists c. split; [now apply assoc_in|exact H]. Qed.
Lemma sound_ok {Z} (table : list (bytes * Z)) name code : sound table = true -> code_at name = Some code ->
  (exists name', same_name name name' /\ In (name', code) codex) /\ exists z, In (code, z) table.
Proof.
  intros S H. destruct (code_at_in _ _ H) as (c & I & A). unfold sound in S. rewrite forallb_forall in S. specialize (S _ I). cbn [fst snd] in S. rewrite A in S. apply andb_true_iff in S as (S1 & S2).
  apply beq_eq in S1. split; [exists c; split; [exact S1|now apply assoc_in]|]. apply existsb_exists in S2 as ((k & z) & S3 & S4). cbn [fst] in S4. apply beq_eq in S4. subst k. eauto.
Qed.
Lemma apart_ok a b code : apart = true -> code_at a = Some code -> code_at b = Some code -> a = b.
Proof.
  intros S A B. destruct (code_at_in _ _ A) as (c & I & E). destruct (code_at_in _ _ B) as (c' & I' & E'). unfold apart in S. rewrite forallb_forall in S. specialize (S _ I). rewrite forallb_forall in S.
  specialize (S _ I'). cbn [fst snd] in S. rewrite E, E', beq_refl in S. cbn [negb orb] in S. now apply beq_eq in S.
Qed.
End Codex.

(*# C160_codex
   Each name that the codexes offer to a script stands for the code that the codex of the crate gives to the name, underscores apart; different names stand for different codes; and each code is in the size table
   of the crate.
##
Example C160_case : js_matter_code (s! "Ed25519Seed") = Some (s! "A") /\ js_matter_code (s! "Blake3_256") = Some (s! "E") /\ js_indexer_code (s! "Ed448_Big_Crt") = Some (s! "3B") /\
  js_matter_code (s! "Ed25519Sed") = None.
Proof. repeat split; vm_compute; reflexivity. Qed.
#*)
Lemma C160_l :
  (forall name code, js_matter_code name = Some code -> exists name', same_name name name' /\ In (name', code) matter_codex) /\
  (forall name code, js_indexer_code name = Some code -> exists name', same_name name name' /\ In (name', code) indexer_codex) /\
  (forall a b code, js_matter_code a = Some code -> js_matter_code b = Some code -> a = b) /\
  (forall a b code, js_indexer_code a = Some code -> js_indexer_code b = Some code -> a = b) /\
  (forall name code, js_matter_code name = Some code -> exists z, In (code, z) matter_table) /\
  (forall name code, js_indexer_code name = Some code -> exists z, In (code, z) indexer_table).
Proof.
  assert (sound js_matter_variants matter_codex matter_table = true) as M by (vm_compute; reflexivity).
  assert (sound js_indexer_variants indexer_codex indexer_table = true) as I by (vm_compute; reflexivity).
  assert (apart js_matter_variants matter_codex = true) as MA by (vm_compute; reflexivity).
  assert (apart js_indexer_variants indexer_codex = true) as IA by (vm_compute; reflexivity).
  split; [intros name code H; now apply (sound_ok _ _ _ _ _ M H)|]. split; [intros name code H; now apply (sound_ok _ _ _ _ _ I H)|].
  split; [intros a b code; apply (apart_ok _ _ a b code MA)|]. split; [intros a b code; apply (apart_ok _ _ a b code IA)|].
  split; [intros name code H; now apply (sound_ok _ _ _ _ _ M H)|]. intros name code H; now apply (sound_ok _ _ _ _ _ I H).
Qed.

(*# C160_codex_complete_refuted
   The codexes do not offer every code of the crate. The codes of ECDSA over secp256r1, and no others, have no name: seed, signature and the two keys in the codex of primitives, and the four indexed signatures.
##
Example C160_missing_case : In (s! "ECDSA_256r1_Seed", s! "Q") matter_codex /\ js_matter_code (s! "ECDSA_256r1_Seed") = None /\ exists m, matter_of_code_raw (s! "Q") (repeat x00 32) = Ok m.
Proof. split; [vm_compute; tauto|]. split; [vm_compute; reflexivity|]. eexists. vm_compute. reflexivity. Qed.
#*)
Lemma C160_refuted_l :
  (forall name code, In (name, code) matter_codex -> ((forall js, js_matter_code js <> Some code) <-> In code [s! "Q"; s! "0I"; s! "1AAI"; s! "1AAJ"])) /\
  (forall name code, In (name, code) indexer_codex -> ((forall js, js_indexer_code js <> Some code) <-> In code [s! "E"; s! "F"; s! "2E"; s! "2F"])).
Proof.
  assert (forall variants codex missing,
    forallb (fun r => if existsb (beq (snd r)) missing then forallb (fun v => match assoc (snd v) codex with Some c => negb (beq c (snd r)) | None => true end) variants
                      else existsb (fun v => match code_at variants codex (fst v) with Some c => beq c (snd r) | None => false end) variants) codex = true ->
    forall name code, In (name, code) codex -> ((forall js, code_at variants codex js <> Some code) <-> In code missing)) as G.
  { intros variants codex missing F name code I. rewrite forallb_forall in F. specialize (F _ I). cbn [snd] in F. destruct (existsb (beq code) missing) eqn:E.
    - apply existsb_exists in E as (x & X & E). apply beq_eq in E. subst x. split; [auto|]. intros _ js H. destruct (code_at_in _ _ _ _ H) as (c & V & A). rewrite forallb_forall in F. specialize (F _ V).
      cbn [snd] in F. rewrite A, beq_refl in F. discriminate.
    - apply existsb_exists in F as ((v & c) & V & F). cbn [fst] in F. destruct (code_at variants codex v) as [c'|] eqn:A; [|discriminate]. apply beq_eq in F. subst c'. split.
      + intros H. destruct (H v A).
      + intros X. exfalso. assert (existsb (beq code) missing = true); [|congruence]. apply existsb_exists. exists code. split; [exact X|apply beq_refl]. }
  split; apply G; vm_compute; reflexivity.
Qed.
