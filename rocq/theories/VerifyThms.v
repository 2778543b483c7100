(** Proofs of the theorems on the verification of key events. *)
From Coq Require Import String.
From Coq Require Import NArith ZArith QArith Bool List Lia.
From Verif Require Import Base Tables Matter Indexer Prims Json Tholder Common Saider Diger Sadder Signer Prefixer Pather Short Verify Ingest Events.
From Verif Require Import Spec SpecPrims SpecTholder SpecSaider SpecSadder SpecPrefixer SpecSigner SpecLog World.
From Verif Require Import BaseFacts MatterText PrimsFacts SaiderFacts SaiderThms SignerThms SadderFacts SadderThms PrefixerThms DigerThms TholderFacts TholderThms StaleThms VerifyFacts.
Import ListNotations.
Open Scope N_scope.

Lemma type_text v t : text_at v (s! "t") = Ok t <-> of_type v t.
Proof.
  unfold text_at, of_type. split.
  - intros H. apply bind_ok in H as (x & X & H). apply index_field in X. destruct x; try discriminate. cbn in H. injection H as ->. exact X.
  - intros H. apply index_field in H. rewrite H. reflexivity.
Qed.
Lemma text_field v k t : text_at v k = Ok t <-> field_of v k (VStr t).
Proof.
  unfold text_at. split.
  - intros H. apply bind_ok in H as (x & X & H). apply index_field in X. destruct x; try discriminate. cbn in H. injection H as ->. exact X.
  - intros H. apply index_field in H. rewrite H. reflexivity.
Qed.
Lemma pre_field e t : serder_pre e = Ok t <-> field_of (d_ked e) (s! "i") (VStr t).
Proof. exact (proj1 (C110_l e t 0 true)). Qed.
Lemma sn_field e n : serder_sn e = Ok n <-> ordinal (d_ked e) n.
Proof. destruct (C110_l e [] n true) as (_ & _ & _ & _ & H & _). exact H. Qed.
Lemma est_field e b : serder_est e = Ok b <-> exists ilk, of_type (d_ked e) ilk /\ (b = true <-> In ilk establishing).
Proof. destruct (C110_l e [] 0 b) as (_ & _ & H & _). exact H. Qed.
Lemma type_once v t t' : of_type v t -> of_type v t' -> t = t'.
Proof. intros A B. apply index_field in A. apply index_field in B. congruence. Qed.
Lemma asked_mod n : as_u32 n = asked_for n.
Proof. reflexivity. Qed.
Lemma asked_small n : n < 2 ^ 32 -> asked_for n = n.
Proof. apply N.mod_small. Qed.

Lemma labels_required ked labels : verify_ked_labels ked labels = Ok true <-> Forall (has_field ked) labels /\ (exists m, ked = VObj m).
Proof.
  unfold verify_ked_labels. split.
  - intros H. apply bind_ok in H as (m & M & H). destruct ked; try discriminate. injection M as ->. injection H as H. split; [|eauto]. rewrite forallb_forall in H. apply Forall_forall. intros k K.
    specialize (H k K). unfold contains_key in H. destruct (assoc k m) as [x|] eqn:A; [|discriminate]. exists x. now apply field_assoc.
  - intros (H & m & ->). cbn [to_map]. rewrite bind_Ok. f_equal. apply forallb_forall. intros k K. rewrite Forall_forall in H. destruct (H k K) as (x & F). apply field_assoc in F. unfold contains_key. now rewrite F.
Qed.
Lemma labels_listed ilk labels : labels_of ilk = Ok labels <-> In (ilk, labels) required.
Proof.
  split.
  - intros H. apply labels_ok in H as [(-> & ->)|[(-> & ->)|(-> & ->)]]; [left|right; left|right; right; left]; reflexivity.
  - intros [[= <- <-]|[[= <- <-]|[[= <- <-]|[]]]]; reflexivity.
Qed.
Lemma stored_logged canon st pre said sn : check_stored canon st pre said sn = Ok tt <-> exists e, logged canon st pre (asked_for sn) e said.
Proof.
  split.
  - intros H. apply stored_ok in H as (t & e & A & B & C). exists e, t. auto.
  - intros (e & t & A & B & C). unfold check_stored. rewrite asked_mod, A, bind_Ok, B, bind_Ok, C, bind_Ok, beq_refl. reflexivity.
Qed.

Lemma mix_sized : sized_hash mix.
Proof.
  intros code n ser I. unfold mix. rewrite len_be_bytes. cbn [digest_sizes In] in I. repeat (destruct I as [[= <- <-]|I]; [reflexivity|]). destruct I.
Qed.

(*# C120_log_continuity
   An accepted key event has all the fields of its type and continues the log of its prefix. Its number is at most the number of events in the log, and the answer
   says whether it is below, that is, whether the event is there already; if so, the event stored under that number has its identifier. An inception has number
   zero and its identifier is the prefix. Any other event has a number of at least one and names in p the identifier of the event stored under the number
   before. (Numbers reach the store as 32-bit ones.)
##
Example C120_case : verify_key_event no_floats mix toy no_messages 1 (view no_floats empty) event0 [GSigs sigs0] None [] = Ok (false, []) /\
  verify_key_event no_floats mix toy no_messages 1 (view no_floats log1) event1 [GSigs sigs1] None [] = Ok (false, []) /\
  verify_key_event no_floats mix toy no_messages 1 (view no_floats log2) event2 [GSigs sigs2] None [] = Ok (false, []) /\
  verify_key_event no_floats mix toy no_messages 1 (view no_floats log3) event1 [GSigs sigs1] None [] = Ok (true, []) /\
  verify_key_event no_floats mix toy no_messages 1 (view no_floats log1) event2 [GSigs sigs2] None [] = Err EOutOfOrder.
Proof. repeat (match goal with |- _ /\ _ => split; [vm_compute; reflexivity|] end). vm_compute. reflexivity. Qed.
#*)
Lemma C120_l (canon : bytes -> option bytes) (hash : bytes -> bytes -> bytes) (cr : crypto) (messages_of : bytes -> R (list message)) (fuel : nat) (st : store) (e : sadder)
    (g : list group) (deep : option bool) (seen seen' : list bytes) (there : bool) :
  verify_key_event canon hash cr messages_of fuel st e g deep seen = Ok (there, seen') ->
  exists pre n said ilk labels count, field_of (d_ked e) (s! "i") (VStr pre) /\ ordinal (d_ked e) n /\ sad_said e = Ok said /\ of_type (d_ked e) ilk /\
    In (ilk, labels) required /\ Forall (has_field (d_ked e)) labels /\ count_key_events st pre = Ok count /\ n <= count /\
    (there = true <-> n < count) /\ (there = true -> exists e', logged canon st pre (asked_for n) e' said) /\
    (ilk = s! "icp" -> n = 0 /\ said = pre) /\
    (ilk <> s! "icp" -> 1 <= asked_for n /\ exists before p, logged canon st pre (asked_for n - 1) before p /\ field_of (d_ked e) (s! "p") (VStr p)).
Proof.
  intros H. apply accepted_inv in H as (f & pre & p & sn & ilk & said & keys & found & -> & A). destruct A as [Hpre Hp Hsn Hilk Hsaid Hplace Hkeys Hfound He (labels & HL & HV) Hprior Hst].
  destruct (place_ok _ _ _ _ _ _ _ _ _ Hplace Hpre) as (count & HC & D). exists pre, sn, said, ilk, labels, count.
  rewrite <- pre_field, <- sn_field. unfold of_type. rewrite <- text_field. apply labels_listed in HL. apply labels_required in HV as (HV & _). repeat (split; [assumption|]).
  assert (there = true -> exists e', logged canon st pre (asked_for sn) e' said) as G by (intros T; apply stored_logged; auto).
  destruct D as [(B & _ & -> & -> & ->)|(B & _ & L1 & L2 & ->)].
  - apply beq_eq in B. subst ilk. split; [lia|]. split; [|split; [exact G|split; [auto|intros []; reflexivity]]]. destruct (N.eqb_spec count 0); cbn [negb]; split; try discriminate; try lia; auto.
  - split; [lia|]. split. { destruct (N.eqb_spec sn count); cbn [negb]; split; try discriminate; try lia; auto. }
    split; [exact G|]. split. { intros ->. rewrite beq_refl in B. discriminate. }
    intros _. destruct Hprior as [(B' & _)|(_ & n & event & pe & psaid & P1 & P2 & P3 & P4 & P5 & _)]; [congruence|]. apply before_ok in P1 as (P1 & ->). split; [exact P1|].
    exists pe, psaid. split; [exists event; auto|]. now apply text_field.
Qed.

(** ** Signatures *)
Lemma governing_keys canon st e pre n keys t ilk : of_type (d_ked e) ilk -> keys_for canon st e pre n = Ok (keys, t) -> governing canon st pre n e keys t /\ (In ilk establishing \/ 1 <= asked_for n).
Proof.
  intros T H. unfold keys_for in H. apply bind_ok in H as (est & E & H). apply est_field in E as (ilk' & T' & B). rewrite (type_once _ _ _ T' T) in *. clear T' ilk'.
  assert (forall x, signing_keys canon x = Ok (keys, t) -> serder_verfers x = Ok keys /\ serder_tholder canon x = Ok (Some t)) as G.
  { intros x X. unfold signing_keys in X. apply bind_ok in X as (o & O & X). destruct o as [t'|]; [|discriminate]. apply bind_ok in X as (v & V & X). injection X as -> ->. auto. }
  destruct est.
  - split; [|left; now apply B]. exists ilk, e. split; auto. split; [left; split; [now apply B|reflexivity]|]. now apply G.
  - apply bind_ok in H as (m & M & H). apply bind_ok in H as (text & X & H). apply bind_ok in H as (e' & S & H). apply before_ok in M as (M & ->). split; [|right; exact M].
    exists ilk, e'. split; auto. split; [|now apply G]. right. split; [intros I; apply B in I; discriminate|]. exists text. auto.
Qed.

(*# C121_signatures_counted
   An accepted key event carries only groups of indexed signatures, each with the index of one of the keys the event is to be signed with: its own if it sets keys,
   else those of the last event before it that does. Those of the signatures that verify over the event's own bytes, under the key each one names, satisfy the
   threshold that comes with these keys.
##
Example C121_case : verify_key_event no_floats mix toy no_messages 1 (view no_floats empty) event0 [GSigs sigs0] None [] = Ok (false, []) /\
  verify_key_event no_floats mix toy no_messages 1 (view no_floats empty) event0 [GSigs (firstn 1 sigs0)] None [] = Err EVerification /\
  exists t, serder_tholder no_floats event0 = Ok (Some t) /\ tholder_num t = Ok (Some 2).
Proof. split; [vm_compute; reflexivity|]. split; [vm_compute; reflexivity|]. eexists. split; [vm_compute; reflexivity|]. vm_compute. reflexivity. Qed.
#*)
Lemma C121_l (canon : bytes -> option bytes) (hash : bytes -> bytes -> bytes) (cr : crypto) (messages_of : bytes -> R (list message)) (fuel : nat) (st : store) (e : sadder)
    (g : list group) (deep : option bool) (seen seen' : list bytes) (there : bool) :
  verify_key_event canon hash cr messages_of fuel st e g deep seen = Ok (there, seen') ->
  exists pre n keys t sigs good, field_of (d_ked e) (s! "i") (VStr pre) /\ ordinal (d_ked e) n /\ governing canon st pre n e keys t /\
    attached g sigs /\ Forall (fun x => i_index x < len keys) sigs /\ those (verifies cr keys (d_raw e)) sigs good /\ satisfy t (map i_index good) = Ok true.
Proof.
  intros H. apply accepted_inv in H as (f & pre & p & sn & ilk & said & (keys & t) & found & -> & A). destruct A as [Hpre Hp Hsn Hilk Hsaid Hplace Hkeys Hfound He (labels & HL & HV) Hprior Hst].
  cbn [fst snd] in *. apply type_text in Hilk. destruct (governing_keys _ _ _ _ _ _ _ _ Hilk Hkeys) as (G & _). apply groups_ok in Hfound as (HG & HS). apply sigs_ok in HS as (HI & good & T & ->).
  exists pre, sn, keys, t, (all_sigs g), good. rewrite <- pre_field, <- sn_field. repeat (split; [assumption|]). split; [now apply attached_all|]. split; auto. split; auto.
  rewrite map_map in He. exact He.
Qed.

Lemma satisfied_means canon v t idx : tholder_new canon None None (Some v) = Ok t -> satisfy t idx = Ok true -> fulfilled t idx.
Proof.
  intros H S. pose proof H as A. apply accepted in A as [(k & T)|(cs & T)].
  - left. rewrite (satisfy_numeric_eq k t idx T) in S. injection S as S. apply andb_true_iff in S as (S1 & S2). apply N.ltb_lt in S1. apply N.leb_le in S2. exists k. split; [|lia].
    destruct T as [Hk (n & Hn & ->)]. reflexivity.
  - right. split; [apply T|]. intros L. pose proof (wt_weighted _ _ T) as W. rewrite (satisfy_weighted_eq cs t idx T) in S. destruct (existsb _ idx) eqn:X; [discriminate|].
    destruct (C42_accepted_l canon None (Some v) None t idx H W L) as (ws & W1 & _ & D & _).
    { rewrite (keys_thold _ _ T) in L |- *. intros i I. destruct (N.leb_spec (t_size t) i) as [Z|Z]; [|rewrite (size_keys cs t T L) in Z; exact Z].
      assert (existsb (fun i => t_size t <=? i) idx = true) as Y by (apply existsb_exists; exists i; split; auto; now apply N.leb_le). congruence. }
    exists ws. split; auto. assert (satisfy t idx = Ok true) as S' by (rewrite (satisfy_weighted_eq cs t idx T), X; exact S). rewrite S' in D.
    destruct D as [D|[(_ & D)|(D & _)]]; [discriminate|exact D|discriminate].
Qed.
Lemma threshold_satisfied canon label e t idx : threshold_at canon label e = Ok (Some t) -> satisfy t idx = Ok true -> fulfilled t idx.
Proof.
  unfold threshold_at. intros H. apply bind_ok in H as (m & M & H). destruct (contains_key _ _); [|discriminate]. apply bind_ok in H as (v & V & H). apply bind_ok in H as (t' & T & H). injection H as ->.
  now apply (satisfied_means canon v).
Qed.
Lemma those_map {A B} (P : A -> Prop) (f : A -> B) l k : those P l k -> NoDup (map f l) -> NoDup (map f k).
Proof.
  intros T. induction T as [|x l k Px T IH|x l k Nx T IH]; cbn [map]; intros N; auto; inversion N as [|? ? N1 N2]; subst; auto. constructor; auto. intros I. apply N1.
  apply in_map_iff in I as (y & E & I). apply in_map_iff. exists y. split; auto. clear -T I. induction T; cbn in *; [tauto|destruct I; auto|auto].
Qed.
Lemma those_in {A} (P : A -> Prop) l k x : those P l k -> (In x k <-> In x l /\ P x).
Proof.
  intros T. induction T as [|y l k Py T IH|y l k Ny T IH]; cbn [In]; [tauto| |].
  - rewrite IH. split; [intros [<-|(I & Q)]; auto|intros ([<-|I] & Q); auto].
  - rewrite IH. split; [intros (I & Q); auto|intros ([<-|I] & Q); [contradiction|auto]].
Qed.

(*# C121_threshold_of_signers_refuted
   False as stated: an inception that asks for the signatures of both of its keys is accepted with one signature given twice.
#*)
Lemma C121_no_l : correct toy /\ sized_hash mix /\ exists e x t, serder_with_raw no_floats (d_raw e) = Ok e /\ serder_tholder no_floats e = Ok (Some t) /\ tholder_num t = Ok (Some 2) /\
  verify_key_event no_floats mix toy no_messages 1 (view no_floats empty) e [GSigs [x; x]] None [] = Ok (false, []).
Proof.
  split; [exact toy_correct|]. split; [exact mix_sized|]. exists event0, (hd (Ix [] [] 0 0) sigs0). eexists. split; [vm_compute; reflexivity|]. split; [vm_compute; reflexivity|].
  split; vm_compute; reflexivity.
Qed.

(*# C121_threshold_of_signers_partial
   The signatures counted fulfil the threshold: with a number k, at least k of the attached signatures verify, and if no index is given twice, these are made with k
   different keys of the list; with weights, the keys that signed earn every clause. Missing for the full statement: with a number, a signature given again is
   counted again.
##
Example C121_distinct_case : NoDup (map i_index sigs0) /\ verify_key_event no_floats mix toy no_messages 1 (view no_floats empty) event0 [GSigs sigs0] None [] = Ok (false, []).
Proof. split; [|vm_compute; reflexivity]. change (map i_index sigs0) with [0; 1]. repeat constructor; cbn; intuition discriminate. Qed.
#*)
Lemma C121_partial_l (canon : bytes -> option bytes) (hash : bytes -> bytes -> bytes) (cr : crypto) (messages_of : bytes -> R (list message)) (fuel : nat) (st : store) (e : sadder)
    (g : list group) (deep : option bool) (seen seen' : list bytes) (there : bool) :
  verify_key_event canon hash cr messages_of fuel st e g deep seen = Ok (there, seen') ->
  exists pre n keys t sigs good, field_of (d_ked e) (s! "i") (VStr pre) /\ ordinal (d_ked e) n /\ governing canon st pre n e keys t /\
    attached g sigs /\ those (verifies cr keys (d_raw e)) sigs good /\ fulfilled t (map i_index good) /\
    (NoDup (map i_index sigs) -> forall k, t_thold t = VInt (Z.of_N k) ->
      exists idx, NoDup idx /\ k <= len idx /\ forall i, In i idx -> exists x, In x sigs /\ i_index x = i /\ verifies cr keys (d_raw e) x).
Proof.
  intros H. apply C121_l in H as (pre & n & keys & t & sigs & good & A & B & G & C & D & T & S). exists pre, n, keys, t, sigs, good. repeat (split; [assumption|]).
  assert (fulfilled t (map i_index good)) as F. { destruct G as (ilk & e' & _ & _ & _ & G). eapply threshold_satisfied; [exact G|exact S]. }
  split; [exact F|]. intros N k K. exists (map i_index good). split; [now apply (those_map _ _ _ _ T)|]. split.
  - destruct F as [(k' & F1 & _ & F2)|(W & F)]; [rewrite K in F1; injection F1 as F1; lia|].
    destruct G as (ilk & e' & _ & _ & _ & G). unfold serder_tholder, threshold_at in G. apply bind_ok in G as (m & _ & G). destruct (contains_key _ _); [|discriminate].
    apply bind_ok in G as (v & _ & G). apply bind_ok in G as (t' & G & E). injection E as ->. apply accepted in G as [(k' & TT)|(cs & TT)].
    + destruct TT as [_ (nn & _ & ->)]. discriminate.
    + rewrite (wt_thold _ _ TT) in K. discriminate.
  - intros i I. apply in_map_iff in I as (x & <- & I). exists x. apply (those_in _ _ _ _ T) in I as (I & V). auto.
Qed.

(** ** Rotations *)
Lemma keys_read s l : serder_verfers s = Ok l -> Forall (fun v => exists t, exfil t = Ok v) l.
Proof.
  intros H. assert (exists m, d_ked s = VObj m) as M. { unfold serder_verfers in H. apply bind_ok in H as (m & M & _). destruct (d_ked s); try discriminate. eauto. }
  apply C88_l in H as [(ts & _ & T)|(_ & ->)]; auto. apply Forall_forall. intros x I. unfold texts_of in T. induction T as [|y z a b R T IH]; [destruct I|]. destruct I as [<-|I]; auto. destruct R as (q & _ & R & _). eauto.
Qed.
Lemma digests_read s l : serder_digers s = Ok l -> Forall (fun v => exists t, exfil t = Ok v) l.
Proof.
  intros H. assert (exists m, d_ked s = VObj m) as M. { unfold serder_digers in H. apply bind_ok in H as (m & M & _). destruct (d_ked s); try discriminate. eauto. }
  apply C88_l in H as [(ts & _ & T)|(_ & ->)]; auto. apply Forall_forall. intros x I. unfold texts_of in T. induction T as [|y z a b R T IH]; [destruct I|]. destruct I as [<-|I]; auto. destruct R as (q & _ & R & _). eauto.
Qed.
Lemma default_digest hash ser : sized_hash hash -> diger_new hash (Some ser) None None None None None = Ok (Mt (s! "E") 0 (hash (s! "E") ser)).
Proof.
  intros SH. destruct (C69a_l hash ser None SH) as (H & _). cbv zeta in H. destruct H as (d & D & C & R & B & _); [cbn; auto|]. rewrite D. f_equal.
  assert (has_code said_codes (s! "E") = true) as HS by reflexivity. destruct (said_built hash (s! "E") ser SH HS) as (B' & _). unfold diger_new in D. cbn [matter_new] in D.
  change (validate diger_codes (or_else None (s! "E"))) with (Ok tt) in D. cbn [or_else bind] in D. unfold digest in D. change (has_code hash_codes (s! "E")) with true in D. cbv iota in D.
  rewrite bind_Ok in D. cbn [matter_new] in D. rewrite B' in D. now injection D as <-.
Qed.
Lemma revealed_ok hash keys digers good l : sized_hash hash -> Forall (fun v => exists t, exfil t = Ok v) digers ->
  revealed hash keys digers (map (fun x => (i_index x, i_ondex x)) good) = Ok l -> exists shown, those (reveals hash keys digers) good shown /\ l = map i_ondex shown.
Proof.
  intros SH RD. revert l. induction good as [|x r IH]; intros l H. { cbn in H. injection H as <-. exists []. split; [constructor|reflexivity]. }
  cbn [map revealed] in H. apply bind_ok in H as (same & S & H). apply bind_ok in H as (l' & L & H). injection H as <-. apply IH in L as (shown & T & ->).
  destruct (N.ltb_spec (i_ondex x) (len digers)) as [O|O].
  - destruct (nth_error keys _) as [v|] eqn:V; [|discriminate]. destruct (nth_error digers _) as [d|] eqn:D; [|discriminate].
    apply bind_ok in S as (ser & I & S). rewrite (default_digest hash ser SH), bind_Ok in S. apply bind_ok in S as (a & A & S). apply bind_ok in S as (b & B & S). injection S as <-.
    assert (has_code said_codes (s! "E") = true) as HS by reflexivity. destruct (said_built hash (s! "E") ser SH HS) as (_ & W). destruct (wf_round _ W) as (t1 & b1 & T1 & _ & X1 & _).
    rewrite Forall_forall in RD. destruct (RD d (nth_error_In _ _ D)) as (q & Q). destruct (exfil_infil _ _ _ Q B) as (W' & _). destruct (wf_round _ W') as (t2 & b2 & T2 & _ & X2 & _).
    destruct (beq a b) eqn:E.
    + apply beq_eq in E. subst b. exists (x :: shown). split; [|reflexivity]. constructor; auto. exists v, d, ser. repeat (split; [assumption|]). congruence.
    + exists shown. split; [|reflexivity]. constructor; auto. intros (v' & d' & t & V' & D' & I' & E'). assert (a = b) as Z by congruence. rewrite Z, beq_refl in E. discriminate.
  - injection S as <-. exists shown. split; [|reflexivity]. constructor; auto. intros (v' & d' & t & V' & D' & I' & E').
    assert (N.to_nat (i_ondex x) < length digers)%nat by (apply nth_error_Some; congruence). unfold len in O. lia.
Qed.
Lemma rotation_ok canon hash st e pe pre n keys good ilk n' text said : sized_hash hash -> of_type (d_ked e) ilk -> In ilk establishing -> before n = Ok n' ->
  get_key_event st pre n' = Ok text -> serder_with_raw canon text = Ok pe -> sad_said pe = Ok said ->
  check_rotation canon hash st e pe pre n keys (map (fun x => (i_index x, i_ondex x)) good) = Ok tt ->
  exists e' digests nt shown, announcing canon st pre n e' /\ serder_digers e' = Ok digests /\ serder_ntholder canon e' = Ok (Some nt) /\ those (reveals hash keys digests) good shown /\
    satisfy nt (map i_ondex shown) = Ok true.
Proof.
  intros SH T I BN G1 G2 G3 H. unfold check_rotation in H. apply bind_ok in H as (est & E & H). apply est_field in E as (ilk' & T' & B). rewrite (type_once _ _ _ T' T) in B. destruct est; [|apply B in I; discriminate].
  apply bind_ok in H as (pest & P & H). apply est_field in P as (ilkp & Tp & Bp). apply bind_ok in H as ((digests & t) & NX & H). apply bind_ok in H as (idx & R & H). apply bind_ok in H as (ok & S & H).
  destruct ok; [|discriminate]. cbn [fst snd] in *. pose proof BN as BN'. apply before_ok in BN as (BN & ->).
  assert (logged canon st pre (asked_for n - 1) pe said) as LG by (exists text; auto).
  assert (forall x, next_keys canon x = Ok (digests, t) -> serder_digers x = Ok digests /\ (serder_ntholder canon x = Ok (Some t) \/ t = tholder_default)) as G.
  { intros x X. unfold next_keys in X. apply bind_ok in X as (d & D & X). apply bind_ok in X as (o & O & X). injection X as -> X. split; auto. destruct o; cbn in X; subst; auto. }
  assert (exists e', announcing canon st pre n e' /\ next_keys canon e' = Ok (digests, t)) as (e' & A & NX').
  { destruct pest.
    - exists pe. split; auto. exists pe, said, ilkp. split; auto. split; auto. left. split; auto. now apply Bp.
    - apply bind_ok in NX as (m & M & NX). rewrite BN' in M. injection M as <-. apply bind_ok in NX as (tx & X & NX). apply bind_ok in NX as (e' & Y & NX). exists e'. split; auto.
      exists pe, said, ilkp. split; auto. split; auto. right. split; [intros Z; apply Bp in Z; discriminate|]. exists tx. auto. }
  destruct (G _ NX') as (D & [O|O]).
  - destruct (revealed_ok hash keys digests good idx SH (digests_read _ _ D) R) as (shown & TH & ->). exists e', digests, t, shown. auto.
  - subst t. discriminate.
Qed.

(*# C122_rotation_honours_commitment
   An accepted rotation honours what the last establishment event before it announced. Of its signatures that verify, those count whose key has its Blake3 digest at the
   signature's other index in the list of announced digests, and these satisfy the announced threshold.
##
Example C122_case : verify_key_event no_floats mix toy no_messages 1 (view no_floats log1) event1 [GSigs sigs1] None [] = Ok (false, []) /\
  verify_key_event no_floats mix toy no_messages 1 (view no_floats log1) event1 [GSigs (firstn 1 sigs1)] None [] = Err EValidation /\ sized_hash mix.
Proof. split; [vm_compute; reflexivity|]. split; [vm_compute; reflexivity|]. exact mix_sized. Qed.
#*)
Lemma C122_l (canon : bytes -> option bytes) (hash : bytes -> bytes -> bytes) (cr : crypto) (messages_of : bytes -> R (list message)) (fuel : nat) (st : store) (e : sadder)
    (g : list group) (deep : option bool) (seen seen' : list bytes) (there : bool) :
  sized_hash hash -> verify_key_event canon hash cr messages_of fuel st e g deep seen = Ok (there, seen') -> of_type (d_ked e) (s! "rot") ->
  exists pre n keys t sigs good e' digests nt shown, field_of (d_ked e) (s! "i") (VStr pre) /\ ordinal (d_ked e) n /\ governing canon st pre n e keys t /\
    attached g sigs /\ those (verifies cr keys (d_raw e)) sigs good /\
    announcing canon st pre n e' /\ serder_digers e' = Ok digests /\ serder_ntholder canon e' = Ok (Some nt) /\ those (reveals hash keys digests) good shown /\
    satisfy nt (map i_ondex shown) = Ok true /\ fulfilled nt (map i_ondex shown).
Proof.
  intros SH H TY. apply accepted_inv in H as (f & pre & p & sn & ilk & said & (keys & t) & found & -> & A). destruct A as [Hpre Hp Hsn Hilk Hsaid Hplace Hkeys Hfound He (labels & HL & HV) Hprior Hst].
  cbn [fst snd] in *. apply type_text in Hilk. destruct (governing_keys _ _ _ _ _ _ _ _ Hilk Hkeys) as (G & _). apply groups_ok in Hfound as (HG & HS). apply sigs_ok in HS as (HI & good & T & ->).
  rewrite (type_once _ _ _ Hilk TY) in *. destruct Hprior as [(B & _)|(_ & n & event & pe & psaid & P1 & P2 & P3 & P4 & P5 & P6 & _)]; [discriminate|].
  destruct (rotation_ok canon hash st e pe pre sn keys good (s! "rot") n event psaid SH TY) as (e' & digests & nt & shown & A1 & A2 & A3 & A4 & A5); auto. { cbn. auto. }
  exists pre, sn, keys, t, (all_sigs g), good, e', digests, nt, shown. rewrite <- pre_field, <- sn_field. repeat (split; [assumption|]). split; [now apply attached_all|].
  repeat (split; [assumption|]). eapply threshold_satisfied; [exact A3|exact A5].
Qed.

(*# C122_all_announced_keys_refuted
   False as stated: after an inception that announces two next keys and asks for both, a rotation is accepted that one of these keys signed alone, its signature given twice.
#*)
Lemma C122_no_l : correct toy /\ sized_hash mix /\ exists e x nt, serder_with_raw no_floats (d_raw e) = Ok e /\ of_type (d_ked e) (s! "rot") /\
  serder_ntholder no_floats event0 = Ok (Some nt) /\ tholder_num nt = Ok (Some 2) /\
  verify_key_event no_floats mix toy no_messages 1 (view no_floats log1) e [GSigs [x; x]] None [] = Ok (false, []).
Proof.
  split; [exact toy_correct|]. split; [exact mix_sized|]. exists event1, (hd (Ix [] [] 0 0) sigs1). eexists. split; [vm_compute; reflexivity|]. split; [apply field_assoc; reflexivity|].
  split; [vm_compute; reflexivity|]. split; vm_compute; reflexivity.
Qed.

(*# C122_no_announcement_no_rotation
   After an establishment event that announces no next keys, or no threshold for them, no rotation is ever accepted, whoever signs it.
##
Example C122_abandoned_case : exists ks e pre e', ks_verfers_qb64 toy keys0 = Ok ks /\ incept no_floats mix ks None None None None None None None None None (Some (s! "E")) None None = Ok e /\
  serder_pre e = Ok pre /\ serder_digers e = Ok [] /\ rotate no_floats mix pre ks pre None 1 None (Some [s! "x"]) None None None None None None None None None = Ok e' /\
  verify_key_event no_floats mix toy no_messages 1 (view no_floats empty) e [GSigs (signed keys0 e)] None [] = Ok (false, []) /\
  verify_key_event no_floats mix toy no_messages 1 (view no_floats (insert_key_event empty pre (d_raw e))) e' [GSigs (signed keys0 e')] None [] = Err EValidation.
Proof. do 4 eexists. do 5 (split; [vm_compute; reflexivity|]). split; vm_compute; reflexivity. Qed.
#*)
Lemma C122_none_l (canon : bytes -> option bytes) (hash : bytes -> bytes -> bytes) (cr : crypto) (messages_of : bytes -> R (list message)) (fuel : nat) (st : store) (e : sadder)
    (g : list group) (deep : option bool) (seen : list bytes) (pre : bytes) (n : N) :
  sized_hash hash -> of_type (d_ked e) (s! "rot") -> field_of (d_ked e) (s! "i") (VStr pre) -> ordinal (d_ked e) n ->
  (forall e', announcing canon st pre n e' -> serder_digers e' = Ok [] \/ lacks (d_ked e') (s! "nt")) ->
  is_ok (verify_key_event canon hash cr messages_of fuel st e g deep seen) = false.
Proof.
  intros SH T P O N. destruct (verify_key_event _ _ _ _ _ _ _ _ _ _) as [(there & seen')| |] eqn:H; [|reflexivity|reflexivity]. exfalso.
  apply C122_l in H as (pre' & n' & keys & t & sigs & good & e' & digests & nt & shown & P' & O' & _ & _ & _ & A & D & NT & TH & S & _); auto.
  apply pre_field in P. apply pre_field in P'. apply sn_field in O. apply sn_field in O'. assert (pre' = pre) by congruence. assert (n' = n) by congruence. subst pre' n'.
  destruct (N _ A) as [Z|Z].
  - rewrite Z in D. injection D as <-. assert (shown = []) as ->. { destruct shown as [|x r]; auto. assert (In x good /\ reveals hash keys [] x) as (_ & v & d & q & _ & Q & _) by (apply (those_in _ _ _ _ TH); now left). destruct (N.to_nat (i_ondex x)); discriminate. }
    unfold serder_ntholder, threshold_at in NT. apply bind_ok in NT as (m & _ & NT). destruct (contains_key _ _); [|discriminate]. apply bind_ok in NT as (v & _ & NT). apply bind_ok in NT as (t' & NT & E). injection E as ->.
    destruct (C44_partial_l _ _ _ _ _ NT S) as (Q & _). discriminate.
  - unfold serder_ntholder, threshold_at in NT. apply bind_ok in NT as (m & _ & NT). destruct (contains_key _ _); [|discriminate]. apply bind_ok in NT as (v & V & _). apply index_field in V. exact (Z _ V).
Qed.
