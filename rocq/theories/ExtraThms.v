(** Proofs of the theorems on further signatures on accepted events. *)
From Coq Require Import String.
From Coq Require Import NArith ZArith QArith Bool List Lia.
From Verif Require Import Base Tables Matter Indexer Prims Json Tholder Common Saider Diger Sadder Signer Prefixer Pather Short Verify Ingest Events.
From Verif Require Import SpecPrims SpecTholder SpecSaider SpecSadder SpecSigner SpecLog SpecIngest SpecExtra World.
From Verif Require Import BaseFacts SadderFacts TholderThms VerifyFacts VerifyThms ExtraFacts.
Import ListNotations.
Open Scope N_scope.

(** ** Cases *)
Definition stray (i : N) : indexer := Ix (s! "A") [] i i.
(** Two keys but weights for one. *)
Definition event_w := Eval vm_compute in got no_event (
  let* ks := ks_verfers_qb64 toy keys0 in
  let* nd := ks_digers_qb64 mix toy keys1 in
  incept no_floats mix ks (Some (VArr [VStr (s! "1")])) (Some nd) (Some (VStr (s! "2"))) None None None None None None (Some (s! "E")) None None).
Definition sigs_w := Eval vm_compute in signed keys0 event_w.
Lemma built_w : (let* ks := ks_verfers_qb64 toy keys0 in
  let* nd := ks_digers_qb64 mix toy keys1 in
  incept no_floats mix ks (Some (VArr [VStr (s! "1")])) (Some nd) (Some (VStr (s! "2"))) None None None None None None (Some (s! "E")) None None) = Ok event_w.
Proof. vm_compute. reflexivity. Qed.
Lemma signed_w : (exists l, ks_sign mix toy (fun _ => []) keys0 (d_raw event_w) None = Ok l /\ map fst l = sigs_w) /\ Forall (verifies toy (got [] (serder_verfers event_w)) (d_raw event_w)) sigs_w.
Proof.
  split. { eexists. split; [vm_compute; reflexivity|]. reflexivity. }
  repeat constructor; (eexists; split; [vm_compute; reflexivity|]); vm_compute; reflexivity.
Qed.
Lemma governs1 : exists ks t, governing no_floats (view no_floats log1) pre0 1 event1 ks t /\ len ks = 2 /\ field_of (d_ked event1) (s! "i") (VStr pre0) /\ ordinal (d_ked event1) 1 /\
  legible no_floats (view no_floats log1) pre0 1 ks /\ settled no_floats (view no_floats log1) pre0 1 ks t.
Proof.
  assert (serder_with_raw no_floats (d_raw event0) = Ok event0) as R0 by (vm_compute; reflexivity).
  assert (get_key_event (view no_floats log1) pre0 0 = Ok (d_raw event0)) as G0 by (vm_compute; reflexivity).
  assert (exists ks, serder_verfers event1 = Ok ks /\ len ks = 2 /\ forallb (fun m => is_ok (infil m)) ks = true) as (ks & K1 & K2 & K3).
  { eexists. split; [vm_compute; reflexivity|]. split; vm_compute; reflexivity. }
  assert (exists t, serder_tholder no_floats event1 = Ok (Some t) /\ t_weighted t = false) as (t & T1 & T2). { eexists. split; [vm_compute; reflexivity|]. vm_compute. reflexivity. }
  assert (exists ds, serder_digers event0 = Ok ds /\ forallb (fun m => is_ok (infil m)) ds = true) as (ds & D1 & D2). { eexists. split; [vm_compute; reflexivity|]. vm_compute. reflexivity. }
  assert (exists nt, serder_ntholder no_floats event0 = Ok (Some nt) /\ t_weighted nt = false) as (nt & N1 & N2). { eexists. split; [vm_compute; reflexivity|]. vm_compute. reflexivity. }
  assert (forall l, forallb (fun m => is_ok (infil m)) l = true -> printable l) as P.
  { intros l H. apply Forall_forall. intros m I. rewrite forallb_forall in H. specialize (H m I). destruct (infil m); try discriminate. eauto. }
  assert (of_type (d_ked event0) (s! "icp")) as T0 by (apply type_text; vm_compute; reflexivity).
  assert (forall e', announcing no_floats (view no_floats log1) pre0 1 e' -> e' = event0) as A.
  { intros e' (b & said & ilk & (text & G & S & _) & T & W). change (asked_for 1 - 1) with 0 in *. assert (text = d_raw event0) as -> by congruence. assert (b = event0) as -> by congruence.
    rewrite (type_once _ _ _ T T0) in W. destruct W as [(_ & ->)|(N & _)]; auto. elim N. now left. }
  exists ks, t. split. { exists (s! "rot"), event1. split; [apply type_text; vm_compute; reflexivity|]. split; [left; split; [right; now left|reflexivity]|auto]. }
  split; auto. split; [apply pre_field; vm_compute; reflexivity|]. split; [apply sn_field; vm_compute; reflexivity|]. split.
  - split; auto. intros e' ds' E D. apply A in E. subst e'. rewrite D1 in D. injection D as <-. auto.
  - split; [intros W; congruence|]. intros e' ds' nt' E D N. apply A in E. subst e'. rewrite N1 in N. injection N as <-. intros W. congruence.
Qed.

(*# C154_verification_answers_refuted
   No key is needed to bring verification down. Take any accepted event, in any store, and attach one more signature whose index is the number of the keys the event
   is signed with: verification panics. The rest of the signature does not matter.
##
Example C154_case : verify_key_event no_floats mix toy no_messages 1 (view no_floats log1) event1 [GSigs sigs1] None [] = Ok (false, []) /\
  (exists ks t, governing no_floats (view no_floats log1) pre0 1 event1 ks t /\ len ks = 2 /\ field_of (d_ked event1) (s! "i") (VStr pre0) /\ ordinal (d_ked event1) 1) /\
  verify_key_event no_floats mix toy no_messages 1 (view no_floats log1) event1 [GSigs sigs1; GSigs [stray 2]] None [] = Panic /\
  verify_key_event no_floats mix toy no_messages 1 (view no_floats log1) event1 [GSigs sigs1; GSigs [stray 3]] None [] = Err EVerification.
Proof.
  split; [vm_compute; reflexivity|]. split; [destruct governs1 as (ks & t & A & B & C & D & _); exists ks, t; auto|]. split; vm_compute; reflexivity.
Qed.
#*)
Lemma C154_refuted_l (canon : bytes -> option bytes) (hash : bytes -> bytes -> bytes) (cr : crypto) (messages_of : bytes -> R (list message)) (fuel : nat) (st : store) (e : sadder)
    (g : list group) (deep : option bool) (seen : list bytes) (r : bool * list bytes) (pre : bytes) (n : N) (ks : list matter) (t : tholder) (x : indexer) :
  verify_key_event canon hash cr messages_of fuel st e g deep seen = Ok r ->
  field_of (d_ked e) (s! "i") (VStr pre) -> ordinal (d_ked e) n -> governing canon st pre n e ks t -> i_index x = len ks ->
  verify_key_event canon hash cr messages_of fuel st e (g ++ [GSigs [x]]) deep seen = Panic.
Proof.
  intros H P S G I. destruct r as (ex, seen'). apply accepted_inv in H as (f & pre' & p & sn & ilk & said & (ks', t') & found & -> & A). destruct (again _ _ _ _ _ _ _ _ _ _ _ _ _ _ _ _ _ _ _ A) as (rot & _ & _ & V).
  rewrite V. cbn [fst snd] in *. rewrite groups_app. destruct A as [Hpre Hp Hsn Hilk Hsaid Hplace Hkeys Hfound He HL Hprior Hst]. cbn [fst snd] in *. rewrite Hfound, bind_Ok.
  apply pre_field in P. apply sn_field in S. assert (pre' = pre) as -> by congruence. assert (sn = n) as -> by congruence. apply type_text in Hilk.
  destruct (governing_keys _ _ _ _ _ _ _ _ Hilk Hkeys) as (G' & _). destruct (governing_once _ _ _ _ _ _ _ _ _ G G') as (<- & <-). cbn [check_groups check_sigs]. rewrite I, N.ltb_irrefl.
  replace (nth_error ks (N.to_nat (len ks))) with (@None matter); [reflexivity|]. symmetry. apply nth_error_None. unfold len. lia.
Qed.
(*# C154_ingestion_answers_refuted
   So does a stream: if ingesting one that starts with a key event succeeds, the same event with one more such signature brings ingestion down, whatever follows it.
##
Example C154_stream_case : let ingest := ingest_messages no_floats mix toy in
  let ms (t : bytes) : R (list message) := Ok [MPayload (d_raw event0); MGroup (GQuadlets (if beq t (s! "good") then [GSigs sigs0] else [GSigs sigs0; GSigs [stray 2]]))] in
  snd (ingest ms sigs_text (fun _ _ => Ok true) (fun _ => Ok 0%Z) (fun _ _ => false) 5%nat empty (s! "good") None None) = Ok tt /\
  snd (ingest ms sigs_text (fun _ _ => Ok true) (fun _ => Ok 0%Z) (fun _ _ => false) 5%nat empty (s! "bad") None None) = Panic.
Proof. split; vm_compute; reflexivity. Qed.
#*)
Lemma C154_stream_l (canon : bytes -> option bytes) (hash : bytes -> bytes -> bytes) (cr : crypto) (messages_of : bytes -> R (list message)) (group_text : group -> R bytes)
    (schema_check : bytes -> bytes -> R bool) (age : bytes -> R Z) (seen_said : ledger -> bytes -> bool) (fuel : nat) (l l' : ledger) (stream stream' : bytes) (deep verify : option bool)
    (raw : bytes) (g : list group) (rest rest' : list message) (e : sadder) (ilk pre : bytes) (n : N) (ks : list matter) (t : tholder) (x : indexer) :
  messages_of stream = Ok (MPayload raw :: MGroup (GQuadlets g) :: rest) -> messages_of stream' = Ok (MPayload raw :: MGroup (GQuadlets (g ++ [GSigs [x]])) :: rest') ->
  verify <> Some false -> ingest_messages canon hash cr messages_of group_text schema_check age seen_said fuel l stream deep verify = (l', Ok tt) ->
  serder_with_raw canon raw = Ok e -> of_type (d_ked e) ilk -> In ilk [s! "icp"; s! "rot"; s! "ixn"] ->
  field_of (d_ked e) (s! "i") (VStr pre) -> ordinal (d_ked e) n -> governing canon (view canon l) pre n e ks t -> i_index x = len ks ->
  ingest_messages canon hash cr messages_of group_text schema_check age seen_said fuel l stream' deep verify = (l, Panic).
Proof.
  intros M M' V H E T I P S G X. unfold ingest_messages in *. rewrite M in H. rewrite M'. cbn [ingest_loop] in *.
  assert (has_code [s! "icp"; s! "rot"; s! "ixn"] ilk = true) as HI by (destruct I as [<-|[<-|[<-|[]]]]; reflexivity).
  destruct (ingest_one _ _ _ _ _ _ _ _ fuel deep verify l [] raw (Some (MGroup (GQuadlets g)))) as [r| |] eqn:O; [|discriminate|discriminate]. clear H.
  assert (ingest_one canon hash cr messages_of group_text schema_check age seen_said fuel deep verify l [] raw (Some (MGroup (GQuadlets (g ++ [GSigs [x]])))) = Panic) as ->; [|reflexivity].
  unfold ingest_one in *. apply bind_ok in O as (i & SN & O). rewrite SN, bind_Ok. cbv zeta in *. destruct (beq (vi_ident i) (s! "KERI")).
  - rewrite E, bind_Ok in *. apply bind_ok in O as (said & SA & O). rewrite SA, bind_Ok in *. rewrite bind_Ok in *. apply type_text in T. rewrite T, bind_Ok, HI in *. apply bind_ok in O as (r1 & R1 & _).
    unfold there in *. assert (or_else verify true && negb (has_code [] said) = true) as TH by (destruct verify as [[]|]; [reflexivity|now elim V|reflexivity]). rewrite TH in *.
    rewrite (C154_refuted_l _ _ _ _ _ _ _ _ _ _ _ _ _ _ _ _ R1 P S G X). reflexivity.
  - exfalso. destruct (beq (vi_ident i) (s! "ACDC")); [|discriminate]. apply bind_ok in O as (c & C & _). change (serder_new canon None (Some raw) None None None = Ok e) in E.
    change (creder_new canon None (Some raw) None None None = Ok c) in C. unfold serder_new, creder_new in *. apply bind_ok in E as (a & A & E). apply bind_ok in C as (b & B & C).
    rewrite A in B. injection B as <-. destruct (beq (d_ident a) (s! "KERI")) eqn:K; [|discriminate]. apply beq_eq in K. rewrite K in C. discriminate.
Qed.
(*# C154_verification_answers_partial
   Otherwise attachments cannot do it. Take an event that is accepted with some signatures and attach instead any groups whatsoever in which no signature has the number
   of keys as its index: verification answers or reports an error. The keys and announced digests must have texts, weighted thresholds a weight with a small denominator for each key.
   Missing for the full statement: the index equal to the number of keys; thresholds with other weights; events that no signatures make acceptable.
##
Example C154_answers_case : verify_key_event no_floats mix toy no_messages 1 (view no_floats log1) event1 [GSigs sigs1] None [] = Ok (false, []) /\
  (exists ks t, governing no_floats (view no_floats log1) pre0 1 event1 ks t /\ len ks = 2 /\ field_of (d_ked event1) (s! "i") (VStr pre0) /\ ordinal (d_ked event1) 1 /\
    legible no_floats (view no_floats log1) pre0 1 ks /\ settled no_floats (view no_floats log1) pre0 1 ks t) /\ sized_hash mix /\
  verify_key_event no_floats mix toy no_messages 1 (view no_floats log1) event1 [GSigs [stray 1; stray 7]] None [] = Err EForeign.
Proof.
  split; [vm_compute; reflexivity|]. split; [exact governs1|]. split; [exact mix_sized|]. vm_compute. reflexivity.
Qed.
#*)
Lemma C154_partial_l (canon : bytes -> option bytes) (hash : bytes -> bytes -> bytes) (cr : crypto) (messages_of : bytes -> R (list message)) (fuel : nat) (st : store) (e : sadder)
    (g g' : list group) (deep : option bool) (seen : list bytes) (r : bool * list bytes) (pre : bytes) (n : N) (ks : list matter) (t : tholder) :
  sized_hash hash -> verify_key_event canon hash cr messages_of fuel st e g deep seen = Ok r ->
  field_of (d_ked e) (s! "i") (VStr pre) -> ordinal (d_ked e) n -> governing canon st pre n e ks t -> legible canon st pre n ks -> settled canon st pre n ks t ->
  ~ indexed g' (len ks) -> verify_key_event canon hash cr messages_of fuel st e g' deep seen <> Panic.
Proof.
  intros SH H P S G (PK & PD) (SK & SN) NI. destruct r as (ex, seen'). apply accepted_inv in H as (f & pre' & p & sn & ilk & said & (ks', t') & found & -> & A).
  destruct (again _ _ _ _ _ _ _ _ _ _ _ _ _ _ _ _ _ _ _ A) as (rot & _ & D & V). rewrite V. destruct A as [Hpre Hp Hsn Hilk Hsaid Hplace Hkeys Hfound He HL Hprior Hst]. cbn [fst snd] in *.
  apply pre_field in P. apply sn_field in S. assert (pre' = pre) as -> by congruence. assert (sn = n) as -> by congruence. apply type_text in Hilk.
  destruct (governing_keys _ _ _ _ _ _ _ _ Hilk Hkeys) as (G' & _). destruct (governing_once _ _ _ _ _ _ _ _ _ G G') as (<- & <-). clear G'.
  pose proof (groups_answer cr ks (d_raw e) g' NI) as NP. destruct (check_groups cr ks (d_raw e) g') as [l| |] eqn:CG; [|discriminate|congruence]. rewrite bind_Ok.
  apply found_below in CG as FB. destruct G as (ilk' & e' & _ & _ & _ & TH). apply threshold_new in TH as (v & TH).
  destruct (steady_answers canon v t (len ks) (map fst l) TH SK) as (b & ->). { apply Forall_map. exact FB. } rewrite bind_Ok. destruct b; [|discriminate]. cbn [negb].
  destruct D as [D|(e2 & ds & nt & A1 & A2 & A3 & D)]; [rewrite D; discriminate|]. rewrite D. destruct (shown_answers hash ks ds l SH PK (PD _ _ A1 A2) FB) as (idx & -> & BI). rewrite bind_Ok.
  destruct (next_new _ _ _ A3) as (v2 & T2). destruct (steady_answers canon v2 nt (len ds) idx T2 (SN _ _ _ A1 A2 A3) BI) as (b & ->). destruct b; discriminate.
Qed.

(*# C155_more_signatures_refuted
   A signature too many can bring verification down although all of them are good. The library builds an inception with two keys and the weights ["1"], both keys sign it and
   both signatures verify. With the first signature the event is accepted; with both, verification panics.
#*)
Lemma C155_refuted_l :
  exists ks nd e sigs, ks_verfers_qb64 toy keys0 = Ok ks /\ ks_digers_qb64 mix toy keys1 = Ok nd /\
    incept no_floats mix ks (Some (VArr [VStr (s! "1")])) (Some nd) (Some (VStr (s! "2"))) None None None None None None (Some (s! "E")) None None = Ok e /\
    ks_sign mix toy (fun _ => []) keys0 (d_raw e) None = Ok sigs /\ Forall (verifies toy (got [] (serder_verfers e)) (d_raw e)) (map fst sigs) /\
    verify_key_event no_floats mix toy no_messages 1 (view no_floats empty) e [GSigs (firstn 1 (map fst sigs))] None [] = Ok (false, []) /\
    verify_key_event no_floats mix toy no_messages 1 (view no_floats empty) e [GSigs (map fst sigs)] None [] = Panic.
Proof.
  assert (exists ks, ks_verfers_qb64 toy keys0 = Ok ks) as (ks & K) by (eexists; vm_compute; reflexivity). assert (exists nd, ks_digers_qb64 mix toy keys1 = Ok nd) as (nd & D) by (eexists; vm_compute; reflexivity).
  pose proof built_w as B. rewrite K, bind_Ok, D, bind_Ok in B. destruct signed_w as ((l & L & M) & F). exists ks, nd, event_w, l. do 4 (split; [assumption|]). rewrite M. split; [exact F|]. split; vm_compute; reflexivity.
Qed.
(*# C155_more_signatures_partial
   Further signatures never make an accepted event refused. Attach to an accepted event more signatures with indices of its keys, good or bad ones, for which the
   signature check gives an answer: verification gives the same answer as before, unless a weighted threshold makes it panic. It does not if weighted thresholds have a weight
   with a small denominator for each key. Missing for the full statement: thresholds with other weights.
##
Example C155_case : verify_key_event no_floats mix toy no_messages 1 (view no_floats log1) event1 [GSigs sigs1] None [] = Ok (false, []) /\
  (exists ks t, governing no_floats (view no_floats log1) pre0 1 event1 ks t /\ len ks = 2 /\ field_of (d_ked event1) (s! "i") (VStr pre0) /\ ordinal (d_ked event1) 1 /\
    legible no_floats (view no_floats log1) pre0 1 ks /\ settled no_floats (view no_floats log1) pre0 1 ks t) /\ sized_hash mix /\
  verify_key_event no_floats mix toy no_messages 1 (view no_floats log1) event1 [GSigs sigs1; GSigs [Ix (s! "A") (repeat x00 64) 1 1; Ix (s! "A") (repeat x00 64) 0 5]; GSigs sigs1] None [] = Ok (false, []).
Proof.
  split; [vm_compute; reflexivity|]. split; [exact governs1|]. split; [exact mix_sized|]. vm_compute. reflexivity.
Qed.
#*)
Lemma C155_partial_l (canon : bytes -> option bytes) (hash : bytes -> bytes -> bytes) (cr : crypto) (messages_of : bytes -> R (list message)) (fuel : nat) (st : store) (e : sadder)
    (g : list group) (deep : option bool) (seen : list bytes) (r : bool * list bytes) (pre : bytes) (n : N) (ks : list matter) (t : tholder) (more : list (list indexer)) :
  sized_hash hash -> verify_key_event canon hash cr messages_of fuel st e g deep seen = Ok r ->
  field_of (d_ked e) (s! "i") (VStr pre) -> ordinal (d_ked e) n -> governing canon st pre n e ks t -> legible canon st pre n ks ->
  Forall (fun x => exists v b, nth_error ks (N.to_nat (i_index x)) = Some v /\ verfer_verify cr v (i_raw x) (d_raw e) = Ok b) (concat more) ->
  (verify_key_event canon hash cr messages_of fuel st e (g ++ map GSigs more) deep seen = Ok r \/
   verify_key_event canon hash cr messages_of fuel st e (g ++ map GSigs more) deep seen = Panic /\
   (t_weighted t = true \/ exists e' nt, announcing canon st pre n e' /\ serder_ntholder canon e' = Ok (Some nt) /\ t_weighted nt = true)) /\
  (settled canon st pre n ks t -> verify_key_event canon hash cr messages_of fuel st e (g ++ map GSigs more) deep seen = Ok r).
Proof.
  intros SH H P S G (PK & PD) FM. destruct r as (ex, seen'). pose proof H as H0. apply accepted_inv in H as (f & pre' & p & sn & ilk & said & (ks', t') & found & -> & A).
  destruct (again _ _ _ _ _ _ _ _ _ _ _ _ _ _ _ _ _ _ _ A) as (rot & R0 & D & V). rewrite V. destruct A as [Hpre Hp Hsn Hilk Hsaid Hplace Hkeys Hfound He HL Hprior Hst]. cbn [fst snd] in *.
  apply pre_field in P. apply sn_field in S. assert (pre' = pre) as -> by congruence. assert (sn = n) as -> by congruence. apply type_text in Hilk.
  destruct (governing_keys _ _ _ _ _ _ _ _ Hilk Hkeys) as (G' & _). destruct (governing_once _ _ _ _ _ _ _ _ _ G G') as (<- & <-). clear G'.
  assert (exists l, check_groups cr ks (d_raw e) (map GSigs more) = Ok l) as (l & CL).
  { clear - FM. induction more as [|a more IH]; cbn [map check_groups]; [eauto|]. cbn [concat] in FM. apply Forall_app in FM as (FA & FM). destruct (IH FM) as (l & ->). clear - FA.
    assert (exists k, check_sigs cr ks (d_raw e) a = Ok k) as (k & ->); [|rewrite !bind_Ok; eauto]. induction FA as [|x a (v & b & N & W) FA (k & IH)]; cbn [check_sigs]; [eauto|].
    assert (N.to_nat (i_index x) < length ks)%nat as B by (apply nth_error_Some; congruence). replace (len ks <? i_index x) with false by (symmetry; apply N.ltb_ge; unfold len; lia).
    rewrite N, W, bind_Ok, IH, bind_Ok. eauto. }
  rewrite groups_app, Hfound, bind_Ok, CL, !bind_Ok, map_app.
  assert (check_groups cr ks (d_raw e) (g ++ map GSigs more) = Ok (found ++ l)) as CG by (rewrite groups_app, Hfound, bind_Ok, CL, bind_Ok; reflexivity). apply found_below in CG as FB.
  destruct G as (ilk' & e' & GG). pose proof GG as (_ & _ & _ & TH). apply threshold_new in TH as (v & TH). destruct (C43_partial_l canon None (Some v) None t (map fst found) (map fst l) TH) as (M1 & _).
  specialize (M1 He). rewrite <- map_app in *.
  assert (settled canon st pre n ks t -> satisfy t (map fst (found ++ l)) = Ok true) as M2.
  { intros (SK & _). destruct (steady_answers canon v t (len ks) (map fst (found ++ l)) TH SK) as (b & E). { apply Forall_map. exact FB. } destruct M1 as [M1|(_ & M1)]; congruence. }
  assert ((rot (found ++ l) = Ok tt \/ rot (found ++ l) = Panic /\ exists e' nt, announcing canon st pre n e' /\ serder_ntholder canon e' = Ok (Some nt) /\ t_weighted nt = true) /\
          (settled canon st pre n ks t -> rot (found ++ l) = Ok tt)) as (R1 & R2).
  { destruct D as [D|(e2 & ds & nt & A1 & A2 & A3 & D)]; [rewrite D; auto|]. rewrite D in *. apply Forall_app in FB as (FB1 & FB2). destruct (shown_answers hash ks ds l SH PK (PD _ _ A1 A2) FB2) as (idx2 & E2 & B2).
    destruct (shown_answers hash ks ds found SH PK (PD _ _ A1 A2) FB1) as (idx1 & E1 & B1). rewrite E1, bind_Ok in R0. rewrite (PartialFacts.revealed_app hash ks ds found l idx1 idx2 E1 E2), bind_Ok.
    destruct (satisfy nt idx1) as [[]| |] eqn:S1; try discriminate. destruct (next_new _ _ _ A3) as (v2 & T2). destruct (C43_partial_l canon None (Some v2) None nt idx1 idx2 T2) as (N1 & _). specialize (N1 S1).
    split.
    - destruct N1 as [-> |(W & ->)]; [left; reflexivity|right; split; [reflexivity|exists e2, nt; auto]].
    - intros (_ & SN). destruct (steady_answers canon v2 nt (len ds) (idx1 ++ idx2) T2 (SN _ _ _ A1 A2 A3)) as (b & E). { apply Forall_app; auto. } destruct N1 as [-> |(_ & N1)]; [reflexivity|congruence]. }
  split.
  - destruct M1 as [-> |(W & ->)]; [|right; split; [reflexivity|now left]]. rewrite bind_Ok. cbn [negb]. destruct R1 as [-> |(-> & W)]; [left; reflexivity|right; split; [reflexivity|now right]].
  - intros ST. rewrite (M2 ST), bind_Ok. cbn [negb]. rewrite (R2 ST). reflexivity.
Qed.
