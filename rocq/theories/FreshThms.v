(** Proofs of the theorems about taking in a stream again at depth. *)
From Coq Require Import String.
From Coq Require Import NArith ZArith QArith Bool List Lia.
From Verif Require Import Base Tables Matter Indexer Prims Json Tholder Common Saider Diger Sadder Signer Prefixer Pather Short Verify Ingest Events.
From Verif Require Import Spec SpecPrims SpecJson SpecCommon SpecTholder SpecSaider SpecSadder SpecPrefixer SpecSigner SpecLog SpecIngest SpecCred SpecExtra SpecEndorse SpecExact SpecAgain SpecStream World Forgery Chain.
From Verif Require Import BaseFacts MatterFacts MatterText PrimsFacts SaiderFacts SaiderThms SadderFacts SadderThms VerifyFacts VerifyThms ExtraFacts LogThms IngestThms CredThms ChainThms EndorseThms ExactThms AgainThms DepthThms RepeatThms StreamThms.
Import ListNotations.
Open Scope N_scope.

Section Fresh.
Variable canon : bytes -> option bytes.
Variable hash : bytes -> bytes -> bytes.
Variable cr : crypto.
Variable mo : bytes -> R (list message).
Variable group_text : group -> R bytes.
Variable schema_check : bytes -> bytes -> R bool.
Variable age : bytes -> R Z.
Variable seen_said : ledger -> bytes -> bool.
Hypothesis FA : finds_all canon seen_said.
Hypothesis TX : textual group_text.

Lemma key_known l pre e text said s : serder_with_raw canon (d_raw e ++ text) = Ok e -> sad_said e = Ok said -> known canon (insert_key_event l pre (d_raw e ++ text)) s -> known canon l s \/ s = said.
Proof.
  intros RD S [(p & t & x & I & R & Q)|[K|K]]; [|left; now right; left|left; now right; right]. cbn in I. unfold added in I. destruct (beq p pre); [|left; left; eauto 6]. apply in_app_or in I as [I|[<-|[]]]; [left; left; eauto 6|]. right. congruence.
Qed.
Lemma tel_known l pre e text said s : serder_with_raw canon (d_raw e ++ text) = Ok e -> sad_said e = Ok said -> known canon (insert_transaction_event l pre (d_raw e ++ text)) s -> known canon l s \/ s = said.
Proof.
  intros RD S [K|[(p & t & x & I & R & Q)|K]]; [left; now left| |left; now right; right]. cbn in I. unfold added in I. destruct (beq p pre); [|left; right; left; eauto 6]. apply in_app_or in I as [I|[<-|[]]]; [left; right; left; eauto 6|]. right. congruence.
Qed.
Lemma acdc_known l e text said s : creder_with_raw canon (d_raw e ++ text) = Ok e -> sad_said e = Ok said -> known canon (insert_acdc l (d_raw e ++ text)) s -> known canon l s \/ s = said.
Proof.
  intros RD S [K|[K|(t & x & I & R & Q)]]; [left; now left|left; now right; left|]. cbn in I. apply in_app_or in I as [I|[<-|[]]]; [left; right; right; eauto 6|]. right. congruence.
Qed.

(** One message with a new identifier. *)
Lemma one_fresh fuel deep verify l seen raw next l' seen' said : verify <> Some false -> ingest_one canon hash cr mo group_text schema_check age seen_said fuel deep verify l seen raw next = Ok (l', seen') ->
  Forall (known canon l) seen -> identified canon raw said -> ~ known canon l said ->
  (forall s, known canon l' s -> known canon l s \/ s = said) /\
  forall l2 age' fuel' deep' verify' seen2 x s, extends l' l2 -> Forall (known canon l2) seen2 ->
    ingest_one canon hash cr mo group_text schema_check age' seen_said fuel' deep' verify' l2 seen2 raw next = Ok (x, s) -> x = l2 /\ Forall (known canon l2) s.
Proof.
  intros NV H F ID NK. unfold ingest_one in H. apply bind_ok in H as (i & HI & H). cbv zeta in H.
  assert (or_else verify true = true) as OV by (destruct verify as [[|]|]; auto; congruence).
  assert (forall check r, there seen_said l verify said seen check = Ok r -> check (said :: seen) = Ok r) as TH.
  { intros check r T. unfold there in T. rewrite OV in T. cbn [andb] in T. destruct (has_code seen said) eqn:HC; cbn [negb] in T; [|auto]. apply has_code_In in HC. rewrite Forall_forall in F. now apply F in HC. }
  assert (forall said, Forall (fun x => known canon l x \/ x = said) (said :: seen)) as FP. { intros s. constructor; auto. eapply Forall_impl; [|exact F]. auto. }
  assert (forall l2 verify' seen2 check r, known canon l2 said -> there seen_said l2 verify' said seen2 check = Ok r -> r = (true, seen2) \/ check (said :: seen2) = Ok r) as TW.
  { intros l2 v2 seen2 check r K T. unfold there in T. rewrite (FA _ _ K) in T. destruct (_ && _) in T; [now right|left; congruence]. }
  destruct (beq (vi_ident i) (s! "KERI")) eqn:B.
  - apply bind_ok in H as (e & HE & H). apply bind_ok in H as (said' & HS & H). assert (said' = said) as -> by (apply (said_once canon raw); auto; exists e; auto). apply bind_ok in H as (g & HG & H). apply bind_ok in H as (ilk & HK & H).
    destruct (has_code [s! "icp"; s! "rot"; s! "ixn"] ilk) eqn:K1; [|destruct (has_code [s! "vcp"; s! "iss"; s! "rev"] ilk) eqn:K2; [|discriminate]].
    + destruct g as [| | |value|]; try discriminate. apply bind_ok in H as ((ex & sn) & T & H). cbn [fst snd] in H. apply TH in T.
      destruct (key_seen canon hash cr mo l (fun x => known canon l x \/ x = said) (fun s K => or_introl K) _ _ _ _ _ _ T (FP said)) as (_ & G2). cbn [fst snd] in G2.
      destruct ex; [destruct (G2 eq_refl) as (s & S & Q); congruence|]. cbn [negb] in H.
      apply bind_ok in H as (event & HU & H). apply utf8_from in HU. subst event. apply bind_ok in H as (pre & HP & H). apply bind_ok in H as (text & HT & H). injection H as <- <-.
      assert (serder_with_raw canon (d_raw e ++ text) = Ok e) as RD by (apply (read_on canon raw); eauto). split; [intros s; now apply key_known|].
      intros l2 age' f2 d2 v2 seen2 x s X F2 A. assert (known canon l2 said) as KN. { apply (known_extends canon (insert_key_event l pre (d_raw e ++ text))); auto. left. exists pre, (d_raw e ++ text), e. split; auto. cbn. unfold added. rewrite beq_refl. apply in_or_app. right. now left. }
      unfold ingest_one in A. rewrite HI, bind_Ok in A. cbv zeta in A. rewrite B, HE, bind_Ok, HS, bind_Ok, HG, bind_Ok, HK, bind_Ok, K1 in A. apply bind_ok in A as ((ex & sn2) & T2 & A). cbn [fst snd] in A.
      destruct (TW _ _ _ _ _ KN T2) as [[= -> ->]|V]; [injection A as <- <-; auto|].
      destruct (key_seen canon hash cr mo l2 (known canon l2) (fun s K => K) _ _ _ _ _ _ V (Forall_cons _ KN F2)) as (G1 & _). cbn [snd] in G1.
      destruct (C120_l _ _ _ _ _ _ _ _ _ _ _ _ T) as (p1 & n1 & _ & _ & _ & c1 & A1 & A2 & _ & _ & _ & _ & A3 & A4 & A5 & _). destruct (C120_l _ _ _ _ _ _ _ _ _ _ _ _ V) as (p2 & n2 & _ & _ & _ & c2 & B1 & B2 & _ & _ & _ & _ & B3 & B4 & B5 & _).
      apply pre_field in A1, B1. apply sn_field in A2, B2. assert (p1 = pre) as -> by congruence. assert (p2 = pre) as -> by congruence. assert (n2 = n1) as -> by congruence. cbn in A3, B3. injection A3 as <-. injection B3 as <-.
      assert (n1 = len (l_kel l pre)) as ->. { destruct (N.lt_ge_cases n1 (len (l_kel l pre))) as [Z|Z]; [apply A5 in Z; discriminate|lia]. }
      assert (ex = true) as ->. { apply B5. destruct X as (X & _). destruct (X pre) as (m & E). rewrite E. cbn. unfold added. rewrite beq_refl. unfold len. rewrite !app_length. cbn. lia. }
      cbn [negb] in A. injection A as <- <-. auto.
    + destruct g as [|value| | |]; try discriminate. apply bind_ok in H as ((ex & sn) & T & H). cbn [fst snd] in H. apply TH in T.
      destruct (tel_seen canon hash cr mo l (fun x => known canon l x \/ x = said) (fun s K => or_introl K) _ _ _ _ _ _ T (FP said)) as (_ & G2). cbn [fst snd] in G2.
      destruct ex; [destruct (G2 eq_refl) as (s & S & Q); congruence|]. cbn [negb] in H.
      apply bind_ok in H as (event & HU & H). apply utf8_from in HU. subst event. apply bind_ok in H as (pre & HP & H). apply bind_ok in H as (text & HT & H). injection H as <- <-.
      assert (serder_with_raw canon (d_raw e ++ text) = Ok e) as RD by (apply (read_on canon raw); eauto). split; [intros s; now apply tel_known|].
      intros l2 age' f2 d2 v2 seen2 x s X F2 A. assert (known canon l2 said) as KN. { apply (known_extends canon (insert_transaction_event l pre (d_raw e ++ text))); auto. right. left. exists pre, (d_raw e ++ text), e. split; auto. cbn. unfold added. rewrite beq_refl. apply in_or_app. right. now left. }
      unfold ingest_one in A. rewrite HI, bind_Ok in A. cbv zeta in A. rewrite B, HE, bind_Ok, HS, bind_Ok, HG, bind_Ok, HK, bind_Ok, K1, K2 in A. apply bind_ok in A as ((ex & sn2) & T2 & A). cbn [fst snd] in A.
      destruct (TW _ _ _ _ _ KN T2) as [[= -> ->]|V]; [injection A as <- <-; auto|].
      destruct (tel_seen canon hash cr mo l2 (known canon l2) (fun s K => K) _ _ _ _ _ _ V (Forall_cons _ KN F2)) as (G1 & _). cbn [snd] in G1.
      destruct (tel_number _ _ _ _ _ _ _ _ _ _ _ T) as (p1 & c1 & A1 & A2 & A3). assert (p1 = pre) as -> by congruence. cbn in A2. injection A2 as <-.
      destruct ex; [cbn [negb] in A; injection A as <- <-; auto|]. exfalso. destruct (tel_number _ _ _ _ _ _ _ _ _ _ _ V) as (p2 & c2 & B1 & B2 & B3). assert (p2 = pre) as -> by congruence. cbn in B2. injection B2 as <-.
      destruct X as (_ & X & _). destruct (X pre) as (m & E). rewrite A3 in B3. injection B3 as B3. rewrite E in B3. cbn in B3. unfold added in B3. rewrite beq_refl in B3. unfold len in B3. rewrite !app_length in B3. cbn in B3. lia.
  - destruct (beq (vi_ident i) (s! "ACDC")) eqn:B2; [|discriminate]. apply bind_ok in H as (e & HE & H). apply bind_ok in H as (said' & HS & H). assert (said' = said) as -> by (apply (said_once canon raw); auto; exists e; auto). apply bind_ok in H as (g & HG & H).
    destruct g as [| | |value|]; try discriminate. apply bind_ok in H as ((ex & sn) & T & H). cbn [fst snd] in H. apply TH in T.
    destruct (acdc_seen canon hash cr mo schema_check age l (fun x => known canon l x \/ x = said) (fun s K => or_introl K) _ _ _ _ _ _ T (FP said)) as (_ & G2). cbn [fst snd] in G2.
    destruct ex; [destruct (G2 eq_refl) as (s & S & Q); congruence|]. cbn [negb] in H.
    apply bind_ok in H as (event & HU & H). apply utf8_from in HU. subst event. apply bind_ok in H as (text & HT & H). injection H as <- <-.
    assert (creder_with_raw canon (d_raw e ++ text) = Ok e) as RD by (apply (read_on_creder canon raw); eauto). split; [intros s; now apply acdc_known|].
    intros l2 age' f2 d2 v2 seen2 x s X F2 A. assert (In (d_raw e ++ text) (l_acdc l2)) as IN. { destruct X as (_ & _ & m & ->). cbn. apply in_or_app. left. apply in_or_app. right. now left. }
    assert (known canon l2 said) as KN by (right; right; exists (d_raw e ++ text), e; auto).
    unfold ingest_one in A. rewrite HI, bind_Ok in A. cbv zeta in A. rewrite B, B2, HE, bind_Ok, HS, bind_Ok, HG, bind_Ok in A. apply bind_ok in A as ((ex & sn2) & T2 & A). cbn [fst snd] in A.
    destruct (TW _ _ _ _ _ KN T2) as [[= -> ->]|V]; [injection A as <- <-; auto|].
    destruct (acdc_seen canon hash cr mo schema_check age' l2 (known canon l2) (fun s K => K) _ _ _ _ _ _ V (Forall_cons _ KN F2)) as (G1 & _). cbn [snd] in G1.
    destruct ex; [cbn [negb] in A; injection A as <- <-; auto|]. exfalso. apply acdc_shallow in V. cbn [fst] in V. apply exactly_accepted in V as (_ & s' & D & _ & _ & [(Z & _)|(_ & er & G)]); [discriminate|].
    assert (s' = said) as -> by (destruct D as (a1 & a2 & a3 & a4 & a5 & a6 & a7 & a8 & _ & P & _); congruence). cbn [view get_acdc] in G. destruct (last_of_some (names canon said) (l_acdc l2) _ IN) as (y & Y); [|congruence]. unfold names. now rewrite RD, HS, beq_refl.
Qed.
Lemma loop_fresh fuel deep verify : verify <> Some false -> forall k ms l seen l1, (length ms <= k)%nat -> ingest_loop canon hash cr mo group_text schema_check age seen_said fuel deep verify l seen ms = (l1, Ok tt) ->
  kept canon hash cr mo group_text schema_check age l -> Forall (known canon l) seen ->
  (forall j raw said, nth_error ms j = Some (MPayload raw) -> identified canon raw said -> ~ known canon l said /\ forall i raw', (i < j)%nat -> nth_error ms i = Some (MPayload raw') -> ~ identified canon raw' said) ->
  forall l2 age' fuel' deep' verify' seen2, extends l1 l2 -> Forall (known canon l2) seen2 -> fst (ingest_loop canon hash cr mo group_text schema_check age' seen_said fuel' deep' verify' l2 seen2 ms) = l2.
Proof.
  intros NV. induction k as [|k IH]; intros ms l seen l1 L H K F N l2 age' f2 d2 v2 seen2 X F2.
  - destruct ms; [reflexivity|cbn in L; lia].
  - destruct ms as [|[r0|g] ms]; cbn [ingest_loop] in *; [reflexivity| |reflexivity]. destruct ms as [|m ms].
    { destruct (ingest_one _ _ _ _ _ _ _ _ f2 _ _ _ _ _ _); reflexivity. }
    destruct (ingest_one _ _ _ _ _ _ _ _ fuel _ _ _ _ _ _) as [(l' & seen')| |] eqn:O in H; try discriminate. cbn [fst snd] in H.
    destruct (one_kept _ _ _ _ _ _ _ _ FA TX _ _ _ _ _ _ _ _ _ NV O K F) as (E1 & K1 & F1). destruct (one_said _ _ _ _ _ _ _ _ FA TX _ _ _ _ _ _ _ _ _ NV O F) as (s0 & m0 & I0 & _ & _).
    destruct (loop_kept _ _ _ _ _ _ _ _ FA TX _ _ _ NV (length ms) ms l' seen' l1 (Ok tt) ltac:(lia) H K1 F1) as (E2 & _).
    destruct (N 0%nat r0 s0 eq_refl I0) as (NK & _). destruct (one_fresh _ _ _ _ _ _ _ _ _ _ NV O F I0 NK) as (KK & W).
    destruct (ingest_one _ _ _ _ _ _ _ _ f2 _ _ _ _ _ _) as [(x & s)| |] eqn:O2; [|reflexivity|reflexivity]. cbn [fst snd]. destruct (W _ _ _ _ _ _ _ _ (extends_trans _ _ _ E2 X) F2 O2) as (-> & F3).
    apply (IH ms l' seen' l1 ltac:(cbn in L; lia) H K1 F1); auto. intros j raw said J S. destruct (N (Datatypes.S (Datatypes.S j)) raw said J S) as (N1 & N2). split.
    + intros KN. destruct (KK _ KN) as [Z| ->]; auto. apply (N2 0%nat r0); auto. lia.
    + intros i raw' LI NI. apply (N2 (Datatypes.S (Datatypes.S i)) raw'); auto. lia.
Qed.
End Fresh.

(*# C172_new_messages_change_nothing_again
   At any depth, the default included: if none of the messages of the stream was known before and none occurs in it twice, by their identifiers, then after it was taken in to its end, with verification on, presenting it again to the same
   store or a later one, at any depth, with verification on or off and at any time, changes nothing.
##
Example C172_new_case : finds_all no_floats (fun _ _ => true) /\ textual own_letter /\
  snd (ingest_messages no_floats mix toy lettered own_letter accepts_all young (fun _ _ => true) 20 empty (s! "issued") None None) = Ok tt /\ lettered (s! "issued") = Ok issued_stream /\
  (forall said, ~ known no_floats empty said) /\ NoDup (map (fun m => match m with MPayload raw => match serder_with_raw no_floats raw with Ok e => sad_said e | _ => match creder_with_raw no_floats raw with Ok e => sad_said e | _ => Panic end end | _ => Panic end) (filter (fun m => match m with MPayload _ => true | _ => false end) issued_stream)).
Proof.
  split; [intros l said _; reflexivity|]. split; [exact own_textual|]. split; [vm_compute; reflexivity|]. split; [reflexivity|]. split.
  - intros said [(p & t & e & I & _)|[(p & t & e & I & _)|(t & e & I & _)]]; destruct I.
  - vm_compute. repeat (constructor; [intros D; cbn [In] in D; repeat (destruct D as [D|D]; [discriminate|]); destruct D|]). constructor.
Qed.
#*)
Lemma C172n_l (canon : bytes -> option bytes) (hash : bytes -> bytes -> bytes) (cr : crypto) (messages_of : bytes -> R (list message)) (group_text : group -> R bytes)
    (schema_check : bytes -> bytes -> R bool) (age : bytes -> R Z) (seen_said : ledger -> bytes -> bool) (fuel : nat) (l l1 : ledger) (stream : bytes) (deep verify : option bool) (ms : list message)
    (l2 : ledger) (age' : bytes -> R Z) (fuel' : nat) (deep' verify' : option bool) :
  finds_all canon seen_said -> textual group_text -> reached canon hash cr messages_of group_text schema_check age seen_said l -> verify <> Some false ->
  ingest_messages canon hash cr messages_of group_text schema_check age seen_said fuel l stream deep verify = (l1, Ok tt) -> messages_of stream = Ok ms ->
  (forall j raw said, nth_error ms j = Some (MPayload raw) -> identified canon raw said -> ~ known canon l said /\ forall i raw', (i < j)%nat -> nth_error ms i = Some (MPayload raw') -> ~ identified canon raw' said) ->
  extends l1 l2 ->
  fst (ingest_messages canon hash cr messages_of group_text schema_check age' seen_said fuel' l2 stream deep' verify') = l2.
Proof.
  intros FA TX RE NV H M N X. apply (reached_kept _ _ _ _ _ _ _ _ FA TX) in RE. unfold ingest_messages in *. rewrite M in *.
  exact (loop_fresh canon hash cr messages_of group_text schema_check age seen_said FA TX fuel deep verify NV (length ms) ms l [] l1 (le_n _) H RE (Forall_nil _) N l2 age' fuel' deep' verify' [] X (Forall_nil _)).
Qed.
