(** Proofs of the theorems about verifying again what a ledger holds. *)
From Coq Require Import String.
From Coq Require Import NArith ZArith QArith Bool List Lia.
From Verif Require Import Base Tables Matter Indexer Prims Json Tholder Common Saider Diger Sadder Signer Prefixer Pather Short Verify Ingest Events.
From Verif Require Import Spec SpecPrims SpecJson SpecCommon SpecTholder SpecSaider SpecSadder SpecPrefixer SpecSigner SpecLog SpecIngest SpecCred SpecExtra SpecEndorse SpecExact SpecAgain World Forgery Chain.
From Verif Require Import BaseFacts MatterFacts MatterText PrimsFacts SaiderFacts SaiderThms SadderFacts SadderThms VerifyFacts VerifyThms ExtraFacts LogThms IngestThms CredThms ChainThms EndorseThms ExactThms.
Import ListNotations.
Open Scope N_scope.

(** ** What extending a ledger leaves as it is *)
Lemma at_more (a b : list bytes) n t : at_sn a n = Ok t -> at_sn (a ++ b) n = Ok t.
Proof. unfold at_sn. destruct (nth_error a (N.to_nat n)) as [x|] eqn:E; [|discriminate]. intros [= <-]. rewrite nth_error_app1; [now rewrite E|]. apply nth_error_Some. congruence. Qed.
Lemma logged_more canon l0 l pre n e said : extends l0 l -> logged canon (view canon l0) pre n e said -> logged canon (view canon l) pre n e said.
Proof. intros (X & _) (text & A & B). destruct (X pre) as (m & E). exists text. cbn [view get_key_event] in *. rewrite E. split; [now apply at_more|exact B]. Qed.
Lemma recorded_more canon l0 l pre n e : extends l0 l -> recorded canon (view canon l0) pre n e -> recorded canon (view canon l) pre n e.
Proof. intros (_ & X & _) (text & A & B). destruct (X pre) as (m & E). exists text. cbn [view get_transaction_event] in *. rewrite E. split; [now apply at_more|exact B]. Qed.
Lemma established_more canon l0 l pre n e : extends l0 l -> n < len (l_kel l0 pre) -> established canon (view canon l0) pre n e -> established canon (view canon l) pre n e.
Proof.
  intros (X & _) L (text & A & B). destruct (X pre) as (m & E). exists text. cbn [view get_latest_establishment_event_as_of_sn] in *. rewrite E. split; [|exact B]. rewrite firstn_app.
  replace (S (N.to_nat n) - length (l_kel l0 pre))%nat with 0%nat by (unfold len in L; lia). cbn [firstn]. now rewrite app_nil_r.
Qed.
Lemma proper_later canon hash cr l0 l e g pre n said : extends l0 l -> n <= len (l_kel l0 pre) -> proper canon hash cr (view canon l0) e g pre n said -> proper canon hash cr (view canon l) e g pre n said.
Proof.
  intros X L (ilk & labels & p & ks & t & sigs & good & A1 & A2 & A3 & A4 & A5 & A6 & A7 & GV & A8 & A9 & A10 & A11 & C1 & C2 & C3).
  assert (1 <= asked_for n -> asked_for n - 1 < len (l_kel l0 pre)) as SM. { intros Q. unfold asked_for in *. pose proof (N.mod_le n (2 ^ 32) ltac:(discriminate)). lia. }
  exists ilk, labels, p, ks, t, sigs, good. repeat (split; [assumption|]). split.
  { destruct GV as (ilk' & e' & T & W & V). exists ilk', e'. split; auto. split; auto. destruct W as [W|(W1 & W2)]; [now left|right]. split; auto. apply (established_more canon l0); auto. apply SM.
    apply C2. intros ->. rewrite (type_once _ _ _ T A5) in W1. apply W1. now left. }
  repeat (split; [assumption|]). split.
  { intros NI. destruct (C2 NI) as (Q & SV & b & q & LG & F). split; auto. split; auto. exists b, q. split; auto. now apply (logged_more canon l0). }
  intros R. destruct (C3 R) as (e' & ds & nt & shown & (b & sb & ilkb & LG & TB & W) & H). exists e', ds, nt, shown. split; auto. exists b, sb, ilkb. split; [now apply (logged_more canon l0)|]. split; auto.
  destruct W as [W|(W1 & W2)]; [now left|right]. split; auto. apply (established_more canon l0); auto. apply SM. apply C2. rewrite R. discriminate.
Qed.
Lemma proper_more canon hash cr l0 l e g pre n said : extends l0 l -> n = len (l_kel l0 pre) -> proper canon hash cr (view canon l0) e g pre n said -> proper canon hash cr (view canon l) e g pre n said.
Proof. intros X ->. apply proper_later; auto. apply N.le_refl. Qed.
Lemma owned_more canon l0 l e owner : extends l0 l -> owned canon (view canon l0) e owner -> owned canon (view canon l) e owner.
Proof. intros X [A|(A & r & e0 & B & C & D)]; [now left|right]. split; auto. exists r, e0. split; auto. split; auto. now apply (recorded_more canon l0). Qed.
Lemma anchored_more canon hash l0 l e c pre n said : extends l0 l -> anchored_well canon hash (view canon l0) e c pre n said -> anchored_well canon hash (view canon l) e c pre n said.
Proof.
  intros X (ilk & labels & p & h & sq & sd & owner & k & t & anchor & A1 & A2 & A3 & A4 & A5 & A6 & A7 & A8 & A9 & OW & A10 & A11 & LG & A12 & C1 & C2 & C3 & C4).
  exists ilk, labels, p, h, sq, sd, owner, k, t, anchor. repeat (split; [assumption|]). split; [now apply (owned_more canon l0)|]. repeat (split; [assumption|]). split; [now apply (logged_more canon l0)|]. repeat (split; [assumption|]).
  intros R. destruct (C4 R) as (Q & b & q & RC & S). split; auto. exists b, q. split; auto. now apply (recorded_more canon l0).
Qed.

(** ** From trusting the log to verifying it at depth *)
Lemma cut_rest a b : utf8 b = true -> from_str (a ++ b) (len a) = Ok b.
Proof.
  intros U. unfold from_str, slice_str. assert (len (a ++ b) = len a + len b) as L by (unfold len; rewrite app_length; lia). rewrite L. destruct (N.leb_spec (len a) (len a + len b)); [|lia]. destruct (N.leb_spec (len a + len b) (len a + len b)); [|lia].
  assert (boundary (a ++ b) (len a) = true) as -> by (apply boundary_app; auto; [lia|]; unfold boundary; rewrite N.eqb_refl; now destruct (len a =? 0)).
  assert (boundary (a ++ b) (len a + len b) = true) as ->. { unfold boundary. rewrite L, N.eqb_refl. now destruct (_ =? 0). }
  cbn [andb]. f_equal. unfold take, drop, len. replace (N.to_nat (N.of_nat (length a))) with (length a) by lia. rewrite skipn_app, skipn_all, Nat.sub_diag. cbn [skipn app]. apply firstn_all2. lia.
Qed.
Lemma deepen canon hash cr mo f f' st e g seen there seen0 : verify_key_event canon hash cr mo f st e g None seen = Ok (there, seen0) ->
  (forall pre n event pe psaid seen2, serder_pre e = Ok pre -> serder_sn e = Ok n -> 1 <= asked_for n -> get_key_event st pre (asked_for n - 1) = Ok event -> serder_with_raw canon event = Ok pe -> sad_said pe = Ok psaid ->
     exists rest value r, from_str event (len (d_raw pe)) = Ok rest /\ first_group mo rest = Ok (GQuadlets value) /\ verify_key_event canon hash cr mo f' st pe value (Some true) (psaid :: seen2) = Ok r) ->
  forall seen1, exists seen', verify_key_event canon hash cr mo (S f') st e g (Some true) seen1 = Ok (there, seen').
Proof.
  intros H D seen1. apply accepted_inv in H as (f0 & pre & p & sn & ilk & said & keys & found & -> & A). destruct A as [Hpre Hp Hsn Hilk Hsaid Hplace Hkeys Hfound He HL Hprior Hst].
  destruct Hprior as [(B & _)|(B & n & event & pe & psaid & P1 & P2 & P3 & P4 & P5 & P6 & _)].
  - exists seen1. eapply accepted_intro. econstructor; eauto.
  - pose proof P1 as P1'. apply before_ok in P1' as (Q & ->). change (sn mod 4294967296) with (asked_for sn) in *. destruct (has_code seen1 psaid) eqn:HC.
    + exists seen1. eapply accepted_intro. econstructor; eauto. right. split; auto. exists (asked_for sn - 1), event, pe, psaid. repeat (split; [assumption|]). right. rewrite HC. auto.
    + destruct (D pre sn event pe psaid seen1 Hpre Hsn Q P2 P3 P4) as (rest & value & r & R1 & R2 & R3). exists (snd r). eapply accepted_intro. econstructor; eauto. right. split; auto.
      exists (asked_for sn - 1), event, pe, psaid. repeat (split; [assumption|]). left. rewrite HC. split; auto. exists rest, value, r. auto.
Qed.
Lemma shallow canon hash cr mo f st e g deep deep' seen there seen' : verify_key_event canon hash cr mo f st e g deep seen = Ok (there, seen') -> or_else deep' false = false ->
  forall f' seen1, verify_key_event canon hash cr mo (S f') st e g deep' seen1 = Ok (there, seen1).
Proof.
  intros H DD f' seen1. apply accepted_inv in H as (f0 & pre & p & sn & ilk & said & keys & found & -> & A). destruct A as [Hpre Hp Hsn Hilk Hsaid Hplace Hkeys Hfound He HL Hprior Hst].
  eapply accepted_intro. econstructor; eauto. destruct Hprior as [(B & _)|(B & n & event & pe & psaid & P1 & P2 & P3 & P4 & P5 & P6 & _)]; [left; auto|right]. split; auto. exists n, event, pe, psaid. repeat (split; [assumption|]). right. rewrite DD. auto.
Qed.
Lemma anchor_deeper canon hash cr mo f f' st owner sq sd e deep seen0 seen1 : verify_anchor canon hash cr mo f st owner sq sd e (Some false) seen0 = Ok (true, seen0) ->
  (deep = Some true -> forall n event a asaid seen2, seqner_sn sq = Ok n -> get_key_event st owner (asked_for n) = Ok event -> serder_with_raw canon event = Ok a -> sad_said a = Ok asaid ->
     exists rest value r, from_str event (len (d_raw a)) = Ok rest /\ first_group mo rest = Ok (GQuadlets value) /\ verify_key_event canon hash cr mo f' st a value (Some true) (asaid :: seen2) = Ok r) ->
  exists seen', verify_anchor canon hash cr mo f' st owner sq sd e deep seen1 = Ok (true, seen').
Proof.
  intros H D. apply anchor_inv in H as (n & t & anchor & pre & h & said & SN & T & (text & G & S & A) & P & HH & HD & (seal & F & S1 & S2 & S3)). unfold verify_anchor. rewrite SN, bind_Ok, asked_mod, G, bind_Ok, S, bind_Ok, A, bind_Ok, T, bind_Ok, beq_refl. cbn [negb].
  apply index_field in F. apply text_field in S1, S2, S3. rewrite F, bind_Ok. cbn [to_vec]. rewrite bind_Ok, S1, bind_Ok, S2, bind_Ok, S3, bind_Ok.
  assert (exists seen', (if or_else deep false && negb (has_code seen1 t) then let* rest := from_str text (len (d_raw anchor)) in let* g := first_group mo rest in
     match g with GQuadlets value => let* r := verify_key_event canon hash cr mo f' st anchor value deep (t :: seen1) in Ok (snd r) | _ => Err EDecoding end else Ok seen1) = Ok seen') as (seen' & ->).
  { destruct deep as [[]|]; cbn [or_else andb]; eauto. destruct (has_code seen1 t); cbn [negb]; eauto. destruct (D eq_refl n text anchor t seen1 SN G S A) as (rest & value & r & -> & R2 & R3). rewrite bind_Ok, R2, bind_Ok, R3, bind_Ok. eauto. }
  exists seen'. rewrite bind_Ok, HH, bind_Ok, beq_refl. cbn [negb]. rewrite P, bind_Ok, beq_refl. cbn [negb]. rewrite HD, bind_Ok, beq_refl. reflexivity.
Qed.
Lemma tel_deepen canon hash cr mo f f' st e c seen there seen0 deep : verify_transaction_event canon hash cr mo f st e c (Some false) seen = Ok (there, seen0) ->
  (deep = Some true -> forall owner sq sd n event a asaid seen2, owned canon st e owner -> c = [(sq, sd)] -> seqner_sn sq = Ok n -> get_key_event st owner (asked_for n) = Ok event -> serder_with_raw canon event = Ok a -> sad_said a = Ok asaid ->
     exists rest value r, from_str event (len (d_raw a)) = Ok rest /\ first_group mo rest = Ok (GQuadlets value) /\ verify_key_event canon hash cr mo f' st a value (Some true) (asaid :: seen2) = Ok r) ->
  (forall pre n event pe psaid seen2, serder_pre e = Ok pre -> serder_sn e = Ok n -> 1 <= asked_for n -> get_transaction_event st pre (asked_for n - 1) = Ok event -> serder_with_raw canon event = Ok pe -> sad_said pe = Ok psaid ->
     exists rest value r, from_str event (len (d_raw pe)) = Ok rest /\ first_group mo rest = Ok (GSources value) /\ verify_transaction_event canon hash cr mo f' st pe value deep (psaid :: seen2) = Ok r) ->
  forall seen1, exists seen', verify_transaction_event canon hash cr mo (S f') st e c deep seen1 = Ok (there, seen').
Proof.
  intros H DA DP seen1. apply tel_inv in H as (f0 & pre & p & sn & ilk & said & ri & labels & count & apre & sq & sd & seen2 & -> & -> & HP & HX & SN & T & S & R & L & V & C & A & AN & ST & W).
  pose proof (anchor_seen _ _ _ _ _ _ _ _ _ _ _ _ _ AN) as ->.
  destruct (anchor_deeper canon hash cr mo f0 f' st apre sq sd e deep seen seen1 AN) as (seen3 & AD).
  { intros E n event a asaid seen2 A1 A2 A3 A4. apply (DA E apre sq sd n event a asaid seen2); auto. apply (anchoring_owned _ _ _ _ _ _ _ _ T R A). }
  cbn [verify_transaction_event]. rewrite HP, bind_Ok, HX, bind_Ok, SN, bind_Ok, T, bind_Ok, S, bind_Ok, R, bind_Ok, L, bind_Ok, V, bind_Ok. cbn [negb]. rewrite C, bind_Ok, A, bind_Ok, AD, bind_Ok. cbn [fst snd negb].
  assert (forall x, exists seen', (let* _u := if fst (there, x : list bytes) then check_stored_transaction canon st pre said sn else Ok tt in Ok (there, x)) = Ok (there, seen')) as FIN.
  { intros x. cbn [fst]. exists x. destruct there; [rewrite (ST eq_refl)|]; reflexivity. }
  destruct W as [(-> & -> & Q)|(-> & L1 & L2 & Q & n & event & pe & psaid & P1 & P2 & P3 & P4 & P5 & _)]; rewrite <- Q.
  - rewrite N.eqb_refl. cbn [negb]. rewrite bind_Ok. apply FIN.
  - destruct (N.ltb_spec sn 1); [lia|]. destruct (N.ltb_spec count sn); [lia|]. rewrite P1, bind_Ok, P2, bind_Ok, P3, bind_Ok, P4, bind_Ok. apply before_ok in P1 as (Q1 & ->). change (sn mod 4294967296) with (asked_for sn) in *.
    assert (exists seen', (if or_else deep true && negb (has_code seen3 psaid) then let* rest := from_str event (len (d_raw pe)) in let* g := first_group mo rest in
      match g with GSources value => let* r := verify_transaction_event canon hash cr mo f' st pe value deep (psaid :: seen3) in Ok (snd r) | _ => Err EDecoding end else Ok seen3) = Ok seen') as (seen' & ->).
    { destruct (or_else deep true && negb (has_code seen3 psaid)); eauto. destruct (DP pre sn event pe psaid seen3 HP SN Q1 P2 P3 P4) as (rest & value & r & -> & R2 & R3). rewrite bind_Ok, R2, bind_Ok, R3, bind_Ok. eauto. }
    rewrite bind_Ok, P5, bind_Ok, beq_refl. cbn [negb]. rewrite bind_Ok. apply FIN.
Qed.

(** ** The same answer, good or bad *)
Lemma same_bind {A} (x : R A) f g : (forall a, x = Ok a -> verdict (f a) = verdict (g a)) -> verdict (let* a := x in f a) = verdict (let* a := x in g a).
Proof. intros H. destruct x; cbn [bind]; auto. Qed.
Lemma same_next {A} (x y : R A) (f : A -> R (bool * list bytes)) g : (forall a b, verdict (f a) = verdict (g b)) -> match x, y with Ok _, Ok _ => True | Err a, Err b => a = b | Panic, Panic => True | _, _ => False end ->
  verdict (let* a := x in f a) = verdict (let* b := y in g b).
Proof. intros H. destruct x, y; cbn [bind]; try contradiction; auto. intros ->. reflexivity. Qed.
Ltac same := repeat match goal with
  | |- verdict (bind ?x _) = verdict (bind ?x _) => let a := fresh "a" in let E := fresh "E" in apply same_bind; intros a E
  | |- verdict (if ?b then _ else _) = verdict (if ?b then _ else _) => let E := fresh "E" in destruct b eqn:E; [|]; try reflexivity
  end.
Lemma key_same canon hash cr mo f f' st e g deep seen seen1 :
  (forall pre n event pe psaid seen2, deep = Some true -> serder_pre e = Ok pre -> serder_sn e = Ok n -> 1 <= asked_for n -> get_key_event st pre (asked_for n - 1) = Ok event -> serder_with_raw canon event = Ok pe -> sad_said pe = Ok psaid ->
     exists rest value r, from_str event (len (d_raw pe)) = Ok rest /\ first_group mo rest = Ok (GQuadlets value) /\ verify_key_event canon hash cr mo f st pe value (Some true) (psaid :: seen2) = Ok r) ->
  verdict (verify_key_event canon hash cr mo (S f) st e g deep seen) = verdict (verify_key_event canon hash cr mo (S f') st e g None seen1).
Proof.
  intros D. cbn [verify_key_event]. cbv zeta. same. apply same_next; [intros x y; same; reflexivity|].
  destruct (beq a2 (s! "icp")); [exact I|]. destruct (before a1) as [n| |] eqn:B; cbn [bind]; auto. destruct (get_key_event st a n) as [event| |] eqn:GE; cbn [bind]; auto. destruct (serder_with_raw canon event) as [pe| |] eqn:PE; cbn [bind]; auto.
  destruct (sad_said pe) as [psaid| |] eqn:PS; cbn [bind]; auto. destruct (text_at (d_ked e) (s! "p")) as [p| |]; cbn [bind]; auto. destruct (negb (beq psaid p)); auto. destruct (check_rotation _ _ _ _ _ _ _ _) as [u| |]; cbn [bind]; auto.
  cbn [or_else andb]. destruct deep as [[]|]; cbn [or_else andb]; auto. destruct (negb (has_code seen psaid)); auto.
  apply before_ok in B as (Q & ->). destruct (D a a1 event pe psaid seen eq_refl E E1 Q GE PE PS) as (rest & value & r & -> & R2 & R3). cbn [bind]. rewrite R2. cbn [bind]. rewrite R3. cbn [bind]. auto.
Qed.
Lemma anchor_same canon hash cr mo f f' st owner sq sd e deep seen seen1 :
  (forall n event a asaid seen2, deep = Some true -> seqner_sn sq = Ok n -> get_key_event st owner (asked_for n) = Ok event -> serder_with_raw canon event = Ok a -> sad_said a = Ok asaid ->
     exists rest value r, from_str event (len (d_raw a)) = Ok rest /\ first_group mo rest = Ok (GQuadlets value) /\ verify_key_event canon hash cr mo f st a value (Some true) (asaid :: seen2) = Ok r) ->
  verdict (verify_anchor canon hash cr mo f st owner sq sd e deep seen) = verdict (verify_anchor canon hash cr mo f' st owner sq sd e (Some false) seen1).
Proof.
  intros D. unfold verify_anchor. same. destruct a5 as [|seal [|]]; try reflexivity. same. apply same_next; [intros x y; same; reflexivity|].
  cbn [or_else andb]. destruct deep as [[]|]; cbn [or_else andb]; auto. destruct (negb (has_code seen a2)); auto.
  rewrite asked_mod in E0. destruct (D a a0 a1 a2 seen eq_refl E E0 E1 E2) as (rest & value & r & -> & R2 & R3). cbn [bind]. rewrite R2. cbn [bind]. rewrite R3. cbn [bind]. auto.
Qed.
Lemma same_then (x y : R (bool * list bytes)) f g : verdict x = verdict y -> (forall b s t, x = Ok (b, s) -> y = Ok (b, t) -> verdict (f (b, s)) = verdict (g (b, t))) -> verdict (let* a := x in f a) = verdict (let* a := y in g a).
Proof. intros H K. destruct x as [(b, s)|a|], y as [(b', t)|a'|]; cbn [verdict bind] in *; try discriminate; try (injection H as <-); auto. Qed.
Lemma tel_same canon hash cr mo f f' st e c seen seen1 deep :
  (deep = Some true -> forall owner sq sd n event a asaid seen2, c = [(sq, sd)] -> seqner_sn sq = Ok n -> get_key_event st owner (asked_for n) = Ok event -> serder_with_raw canon event = Ok a -> sad_said a = Ok asaid ->
     exists rest value r, from_str event (len (d_raw a)) = Ok rest /\ first_group mo rest = Ok (GQuadlets value) /\ verify_key_event canon hash cr mo f st a value (Some true) (asaid :: seen2) = Ok r) ->
  (forall pre n event pe psaid seen2, serder_pre e = Ok pre -> serder_sn e = Ok n -> 1 <= asked_for n -> get_transaction_event st pre (asked_for n - 1) = Ok event -> serder_with_raw canon event = Ok pe -> sad_said pe = Ok psaid ->
     exists rest value r, from_str event (len (d_raw pe)) = Ok rest /\ first_group mo rest = Ok (GSources value) /\ verify_transaction_event canon hash cr mo f st pe value deep (psaid :: seen2) = Ok r) ->
  verdict (verify_transaction_event canon hash cr mo (S f) st e c deep seen) = verdict (verify_transaction_event canon hash cr mo (S f') st e c (Some false) seen1).
Proof.
  intros DA DP. cbn [verify_transaction_event]. cbv zeta. same. destruct c as [|(sq, sd) [|]]; [reflexivity| |reflexivity]. same. apply same_then.
  { apply anchor_same. intros n event an asaid seen2 DD A1 A2 A3 A4. apply (DA DD a8 sq sd n event an asaid seen2); auto. }
  intros b s2 t _ _. cbn [fst snd]. same. apply same_then; [|intros b' s' t' _ _; cbn [fst]; same; reflexivity]. same.
  apply same_next; [intros x y; same; reflexivity|]. cbn [or_else andb]. destruct (or_else deep true && negb (has_code s2 a12)); auto.
  match goal with B : before _ = Ok _, G : get_transaction_event _ _ _ = Ok _, R : serder_with_raw _ _ = Ok _, S : sad_said ?p = Ok ?q |- context [?q :: s2] => apply before_ok in B as (Q & ->); destruct (DP _ _ _ _ _ s2 E E1 Q G R S) as (rest & value & r & -> & R2 & R3) end.
  cbn [bind]. rewrite R2. cbn [bind]. rewrite R3. cbn [bind]. auto.
Qed.

Section Again.
Variable canon : bytes -> option bytes.
Variable hash : bytes -> bytes -> bytes.
Variable cr : crypto.
Variable mo : bytes -> R (list message).
Variable group_text : group -> R bytes.
Variable schema_check : bytes -> bytes -> R bool.
Variable age : bytes -> R Z.
Variable seen_said : ledger -> bytes -> bool.
Variable l : ledger.
Hypothesis SH : sized_hash hash.
Hypothesis FA : finds_all canon seen_said.
Hypothesis TX : textual group_text.
Hypothesis RE : reached canon hash cr mo group_text schema_check age seen_said l.

Lemma stored_again pre n text : nth_error (l_kel l pre) n = Some text -> N.of_nat n < 2 ^ 32 ->
  exists e value rest, text = d_raw e ++ rest /\ group_text (GQuadlets value) = Ok rest /\ serder_with_raw canon text = Ok e /\ field_of (d_ked e) (s! "i") (VStr pre) /\ ordinal (d_ked e) (N.of_nat n) /\
    verify_key_event canon hash cr mo 1 (view canon l) e value None [] = Ok (true, []).
Proof.
  intros H S. pose proof (C126_l canon hash cr mo group_text schema_check age seen_said l pre n text FA TX RE H) as (l0 & e & value & rest & X & K & T & G & R & FI & FN & V). exists e, value, rest. repeat (split; [assumption|]).
  assert (N.of_nat n = len (l_kel l0 pre)) as L. { rewrite K. unfold len. rewrite firstn_length_le; auto. assert (n < length (l_kel l pre))%nat by (apply nth_error_Some; congruence). lia. }
  apply (C165_l canon hash cr mo 0 (view canon l0) e value None [] [] false SH ltac:(discriminate)) in V as (_ & pre' & n' & said & count & P & _ & _).
  pose proof P as (a1 & a2 & a3 & a4 & a5 & a6 & a7 & D1 & _ & D2 & D3 & _). apply pre_field in D1, FI. apply sn_field in D2, FN. assert (pre' = pre) as -> by congruence. assert (n' = N.of_nat n) as -> by congruence.
  apply (C165_l canon hash cr mo 0 (view canon l) e value None [] [] true SH ltac:(discriminate)). split; auto. exists pre, (N.of_nat n), said, (len (l_kel l pre)). split; [now apply (proper_more _ _ _ l0)|]. split; [reflexivity|]. right. split; auto.
  assert (n < length (l_kel l pre))%nat as LN by (apply nth_error_Some; congruence). split; [unfold len; lia|]. exists e, text. split; [|auto]. cbn [view get_key_event]. unfold asked_for. rewrite N.mod_small by exact S. unfold at_sn. rewrite Nat2N.id, H. reflexivity.
Qed.

Hypothesis RB : reads_back mo group_text.

Lemma deep_again : forall n pre text e, nth_error (l_kel l pre) n = Some text -> N.of_nat n < 2 ^ 32 -> serder_with_raw canon text = Ok e -> forall f seen, (n <= f)%nat ->
  exists rest value seen', from_str text (len (d_raw e)) = Ok rest /\ first_group mo rest = Ok (GQuadlets value) /\ verify_key_event canon hash cr mo (S f) (view canon l) e value (Some true) seen = Ok (true, seen').
Proof.
  intros n. induction n as [n IH] using lt_wf_ind. intros pre text e H S R f seen LF. destruct (stored_again pre n text H S) as (e' & value & rest & T & G & R' & FI & FN & V). assert (e' = e) as -> by congruence.
  exists rest, value. destruct (RB _ _ G) as (more & M). assert (first_group mo rest = Ok (GQuadlets value)) as FG by (unfold first_group; now rewrite M, bind_Ok).
  assert (from_str text (len (d_raw e)) = Ok rest) as FR by (rewrite T; apply cut_rest; now apply (TX _ _ G)).
  destruct (deepen canon hash cr mo 1 f (view canon l) e value [] true [] V) with (seen1 := seen) as (seen' & D).
  - intros pre' m event pe psaid seen2 P1 P2 Q GE PE PS. apply pre_field in FI. apply sn_field in FN. assert (pre' = pre) as -> by congruence. assert (m = N.of_nat n) as -> by congruence. unfold asked_for in *. rewrite N.mod_small in * by exact S.
    cbn [view get_key_event] in GE. unfold at_sn in GE. destruct (nth_error (l_kel l pre) (N.to_nat (N.of_nat n - 1))) as [x|] eqn:E; [|discriminate]. injection GE as ->.
    destruct f as [|f]; [lia|]. destruct (IH (N.to_nat (N.of_nat n - 1)) ltac:(lia) pre event pe E ltac:(lia) PE f (psaid :: seen2) ltac:(lia)) as (rest' & value' & seen' & A & B & C). exists rest', value', (true, seen'). auto.
  - exists seen'. auto.
Qed.
Lemma no_deeper e g seen there seen0 pre n f f0 : verify_key_event canon hash cr mo f0 (view canon l) e g None seen = Ok (there, seen0) -> field_of (d_ked e) (s! "i") (VStr pre) -> ordinal (d_ked e) n -> (N.to_nat n <= f)%nat ->
  forall seen1, exists seen', verify_key_event canon hash cr mo (S f) (view canon l) e g (Some true) seen1 = Ok (there, seen').
Proof.
  intros V FI FN LF seen1. apply (deepen _ _ _ _ _ _ _ _ _ _ _ _ V). intros pre' m event pe psaid seen2 P1 P2 Q GE PE PS. apply pre_field in FI. apply sn_field in FN. assert (pre' = pre) as -> by congruence. assert (m = n) as -> by congruence.
  cbn [view get_key_event] in GE. unfold at_sn in GE. destruct (nth_error (l_kel l pre) (N.to_nat (asked_for n - 1))) as [x|] eqn:E; [|discriminate]. injection GE as ->.
  assert (asked_for n < 2 ^ 32 /\ asked_for n <= n) as (L1 & L2). { unfold asked_for. split; [apply N.mod_lt; discriminate|apply N.mod_le; discriminate]. } destruct f as [|f]; [lia|].
  destruct (deep_again (N.to_nat (asked_for n - 1)) pre event pe E ltac:(lia) PE f (psaid :: seen2) ltac:(lia)) as (rest' & value' & seen' & A & B & C). exists rest', value', (true, seen'). auto.
Qed.
Lemma registered_again pre n text : nth_error (l_tel l pre) n = Some text -> N.of_nat n < 2 ^ 32 ->
  exists e value rest, text = d_raw e ++ rest /\ group_text (GSources value) = Ok rest /\ serder_with_raw canon text = Ok e /\ field_of (d_ked e) (s! "i") (VStr pre) /\ ordinal (d_ked e) (N.of_nat n) /\
    verify_transaction_event canon hash cr mo 1 (view canon l) e value (Some false) [] = Ok (true, []).
Proof.
  intros H S. pose proof (C126r_l canon hash cr mo group_text schema_check age seen_said l pre n text FA TX RE H) as (l0 & e & value & rest & f & deep & seen & seen' & X & K & T & G & R & FI & FN & V). exists e, value, rest. repeat (split; [assumption|]).
  apply registered_well in V as (pre' & n' & said & count & P & _ & _).
  pose proof P as (a1 & a2 & a3 & a4 & a5 & a6 & a7 & a8 & a9 & a10 & _ & D1 & _ & D2 & _ & D3 & _). apply pre_field in D1, FI. apply sn_field in D2, FN. assert (pre' = pre) as -> by congruence. assert (n' = N.of_nat n) as -> by congruence.
  apply C166_l. split; auto. exists pre, (N.of_nat n), said, (len (l_tel l pre)). split; [now apply (anchored_more _ _ l0)|]. split; [reflexivity|]. right. split; auto.
  assert (n < length (l_tel l pre))%nat as LN by (apply nth_error_Some; congruence). split; [unfold len; lia|]. exists e. split; [|auto]. exists text. split; auto. cbn [view get_transaction_event]. unfold asked_for. rewrite N.mod_small by exact S. unfold at_sn. rewrite Nat2N.id, H. reflexivity.
Qed.
Lemma anchors_deep owner n event a asaid f seen2 : get_key_event (view canon l) owner (asked_for n) = Ok event -> serder_with_raw canon event = Ok a -> sad_said a = Ok asaid -> (N.to_nat (asked_for n) < f)%nat ->
  exists rest value r, from_str event (len (d_raw a)) = Ok rest /\ first_group mo rest = Ok (GQuadlets value) /\ verify_key_event canon hash cr mo f (view canon l) a value (Some true) (asaid :: seen2) = Ok r.
Proof.
  intros GE PE PS LF. cbn [view get_key_event] in GE. unfold at_sn in GE. destruct (nth_error (l_kel l owner) (N.to_nat (asked_for n))) as [x|] eqn:E; [|discriminate]. injection GE as ->.
  assert (asked_for n < 2 ^ 32) as L by (unfold asked_for; apply N.mod_lt; discriminate). destruct f as [|f]; [lia|].
  destruct (deep_again (N.to_nat (asked_for n)) owner event a E ltac:(lia) PE f (asaid :: seen2) ltac:(lia)) as (rest & value & seen' & A & B & C). exists rest, value, (true, seen'). auto.
Qed.
(* One couple, so one bound on the depth of the anchor. *)
Lemma couple_bound (c : list (matter * matter)) : exists b, forall sq sd n, c = [(sq, sd)] -> seqner_sn sq = Ok n -> (N.to_nat (asked_for n) < b)%nat.
Proof.
  destruct c as [|(sq, sd) [|]]; try (exists 0%nat; intros sq' sd' n' E; discriminate). destruct (seqner_sn sq) as [n| |] eqn:E.
  - exists (S (N.to_nat (asked_for n))). intros sq' sd' n' [= <- <-] Q. assert (n' = n) as -> by congruence. lia.
  - exists 0%nat. intros sq' sd' n' [= <- <-] Q. congruence.
  - exists 0%nat. intros sq' sd' n' [= <- <-] Q. congruence.
Qed.
Lemma tel_step e c seen there seen0 f0 pre n : verify_transaction_event canon hash cr mo f0 (view canon l) e c (Some false) seen = Ok (there, seen0) -> field_of (d_ked e) (s! "i") (VStr pre) -> ordinal (d_ked e) n ->
  (1 <= asked_for n -> forall event pe, nth_error (l_tel l pre) (N.to_nat (asked_for n - 1)) = Some event -> serder_with_raw canon event = Ok pe -> exists b, forall f deep seen, (b <= f)%nat ->
     exists rest value seen', from_str event (len (d_raw pe)) = Ok rest /\ first_group mo rest = Ok (GSources value) /\ verify_transaction_event canon hash cr mo f (view canon l) pe value deep seen = Ok (true, seen')) ->
  exists b, forall f deep seen1, (b <= f)%nat -> exists seen', verify_transaction_event canon hash cr mo f (view canon l) e c deep seen1 = Ok (there, seen').
Proof.
  intros V FI FN PR. destruct (couple_bound c) as (b1 & B1).
  assert (exists b2, 1 <= asked_for n -> forall event pe, nth_error (l_tel l pre) (N.to_nat (asked_for n - 1)) = Some event -> serder_with_raw canon event = Ok pe -> forall f deep seen, (b2 <= f)%nat ->
     exists rest value seen', from_str event (len (d_raw pe)) = Ok rest /\ first_group mo rest = Ok (GSources value) /\ verify_transaction_event canon hash cr mo f (view canon l) pe value deep seen = Ok (true, seen')) as (b2 & B2).
  { destruct (N.leb_spec 1 (asked_for n)) as [Q|Q]; [|exists 0%nat; intros; lia]. destruct (nth_error (l_tel l pre) (N.to_nat (asked_for n - 1))) as [event|] eqn:E; [|exists 0%nat; intros; congruence].
    destruct (serder_with_raw canon event) as [pe| |] eqn:E2; [|exists 0%nat; intros; congruence|exists 0%nat; intros; congruence].
    destruct (PR Q event pe eq_refl E2) as (b2 & B2). exists b2. intros _ event' pe' [= <-] X. assert (pe' = pe) as -> by congruence. exact B2. }
  exists (S (b1 + b2)). intros f deep seen1 LF. destruct f as [|f]; [lia|]. apply (tel_deepen _ _ _ _ _ _ _ _ _ _ _ _ _ V).
  - intros _ owner sq sd k event a asaid seen2 _ E K GE PE PS. apply (anchors_deep owner k); auto. specialize (B1 sq sd k E K). lia.
  - intros pre' m event pe psaid seen2 P1 P2 Q GE PE PS. apply pre_field in FI. apply sn_field in FN. assert (pre' = pre) as -> by congruence. assert (m = n) as -> by congruence.
    cbn [view get_transaction_event] in GE. unfold at_sn in GE. destruct (nth_error (l_tel l pre) (N.to_nat (asked_for n - 1))) as [x|] eqn:E; [|discriminate]. injection GE as ->.
    destruct (B2 Q event pe eq_refl PE f deep (psaid :: seen2) ltac:(lia)) as (rest & value & seen' & A & B & C). exists rest, value, (true, seen'). auto.
Qed.
Lemma tel_deep_again : forall n pre text e, nth_error (l_tel l pre) n = Some text -> N.of_nat n < 2 ^ 32 -> serder_with_raw canon text = Ok e -> exists b, forall f deep seen, (b <= f)%nat ->
  exists rest value seen', from_str text (len (d_raw e)) = Ok rest /\ first_group mo rest = Ok (GSources value) /\ verify_transaction_event canon hash cr mo f (view canon l) e value deep seen = Ok (true, seen').
Proof.
  intros n. induction n as [n IH] using lt_wf_ind. intros pre text e H S R. destruct (registered_again pre n text H S) as (e' & value & rest & T & G & R' & FI & FN & V). assert (e' = e) as -> by congruence.
  destruct (RB _ _ G) as (more & M). assert (first_group mo rest = Ok (GSources value)) as FG by (unfold first_group; now rewrite M, bind_Ok).
  assert (from_str text (len (d_raw e)) = Ok rest) as FR by (rewrite T; apply cut_rest; now apply (TX _ _ G)).
  destruct (tel_step e value [] true [] 1 pre (N.of_nat n) V FI FN) as (b & B).
  - unfold asked_for. rewrite N.mod_small by exact S. intros Q event pe E PE. apply (IH (N.to_nat (N.of_nat n - 1)) ltac:(lia) pre event pe E ltac:(lia) PE).
  - exists b. intros f deep seen LF. destruct (B f deep seen LF) as (seen' & D). exists rest, value, seen'. auto.
Qed.
Lemma tel_no_deeper e c seen there seen0 f0 pre n : verify_transaction_event canon hash cr mo f0 (view canon l) e c (Some false) seen = Ok (there, seen0) -> field_of (d_ked e) (s! "i") (VStr pre) -> ordinal (d_ked e) n ->
  exists b, forall f deep seen1, (b <= f)%nat -> exists seen', verify_transaction_event canon hash cr mo f (view canon l) e c deep seen1 = Ok (there, seen').
Proof.
  intros V FI FN. apply (tel_step _ _ _ _ _ _ _ _ V FI FN). intros Q event pe E PE. assert (asked_for n < 2 ^ 32) as L by (unfold asked_for; apply N.mod_lt; discriminate).
  apply (tel_deep_again (N.to_nat (asked_for n - 1)) pre event pe E ltac:(lia) PE).
Qed.
Lemma key_verdict e g fuel deep seen : (0 < fuel)%nat -> (forall n, ordinal (d_ked e) n -> (N.to_nat n < fuel)%nat) ->
  verdict (verify_key_event canon hash cr mo fuel (view canon l) e g deep seen) = verdict (verify_key_event canon hash cr mo 1 (view canon l) e g None []).
Proof.
  intros F0 FN. destruct fuel as [|f]; [lia|]. apply key_same. intros pre n event pe psaid seen2 _ P1 P2 Q GE PE PS. apply sn_field in P2. specialize (FN n P2).
  cbn [view get_key_event] in GE. unfold at_sn in GE. destruct (nth_error (l_kel l pre) (N.to_nat (asked_for n - 1))) as [x|] eqn:E; [|discriminate]. injection GE as ->.
  assert (asked_for n < 2 ^ 32 /\ asked_for n <= n) as (L1 & L2). { unfold asked_for. split; [apply N.mod_lt; discriminate|apply N.mod_le; discriminate]. } destruct f as [|f]; [lia|].
  destruct (deep_again (N.to_nat (asked_for n - 1)) pre event pe E ltac:(lia) PE f (psaid :: seen2) ltac:(lia)) as (rest' & value' & seen' & A & B & C). exists rest', value', (true, seen'). auto.
Qed.
Lemma prior_bound e : exists b, forall pre n event pe, serder_pre e = Ok pre -> serder_sn e = Ok n -> 1 <= asked_for n -> get_transaction_event (view canon l) pre (asked_for n - 1) = Ok event -> serder_with_raw canon event = Ok pe ->
  forall f deep seen, (b <= f)%nat ->
    exists rest value seen', from_str event (len (d_raw pe)) = Ok rest /\ first_group mo rest = Ok (GSources value) /\ verify_transaction_event canon hash cr mo f (view canon l) pe value deep seen = Ok (true, seen').
Proof.
  destruct (serder_pre e) as [pre| |]; [|exists 0%nat; intros; discriminate|exists 0%nat; intros; discriminate]. destruct (serder_sn e) as [n| |]; [|exists 0%nat; intros; discriminate|exists 0%nat; intros; discriminate].
  destruct (get_transaction_event (view canon l) pre (asked_for n - 1)) as [event| |] eqn:GE; [|exists 0%nat; intros; congruence|exists 0%nat; intros; congruence].
  destruct (serder_with_raw canon event) as [pe| |] eqn:PE; [|exists 0%nat; intros; congruence|exists 0%nat; intros; congruence].
  assert (asked_for n < 2 ^ 32) as L1 by (unfold asked_for; apply N.mod_lt; discriminate). pose proof GE as GE'. cbn [view get_transaction_event] in GE'. unfold at_sn in GE'.
  destruct (nth_error (l_tel l pre) (N.to_nat (asked_for n - 1))) as [x|] eqn:E; [|discriminate]. injection GE' as ->. destruct (tel_deep_again (N.to_nat (asked_for n - 1)) pre event pe E ltac:(lia) PE) as (b & B).
  exists b. intros pre' n' event' pe' [= <-] [= <-] _ X Y. assert (event' = event) as -> by congruence. assert (pe' = pe) as -> by congruence. exact B.
Qed.
Lemma tel_verdict e c : exists b, forall f deep seen, (b <= f)%nat ->
  verdict (verify_transaction_event canon hash cr mo f (view canon l) e c deep seen) = verdict (verify_transaction_event canon hash cr mo 1 (view canon l) e c (Some false) []).
Proof.
  destruct (couple_bound c) as (b1 & B1). destruct (prior_bound e) as (b2 & B2). exists (S (b1 + b2)). intros f deep seen LF. destruct f as [|f]; [lia|]. apply tel_same.
  - intros _ owner sq sd k event a asaid seen2 E K GE PE PS. apply (anchors_deep owner k); auto. specialize (B1 sq sd k E K). lia.
  - intros pre n event pe psaid seen2 P1 P2 Q GE PE PS. destruct (B2 pre n event pe P1 P2 Q GE PE f deep (psaid :: seen2) ltac:(lia)) as (rest & value & seen' & A & B & C). exists rest, value, (true, seen'). auto.
Qed.
End Again.

(** ** Attachments printed and read back, for the cases *)
Fixpoint all2 {A} (f : A -> A -> bool) (l m : list A) : bool :=
  match l, m with [], [] => true | x :: l, y :: m => f x y && all2 f l m | _, _ => false end.
Lemma all2_eq {A} (f : A -> A -> bool) : (forall x y, f x y = true -> x = y) -> forall l m, all2 f l m = true -> l = m.
Proof. intros F l. induction l as [|x l IH]; intros [|y m]; cbn; try discriminate; auto. intros H. apply andb_true_iff in H as (X & Y). f_equal; auto. Qed.
Definition mat_eqb (x y : matter) : bool := beq (m_code x) (m_code y) && (m_size x =? m_size y) && beq (m_raw x) (m_raw y).
Lemma mat_eqb_eq x y : mat_eqb x y = true -> x = y.
Proof. unfold mat_eqb. rewrite !andb_true_iff, !beq_eq, N.eqb_eq. destruct x, y; cbn. intros ((-> & ->) & ->). reflexivity. Qed.
Definition path_eqb (x y : sad_path_sig) : bool :=
  mat_eqb (sp_pather x) (sp_pather y) && mat_eqb (sp_prefixer x) (sp_prefixer y) && mat_eqb (sp_seqner x) (sp_seqner y) && mat_eqb (sp_saider x) (sp_saider y) && all2 sig_eqb (sp_sigers x) (sp_sigers y).
Lemma path_eqb_eq x y : path_eqb x y = true -> x = y.
Proof.
  unfold path_eqb. rewrite !andb_true_iff. intros ((((A & B) & C) & D) & E). apply mat_eqb_eq in A, B, C, D. apply all2_eq in E; [|intros; now apply sig_eqb_eq]. destruct x, y; cbn in *. congruence.
Qed.
Definition couple_eqb (x y : matter * matter) : bool := mat_eqb (fst x) (fst y) && mat_eqb (snd x) (snd y).
Lemma couple_eqb_eq x y : couple_eqb x y = true -> x = y.
Proof. unfold couple_eqb. rewrite andb_true_iff. intros (A & B). apply mat_eqb_eq in A, B. destruct x, y; cbn in *. congruence. Qed.
Definition group_eqb (x y : group) : bool :=
  match x, y with
  | GSources a, GSources b => all2 couple_eqb a b
  | GQuadlets [GSigs a], GQuadlets [GSigs b] => all2 sig_eqb a b
  | GQuadlets [GPaths a], GQuadlets [GPaths b] => all2 path_eqb a b
  | _, _ => false
  end.
Lemma group_eqb_eq x y : group_eqb x y = true -> x = y.
Proof.
  unfold group_eqb. intros H. destruct x as [| |?|[|[| | | |] [|]]|]; destruct y as [| |?|[|[| | | |] [|]]|]; try discriminate.
  - apply all2_eq in H; [congruence|exact couple_eqb_eq].
  - apply all2_eq in H; [congruence|intros; now apply sig_eqb_eq].
  - apply all2_eq in H; [congruence|exact path_eqb_eq].
Qed.
(** Those of [letters] in their letters, and no other. *)
Definition own_letter (g : group) : R bytes := match find (fun p => group_eqb (snd p) g) letters with Some p => Ok (fst p) | None => Err EDecoding end.
Lemma own_textual : textual own_letter.
Proof. intros g t H. unfold own_letter in H. destruct (find _ letters) as [(k, x)|] eqn:F; [|discriminate]. injection H as <-. apply find_some in F as (F & _). cbn [letters In] in F. repeat (destruct F as [[= <- _]|F]; [reflexivity|]). destruct F. Qed.
Lemma own_read : reads_back lettered own_letter.
Proof.
  intros g t H. unfold own_letter in H. destruct (find _ letters) as [(k, x)|] eqn:F; [|discriminate]. injection H as <-. apply find_some in F as (F & E). cbn [fst snd] in *. apply group_eqb_eq in E. subst x. exists [].
  cbn [letters In] in F. repeat (destruct F as [[= <- <-]|F]; [reflexivity|]). destruct F.
Qed.
Definition issued_ledger : ledger := fst (ingest_messages no_floats mix toy lettered own_letter (fun _ _ => Ok true) (fun _ => Ok 0%Z) (fun _ _ => true) 9 empty (s! "issued") (Some false) None).
Definition revoked_ledger : ledger := fst (ingest_messages no_floats mix toy lettered own_letter (fun _ _ => Ok true) (fun _ => Ok 0%Z) (fun _ _ => true) 9 issued_ledger (s! "revoked") None None).
Lemma takes_in l stream deep : reached no_floats mix toy lettered own_letter (fun _ _ => Ok true) (fun _ => Ok 0%Z) (fun _ _ => true) l ->
  reached no_floats mix toy lettered own_letter (fun _ _ => Ok true) (fun _ => Ok 0%Z) (fun _ _ => true) (fst (ingest_messages no_floats mix toy lettered own_letter (fun _ _ => Ok true) (fun _ => Ok 0%Z) (fun _ _ => true) 9 l stream deep None)).
Proof. intros R. eapply reached_more; [exact R| |apply surjective_pairing]. discriminate. Qed.
Lemma issued_reached : reached no_floats mix toy lettered own_letter (fun _ _ => Ok true) (fun _ => Ok 0%Z) (fun _ _ => true) issued_ledger.
Proof. unfold issued_ledger. apply takes_in. apply reached_empty. Qed.
Lemma revoked_reached : reached no_floats mix toy lettered own_letter (fun _ _ => Ok true) (fun _ => Ok 0%Z) (fun _ _ => true) revoked_ledger.
Proof. unfold revoked_ledger. apply takes_in. exact issued_reached. Qed.

(*# C168_stored_key_events_verify_again
   Whatever was taken into a ledger from an empty one, with verification on, verifies again, at any later time and at any depth: for every key event in a log, the text holds the event and the group
   of attachments that follows, and verifying the one with the other against the ledger as it now is succeeds and says that the event was there. The recursion of a deep verification is no deeper than
   the event's number and one. Assumed of the parser: a group that was printed is read back.
##
Example C168_stored_case : sized_hash mix /\ finds_all no_floats (fun _ _ => true) /\ textual own_letter /\ reads_back lettered own_letter /\
  reached no_floats mix toy lettered own_letter (fun _ _ => Ok true) (fun _ => Ok 0%Z) (fun _ _ => true) revoked_ledger /\ length (l_kel revoked_ledger pre0) = 4%nat.
Proof.
  split; [exact mix_sized|]. split; [intros l said _; reflexivity|]. split; [exact own_textual|]. split; [exact own_read|]. split; [exact revoked_reached|]. vm_compute. reflexivity.
Qed.
#*)
Lemma C168_l (canon : bytes -> option bytes) (hash : bytes -> bytes -> bytes) (cr : crypto) (messages_of : bytes -> R (list message)) (group_text : group -> R bytes)
    (schema_check : bytes -> bytes -> R bool) (age : bytes -> R Z) (seen_said : ledger -> bytes -> bool) (l : ledger) (pre : bytes) (n : nat) (text : bytes) :
  sized_hash hash -> finds_all canon seen_said -> textual group_text -> reads_back messages_of group_text ->
  reached canon hash cr messages_of group_text schema_check age seen_said l -> nth_error (l_kel l pre) n = Some text -> N.of_nat n < 2 ^ 32 ->
  exists e value rest more, text = d_raw e ++ rest /\ serder_with_raw canon text = Ok e /\ field_of (d_ked e) (s! "i") (VStr pre) /\ ordinal (d_ked e) (N.of_nat n) /\
    messages_of rest = Ok (MGroup (GQuadlets value) :: more) /\
    forall fuel deep seen, (n < fuel)%nat -> exists seen', verify_key_event canon hash cr messages_of fuel (view canon l) e value deep seen = Ok (true, seen').
Proof.
  intros SH FA TX RB RE H S. destruct (stored_again _ _ _ _ _ _ _ _ _ SH FA TX RE pre n text H S) as (e & value & rest & T & G & R & FI & FN & V). destruct (RB _ _ G) as (more & M).
  exists e, value, rest, more. repeat (split; [assumption|]). intros fuel deep seen LF. destruct fuel as [|f]; [lia|]. destruct (or_else deep false) eqn:DD.
  - destruct deep as [[]|]; try discriminate. apply (no_deeper _ _ _ _ _ _ _ _ l SH FA TX RE RB _ _ _ _ _ pre (N.of_nat n) f 1 V FI FN). lia.
  - exists seen. now apply (shallow _ _ _ _ _ _ _ _ _ _ _ _ _ V).
Qed.

(*# C168_depth_adds_nothing
   Against such a ledger deep verification of any key event, new or stored, good or bad, gives exactly what verification that trusts the stored events gives: the same answer, the same error, or a panic as well.
##
Example C168_depth_case : sized_hash mix /\ finds_all no_floats (fun _ _ => true) /\ textual own_letter /\ reads_back lettered own_letter /\
  reached no_floats mix toy lettered own_letter (fun _ _ => Ok true) (fun _ => Ok 0%Z) (fun _ _ => true) issued_ledger /\
  (forall n, ordinal (d_ked anchor3) n -> (N.to_nat n < 9)%nat) /\ verify_key_event no_floats mix toy lettered 1 (view no_floats issued_ledger) anchor3 [GSigs asigs3] None [] = Ok (false, []).
Proof.
  split; [exact mix_sized|]. split; [intros l said _; reflexivity|]. split; [exact own_textual|]. split; [exact own_read|]. split; [exact issued_reached|].
  split; [|vm_compute; reflexivity]. intros n H. apply sn_field in H. assert (serder_sn anchor3 = Ok 3) as E by (vm_compute; reflexivity). assert (n = 3) as -> by congruence. vm_compute. lia.
Qed.
#*)
Lemma C168d_l (canon : bytes -> option bytes) (hash : bytes -> bytes -> bytes) (cr : crypto) (messages_of : bytes -> R (list message)) (group_text : group -> R bytes)
    (schema_check : bytes -> bytes -> R bool) (age : bytes -> R Z) (seen_said : ledger -> bytes -> bool) (l : ledger) (e : sadder) (g : list group) (fuel : nat) (deep : option bool) (seen : list bytes) :
  sized_hash hash -> finds_all canon seen_said -> textual group_text -> reads_back messages_of group_text ->
  reached canon hash cr messages_of group_text schema_check age seen_said l -> (0 < fuel)%nat -> (forall n, ordinal (d_ked e) n -> (N.to_nat n < fuel)%nat) ->
  verdict (verify_key_event canon hash cr messages_of fuel (view canon l) e g deep seen) = verdict (verify_key_event canon hash cr messages_of 1 (view canon l) e g None []).
Proof. intros SH FA TX RB RE F0 FN. now apply (key_verdict _ _ _ _ group_text schema_check age seen_said). Qed.

(*# C169_stored_registry_events_verify_again
   The same for registry events: each one in a log verifies again, with the attachments stored behind it, at any later time and at any depth.
##
Example C169_stored_case : sized_hash mix /\ finds_all no_floats (fun _ _ => true) /\ textual own_letter /\ reads_back lettered own_letter /\
  reached no_floats mix toy lettered own_letter (fun _ _ => Ok true) (fun _ => Ok 0%Z) (fun _ _ => true) revoked_ledger /\ length (l_tel revoked_ledger rpre0) = 1%nat /\ length (l_tel revoked_ledger csaid0) = 2%nat.
Proof.
  split; [exact mix_sized|]. split; [intros l said _; reflexivity|]. split; [exact own_textual|]. split; [exact own_read|]. split; [exact revoked_reached|]. split; vm_compute; reflexivity.
Qed.
#*)
Lemma C169_l (canon : bytes -> option bytes) (hash : bytes -> bytes -> bytes) (cr : crypto) (messages_of : bytes -> R (list message)) (group_text : group -> R bytes)
    (schema_check : bytes -> bytes -> R bool) (age : bytes -> R Z) (seen_said : ledger -> bytes -> bool) (l : ledger) (pre : bytes) (n : nat) (text : bytes) :
  sized_hash hash -> finds_all canon seen_said -> textual group_text -> reads_back messages_of group_text ->
  reached canon hash cr messages_of group_text schema_check age seen_said l -> nth_error (l_tel l pre) n = Some text -> N.of_nat n < 2 ^ 32 ->
  exists e value rest more bound, text = d_raw e ++ rest /\ serder_with_raw canon text = Ok e /\ field_of (d_ked e) (s! "i") (VStr pre) /\ ordinal (d_ked e) (N.of_nat n) /\
    messages_of rest = Ok (MGroup (GSources value) :: more) /\
    forall fuel deep seen, (bound <= fuel)%nat -> exists seen', verify_transaction_event canon hash cr messages_of fuel (view canon l) e value deep seen = Ok (true, seen').
Proof.
  intros SH FA TX RB RE H S. destruct (registered_again _ _ _ _ _ _ _ _ _ FA TX RE pre n text H S) as (e & value & rest & T & G & R & FI & FN & V). destruct (RB _ _ G) as (more & M).
  destruct (tel_no_deeper _ _ _ _ _ _ _ _ l SH FA TX RE RB _ _ _ _ _ _ _ _ V FI FN) as (b & B). exists e, value, rest, more, b. repeat (split; [assumption|]). exact B.
Qed.

(*# C169_depth_adds_nothing
   Against such a ledger verification of any registry event at any depth, once the recursion may be deep enough, gives exactly what verification that trusts the store gives: answer, error or panic.
##
Example C169_depth_case : sized_hash mix /\ finds_all no_floats (fun _ _ => true) /\ textual own_letter /\ reads_back lettered own_letter /\
  reached no_floats mix toy lettered own_letter (fun _ _ => Ok true) (fun _ => Ok 0%Z) (fun _ _ => true) revoked_ledger /\
  verify_transaction_event no_floats mix toy lettered 1 (view no_floats revoked_ledger) rev0 [couple 3 anchor3] (Some false) [] = Ok (true, []).
Proof.
  split; [exact mix_sized|]. split; [intros l said _; reflexivity|]. split; [exact own_textual|]. split; [exact own_read|]. split; [exact revoked_reached|]. vm_compute. reflexivity.
Qed.
#*)
Lemma C169d_l (canon : bytes -> option bytes) (hash : bytes -> bytes -> bytes) (cr : crypto) (messages_of : bytes -> R (list message)) (group_text : group -> R bytes)
    (schema_check : bytes -> bytes -> R bool) (age : bytes -> R Z) (seen_said : ledger -> bytes -> bool) (l : ledger) (e : sadder) (couples : list (matter * matter)) :
  sized_hash hash -> finds_all canon seen_said -> textual group_text -> reads_back messages_of group_text -> reached canon hash cr messages_of group_text schema_check age seen_said l ->
  exists bound, forall fuel deep seen, (bound <= fuel)%nat ->
    verdict (verify_transaction_event canon hash cr messages_of fuel (view canon l) e couples deep seen) = verdict (verify_transaction_event canon hash cr messages_of 1 (view canon l) e couples (Some false) []).
Proof. intros SH FA TX RB RE. now apply (tel_verdict _ _ _ _ group_text schema_check age seen_said). Qed.
