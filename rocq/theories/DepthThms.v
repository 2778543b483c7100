(** Proofs of the theorems about verifying credentials again. *)
From Coq Require Import String.
From Coq Require Import NArith ZArith QArith Bool List Lia.
From Verif Require Import Base Tables Matter Indexer Prims Json Tholder Common Saider Diger Sadder Signer Prefixer Pather Short Verify Ingest Events.
From Verif Require Import Spec SpecPrims SpecJson SpecCommon SpecTholder SpecSaider SpecSadder SpecPrefixer SpecSigner SpecLog SpecIngest SpecCred SpecExtra SpecEndorse SpecExact SpecAgain World Forgery Chain.
From Verif Require Import BaseFacts MatterFacts MatterText PrimsFacts SaiderFacts SaiderThms SadderFacts SadderThms VerifyFacts VerifyThms ExtraFacts LogThms IngestThms CredThms ChainThms EndorseThms ExactThms AgainThms.
Import ListNotations.
Open Scope N_scope.

(** ** Computations that go the same way *)
Definition kin {A} (P : A -> A -> Prop) (x y : R A) : Prop :=
  match x, y with Ok a, Ok b => P a b | Err a, Err b => a = b | Panic, Panic => True | _, _ => False end.
Definition any {A} (_ _ : A) : Prop := True.
Lemma kin_same {A B} (Q : B -> B -> Prop) (x : R A) f g : (forall a, x = Ok a -> kin Q (f a) (g a)) -> kin Q (let* a := x in f a) (let* a := x in g a).
Proof. intros H. destruct x; cbn [bind kin]; auto. Qed.
Lemma kin_bind {A B} (P : A -> A -> Prop) (Q : B -> B -> Prop) (x y : R A) f g : kin P x y -> (forall a b, x = Ok a -> y = Ok b -> P a b -> kin Q (f a) (g b)) -> kin Q (let* a := x in f a) (let* b := y in g b).
Proof. intros H K. destruct x, y; cbn [bind kin] in *; auto; contradiction. Qed.
Lemma kin_verdict x y : kin (fun a b => fst a = fst b) x y -> verdict x = verdict y.
Proof. destruct x as [(a & s)| |], y as [(b & t)| |]; cbn; try contradiction; congruence. Qed.
Ltac kins := repeat match goal with
  | |- kin _ (bind ?x _) (bind ?x _) => let a := fresh "a" in let E := fresh "E" in apply kin_same; intros a E
  | |- kin _ (if ?b then _ else _) (if ?b then _ else _) => let E := fresh "E" in destruct b eqn:E
  | |- kin _ (Err _) (Err _) => reflexivity
  | |- kin _ Panic Panic => exact I
  end.

Section Kin.
Variable canon : bytes -> option bytes.
Variable hash : bytes -> bytes -> bytes.
Variable cr : crypto.
Variable mo : bytes -> R (list message).
Variable schema_check : bytes -> bytes -> R bool.
Variable age : bytes -> R Z.
Variable st : store.

(** The event a group of signatures names, if it is there, verifies. *)
Definition backed (f : nat) (deep : option bool) (p : sad_path_sig) : Prop :=
  forall pre n event e said seen, infil (sp_prefixer p) = Ok pre -> seqner_sn (sp_seqner p) = Ok n -> get_key_event st pre (asked_for n) = Ok event -> serder_with_raw canon event = Ok e -> sad_said e = Ok said ->
    exists rest value r, from_str event (len (d_raw e)) = Ok rest /\ first_group mo rest = Ok (GQuadlets value) /\ verify_key_event canon hash cr mo f st e value deep seen = Ok r.
Lemma path_kin f f' c deep p seen seen1 : backed f deep p ->
  kin (fun a b => a = None <-> b = None) (check_path_sig canon hash cr mo f st c deep p seen) (check_path_sig canon hash cr mo f' st c (Some false) p seen1).
Proof.
  intros D. unfold check_path_sig. kins; [cbn; tauto|]. apply (kin_bind any).
  - cbn [or_else andb]. match goal with |- kin _ (if or_else deep true && negb (has_code seen ?s) then _ else _) _ => destruct (or_else deep true && negb (has_code seen s)); [|exact I] end. rewrite asked_mod in *.
    match goal with P : infil _ = Ok ?pre, N : seqner_sn _ = Ok ?n, G : get_key_event _ ?pre _ = Ok ?ev, R : serder_with_raw _ ?ev = Ok ?x, S : sad_said ?x = Ok ?ss |- _ => destruct (D pre n ev x ss (ss :: seen) P N G R S) as (rest & value & r & -> & R2 & R3) end.
    cbn [bind]. rewrite R2. cbn [bind]. rewrite R3. exact I.
  - intros x y _ _ _. kins. match goal with |- kin _ match ?o with Some _ => _ | None => _ end _ => destruct o as [t|]; [|reflexivity] end. kins. cbn. split; discriminate.
Qed.
Lemma paths_kin f f' c deep : forall l rooted seen seen1, Forall (backed f deep) l ->
  kin (fun a b => fst a = fst b) (check_path_sigs canon hash cr mo f st c deep l rooted seen) (check_path_sigs canon hash cr mo f' st c (Some false) l rooted seen1).
Proof.
  intros l. induction l as [|p l IH]; intros rooted seen seen1 F; cbn [check_path_sigs]; [reflexivity|]. inversion F as [|? ? F1 F2]; subst. eapply kin_bind; [now apply path_kin|].
  intros [s|] [t|] _ _ K; cbn beta iota; auto; destruct K as (K1 & K2); try (discriminate (K1 eq_refl)); discriminate (K2 eq_refl).
Qed.
Lemma path_groups_kin f f' c deep : forall gs rooted seen seen1, (forall l p, In (GPaths l) gs -> In p l -> backed f deep p) ->
  kin (fun a b => fst a = fst b) (check_path_groups canon hash cr mo f st c deep gs rooted seen) (check_path_groups canon hash cr mo f' st c (Some false) gs rooted seen1).
Proof.
  intros gs. induction gs as [|g gs IH]; intros rooted seen seen1 F; cbn [check_path_groups]; [reflexivity|]. destruct g; try reflexivity. eapply kin_bind; [apply paths_kin; apply Forall_forall; intros p I; apply (F l); [now left|exact I]|].
  intros (a & s) (b & t) _ _ K. cbn [fst snd] in *. subst b. apply IH. intros l' p I J. apply (F l'); [now right|exact J].
Qed.
(** The credential an edge leads to, if it is there, verifies. *)
Definition borne (f : nat) (c : sadder) (deep : option bool) (node : value) : Prop :=
  forall said text e seen, check_node canon schema_check st c node = Ok (said, text, e) ->
    exists rest value r, from_str text (len (d_raw e)) = Ok rest /\ first_group mo rest = Ok (GQuadlets value) /\ verify_acdc canon hash cr mo schema_check age f st e value deep seen = Ok r.
Lemma nodes_kin f f' c deep : forall nodes seen seen1, (forall label node, In (label, node) nodes -> label <> s! "d" -> label <> s! "o" -> borne f c deep node) ->
  kin any (nodes_of canon hash cr mo schema_check age f st c deep nodes seen) (nodes_of canon hash cr mo schema_check age f' st c (Some false) nodes seen1).
Proof.
  intros nodes. induction nodes as [|(label, node) nodes IH]; intros seen seen1 F; cbn [nodes_of]; [exact I|]. destruct (has_code [s! "d"; s! "o"] label) eqn:HC. { apply IH. intros l n J. apply (F l). now right. }
  assert (label <> s! "d" /\ label <> s! "o") as (N1 & N2). { split; intros ->; discriminate. }
  kins. destruct a as ((said, text), e). apply (kin_bind any).
  - cbn [or_else andb]. destruct (or_else deep true && negb (has_code seen said)); [|exact I]. destruct (F label node ltac:(now left) N1 N2 said text e (said :: seen) E) as (rest & value & r & -> & R2 & R3). cbn [bind]. rewrite R2. cbn [bind]. rewrite R3. exact I.
  - intros x y _ _ _. apply IH. intros l n J. apply (F l). now right.
Qed.
Lemma edges_kin f f' c deep : forall edges seen seen1, (forall es label node, In (VObj es) edges -> In (label, node) es -> label <> s! "d" -> label <> s! "o" -> borne f c deep node) ->
  kin any (edges_of canon hash cr mo schema_check age f st c deep edges seen) (edges_of canon hash cr mo schema_check age f' st c (Some false) edges seen1).
Proof.
  intros edges. induction edges as [|x edges IH]; intros seen seen1 F; cbn [edges_of]; [exact I|]. kins. unfold to_map in E. destruct x; try discriminate. injection E as ->. eapply kin_bind.
  - apply nodes_kin. intros label node J. apply (F a). now left. exact J.
  - intros y z _ _ _. apply IH. intros es label node J. apply (F es). now right.
Qed.
(** The last event in the log of an identifier verifies. *)
Definition stated (f : nat) (deep : option bool) (said : bytes) : Prop :=
  forall event state ssaid seen, get_latest_transaction_event st said = Ok event -> serder_with_raw canon event = Ok state -> sad_said state = Ok ssaid ->
    exists rest value r, from_str event (len (d_raw state)) = Ok rest /\ first_group mo rest = Ok (GSources value) /\ verify_transaction_event canon hash cr mo f st state value deep seen = Ok r.
Lemma acdc_kin f f' c g deep seen seen1 : (forall said, sad_said c = Ok said -> stated f deep said) -> (forall l p, In (GPaths l) g -> In p l -> backed f deep p) -> (forall node, edge (d_ked c) node -> borne f c deep node) ->
  verdict (verify_acdc canon hash cr mo schema_check age (S f) st c g deep seen) = verdict (verify_acdc canon hash cr mo schema_check age (S f') st c g (Some false) seen1).
Proof.
  intros DS DP DN. apply kin_verdict. cbn [verify_acdc]. kins. apply (kin_bind any).
  - cbn [or_else andb]. match goal with |- kin _ (if or_else deep true && negb (has_code seen ?s) then _ else _) _ => destruct (or_else deep true && negb (has_code seen s)); [|exact I] end.
    match goal with G : get_latest_transaction_event _ _ = Ok ?ev, R : serder_with_raw _ ?ev = Ok ?sta, S : sad_said ?sta = Ok ?ss, V : sad_said c = Ok _ |- _ => destruct (DS _ V ev sta ss (ss :: seen) G R S) as (rest & value & r & -> & R2 & R3) end. cbn [bind]. rewrite R2. cbn [bind]. rewrite R3. exact I.
  - intros x y _ _ _. kins. eapply kin_bind; [apply path_groups_kin; exact DP|]. intros (a', s') (b', t') _ _ K. cbn [fst snd] in *. subst b'. kins. apply (kin_bind any).
    + match goal with |- kin _ (?f1 ?edges s') (?f2 ?edges t') => change (kin any (edges_of canon hash cr mo schema_check age f st c deep edges s') (edges_of canon hash cr mo schema_check age f' st c (Some false) edges t')) end.
      apply edges_kin. intros es label node J1 J2 N1 N2. apply DN. match goal with C : creder_chains c = Ok ?prov |- _ => apply (edges_in c prov C) end. exists label, es. split; auto. split; auto. split; auto.
      match goal with X : match ?prov with VNull => _ | _ => _ end = Ok ?l |- _ => destruct prov; try discriminate; injection X as <- end; [right; eauto|]. destruct J1 as [J1|[]]. left. exact J1.
    + intros y1 y2 _ _ _. match goal with |- kin _ match get_acdc st ?a with _ => _ end _ => destruct (get_acdc st a) as [message| |]; [|reflexivity|exact I] end. kins. reflexivity.
Qed.
End Kin.

(** ** Stored credentials *)
Lemma last_of_some keep (l : list bytes) x : In x l -> keep x = true -> exists y, last_of keep l = Ok y.
Proof.
  induction l as [|z l IH]; intros I K; [destruct I|]. cbn [last_of]. destruct (last_of keep l) as [y| |] eqn:E; [eauto| |].
  - destruct I as [->|I]; [rewrite K; eauto|]. destruct (IH I K) as (y & Y). discriminate.
  - destruct I as [->|I]; [rewrite K; eauto|]. destruct (IH I K) as (y & Y). discriminate.
Qed.
Lemma before_cut {A} (l : list A) : forall n m, (n < m)%nat -> nth_error (firstn m l) n = nth_error l n.
Proof. induction l as [|x l IH]; intros n m L; [now rewrite firstn_nil|]. destruct m as [|m]; [lia|]. destruct n as [|n]; cbn; auto. apply IH. lia. Qed.
Lemma edges_finite v : exists ns, forall node, edge v node <-> In node ns.
Proof.
  destruct v as [| | | | | |m]; try (exists []; intros node; split; [|intros []]; intros (label & es & _ & _ & _ & [F|(ll & F & _)]); apply field_obj in F as (m & Q & _); discriminate).
  destruct (assoc (s! "e") m) as [x|] eqn:A.
  - assert (forall y, field_of (VObj m) (s! "e") y <-> x = y) as U. { intros y. rewrite field_assoc, A. split; congruence. }
    set (inner es := map snd (filter (fun p : bytes * value => negb (has_code [s! "d"; s! "o"] (fst p))) es)).
    assert (forall es node, In node (inner es) <-> exists label, In (label, node) es /\ label <> s! "d" /\ label <> s! "o") as IN.
    { intros es node. unfold inner. rewrite in_map_iff. split.
      - intros ((label, nd) & <- & F). apply filter_In in F as (F & B). exists label. split; auto. cbn [fst] in B. split; intros ->; discriminate.
      - intros (label & F & N1 & N2). exists (label, node). split; auto. apply filter_In. split; auto. cbn [fst]. destruct (has_code [s! "d"; s! "o"] label) eqn:H; auto. apply has_code_In in H. destruct H as [H|[H|[]]]; congruence. }
    exists (flat_map (fun y => match y with VObj es => inner es | _ => [] end) (match x with VArr l => l | _ => [x] end)). intros node. rewrite in_flat_map. split.
    + intros (label & es & J & N1 & N2 & [F|(l & F & K)]); apply U in F; subst x; exists (VObj es); (split; [auto; now left|]); apply IN; eauto.
    + intros (y & J & K). destruct y as [| | | | | |es]; try destruct K. apply IN in K as (label & K & N1 & N2). exists label, es. split; auto. split; auto. split; auto.
      destruct x as [| | | | |l|es']; try (destruct J as [J|[]]; discriminate).
      * right. exists l. split; auto. now apply U.
      * destruct J as [[= ->]|[]]. left. now apply U.
  - exists []. intros node. split; [|intros []]. intros (label & es & _ & _ & _ & [F|(l & F & _)]); apply field_assoc in F; congruence.
Qed.
Lemma bound_all {A} (P : nat -> A -> Prop) : forall l, (forall x, In x l -> exists b, forall f, (b <= f)%nat -> P f x) -> exists b, forall f x, (b <= f)%nat -> In x l -> P f x.
Proof.
  induction l as [|x l IH]; intros H; [exists 0%nat; intros f x _ []|]. destruct IH as (b & B). { intros y J. apply H. now right. } destruct (H x ltac:(now left)) as (c & C). exists (b + c)%nat. intros f y L [<-|J]; [apply C; lia|apply B; auto; lia].
Qed.

Section Kept.
Variable canon : bytes -> option bytes.
Variable hash : bytes -> bytes -> bytes.
Variable cr : crypto.
Variable mo : bytes -> R (list message).
Variable group_text : group -> R bytes.
Variable schema_check : bytes -> bytes -> R bool.
Variable age : bytes -> R Z.
Variable seen_said : ledger -> bytes -> bool.
Variable l : ledger.
Hypothesis FA : finds_all canon seen_said.
Hypothesis TX : textual group_text.
Hypothesis RE : reached canon hash cr mo group_text schema_check age seen_said l.
Variable age' : bytes -> R Z.

Lemma first_time n text : nth_error (l_acdc l) n = Some text -> exists l0 e value rest said, extends l0 l /\ l_acdc l0 = firstn n (l_acdc l) /\ text = d_raw e ++ rest /\ group_text (GQuadlets value) = Ok rest /\
  creder_with_raw canon text = Ok e /\ due canon hash cr schema_check age (view canon l0) e value said /\ sectioned (d_ked e) /\ (forall node, edge (d_ked e) node -> in_order canon schema_check (view canon l0) e node) /\
  exists er, get_acdc (view canon l0) said = Err er.
Proof.
  intros H. destruct (C126c_l _ _ _ _ _ _ _ _ _ _ _ FA TX RE H) as (l0 & e & v & rest & fu & de & se & se' & X & F & T & G & HE & V). apply acdc_shallow in V. cbn [fst] in V.
  apply exactly_accepted in V as (_ & said & D & S & E & [(W & _)|(_ & W)]); [discriminate|]. exists l0, e, v, rest, said. repeat (split; [assumption|]). exact W.
Qed.
Lemma one_each n m text text' e e' said : nth_error (l_acdc l) n = Some text -> nth_error (l_acdc l) m = Some text' -> creder_with_raw canon text = Ok e -> creder_with_raw canon text' = Ok e' ->
  sad_said e = Ok said -> sad_said e' = Ok said -> n = m.
Proof.
  assert (forall n m text text' e e' said, (n < m)%nat -> nth_error (l_acdc l) n = Some text -> nth_error (l_acdc l) m = Some text' -> creder_with_raw canon text = Ok e -> creder_with_raw canon text' = Ok e' ->
    sad_said e = Ok said -> sad_said e' = Ok said -> False) as K.
  { clear n m text text' e e' said. intros n m text text' e e' said L N M R1 R2 S1 S2. destruct (first_time m text' M) as (l0 & e0 & value & rest & said0 & _ & F & _ & _ & R & D & _ & _ & er & GE). assert (e0 = e') as -> by congruence.
    destruct D as (a1 & a2 & a3 & a4 & a5 & a6 & a7 & a8 & D1 & D2 & _). assert (said0 = said) as -> by congruence. cbn [view get_acdc] in GE.
    destruct (last_of_some (names canon said) (l_acdc l0) text) as (y & Y); [| |congruence].
    - rewrite F. apply (nth_error_In _ n). rewrite before_cut; auto.
    - unfold names. now rewrite R1, S1, beq_refl. }
  intros N M R1 R2 S1 S2. destruct (Nat.lt_trichotomy n m) as [L|[L|L]]; auto; exfalso; [apply (K n m text text' e e' said)|apply (K m n text' text e' e said)]; auto.
Qed.
Lemma got n text e said : nth_error (l_acdc l) n = Some text -> creder_with_raw canon text = Ok e -> sad_said e = Ok said -> get_acdc (view canon l) said = Ok text.
Proof.
  intros N R S. cbn [view get_acdc]. destruct (last_of_some (names canon said) (l_acdc l) text) as (y & Y). { now apply (nth_error_In _ n). } { unfold names. now rewrite R, S, beq_refl. }
  rewrite Y. apply last_of_in in Y as (I & NM). apply In_nth_error in I as (m & M). unfold names in NM. destruct (creder_with_raw canon y) as [e'| |] eqn:R'; try discriminate. destruct (sad_said e') as [s| |] eqn:S'; try discriminate. apply beq_eq in NM. subst s.
  assert (n = m) as -> by apply (one_each n m text y e e' said N M R R' S S'). congruence.
Qed.
Lemma in_view said text e : get_acdc (view canon l) said = Ok text -> creder_with_raw canon text = Ok e -> exists n, nth_error (l_acdc l) n = Some text /\ sad_said e = Ok said.
Proof.
  intros G R. cbn [view get_acdc] in G. apply last_of_in in G as (I & NM). apply In_nth_error in I as (n & N). exists n. split; auto. unfold names in NM. rewrite R in NM. destruct (sad_said e) as [s| |]; try discriminate. apply beq_eq in NM. congruence.
Qed.
Lemma held_more l0 said e : extends l0 l -> held canon (view canon l0) said e -> held canon (view canon l) said e.
Proof.
  intros (_ & _ & more & E) (text & G & R). exists text. split; auto. cbn [view get_acdc] in G. apply last_of_in in G as (I & NM). unfold names in NM. rewrite R in NM. destruct (sad_said e) as [s| |] eqn:S; try discriminate. apply beq_eq in NM. subst s.
  assert (In text (l_acdc l)) as J by (rewrite E; apply in_or_app; auto). apply In_nth_error in J as (n & N). now apply (got n text e).
Qed.
Lemma in_order_more l0 e node : extends l0 l -> in_order canon schema_check (view canon l0) e node -> in_order canon schema_check (view canon l) e node.
Proof. intros X (said & e' & ops & subject & A & B & C). exists said, e', ops, subject. split; auto. split; auto. now apply (held_more l0). Qed.
Lemma state_said said state : current canon (view canon l) said state -> exists ssaid, sad_said state = Ok ssaid.
Proof.
  intros (text & G & R). cbn [view get_latest_transaction_event] in G. apply last_of_in in G as (I & _). apply In_nth_error in I as (n & N).
  destruct (C126r_l _ _ _ _ _ _ _ _ _ _ _ _ FA TX RE N) as (l0 & e & value & rest & fu & de & se & se' & _ & _ & _ & _ & R' & _ & _ & V). assert (e = state) as -> by congruence.
  apply registered_well in V as (pre & m & said' & count & (a1 & a2 & a3 & a4 & a5 & a6 & a7 & a8 & a9 & a10 & _ & _ & _ & _ & _ & S & _) & _). eauto.
Qed.
Lemma due_more l0 e g said : extends l0 l -> due canon hash cr schema_check age (view canon l0) e g said -> standing canon age' (view canon l) said -> due canon hash cr schema_check age' (view canon l) e g said.
Proof.
  intros X (registry & schema & saider & state & ssaid & ilk & dt & secs & A1 & A2 & A3 & A4 & A5 & _ & _ & _ & _ & _ & _ & _ & _ & A6 & A7 & A8 & A9 & EN) (state' & ilk' & dt' & secs' & C & T & N1 & N2 & F & AG & LE).
  destruct (state_said _ _ C) as (ssaid' & SS). exists registry, schema, saider, state', ssaid', ilk', dt', secs'. repeat (split; [assumption|]). intros p P. destruct (EN p P) as (x & ks & t & sigs & good & (pre & n & s & B1 & B2 & B3 & LG & B4) & B).
  exists x, ks, t, sigs, good. split; auto. exists pre, n, s. repeat (split; [assumption|]). split; auto. now apply (logged_more canon l0).
Qed.
Lemma due_standing st e g said : due canon hash cr schema_check age' st e g said -> standing canon age' st said.
Proof. intros (registry & schema & saider & state & ssaid & ilk & dt & secs & A1 & A2 & A3 & A4 & A5 & B1 & B2 & B3 & B4 & B5 & B6 & B7 & B8 & _). exists state, ilk, dt, secs. repeat (split; [assumption|]). assumption. Qed.
Lemma kept_iff n text : nth_error (l_acdc l) n = Some text -> exists e value rest said, text = d_raw e ++ rest /\ group_text (GQuadlets value) = Ok rest /\ creder_with_raw canon text = Ok e /\ sad_said e = Ok said /\
  forall fuel seen, verify_acdc canon hash cr mo schema_check age' (S fuel) (view canon l) e value (Some false) seen = Ok (true, seen) <-> standing canon age' (view canon l) said.
Proof.
  intros N. destruct (first_time n text N) as (l0 & e & value & rest & said & X & F & T & G & R & D & SE & IO & _). assert (sad_said e = Ok said) as S by (destruct D as (a1 & a2 & a3 & a4 & a5 & a6 & a7 & a8 & D1 & D2 & _); exact D2).
  exists e, value, rest, said. repeat (split; [assumption|]). intros fuel seen. rewrite exactly_accepted. split.
  - intros (_ & said' & D' & _). assert (sad_said e = Ok said') as S' by (destruct D' as (a1 & a2 & a3 & a4 & a5 & a6 & a7 & a8 & D1 & D2 & _); exact D2). assert (said' = said) as -> by congruence. now apply due_standing in D'.
  - intros ST. split; auto. exists said. split; [now apply (due_more l0)|]. split; auto. split; [intros node E; apply (in_order_more l0); auto|]. left. split; auto. exists e. split; auto. exists text. split; auto. now apply (got n text e).
Qed.

Hypothesis SH : sized_hash hash.
Hypothesis RB : reads_back mo group_text.
Hypothesis TL : forall pre, len (l_tel l pre) <= 2 ^ 32.

Lemma key_any pre n text e : nth_error (l_kel l pre) n = Some text -> N.of_nat n < 2 ^ 32 -> serder_with_raw canon text = Ok e -> forall f deep seen, (n < f)%nat ->
  exists rest value r, from_str text (len (d_raw e)) = Ok rest /\ first_group mo rest = Ok (GQuadlets value) /\ verify_key_event canon hash cr mo f (view canon l) e value deep seen = Ok r.
Proof.
  intros H S R f deep seen LF. destruct f as [|f]; [lia|]. destruct (deep_again canon hash cr mo group_text schema_check age seen_said l SH FA TX RE RB n pre text e H S R f seen ltac:(lia)) as (rest & value & seen' & A & B & C).
  exists rest, value. destruct (or_else deep false) eqn:DD.
  - destruct deep as [[]|]; try discriminate. eauto.
  - eexists. repeat (split; [assumption|]). now apply (shallow _ _ _ _ _ _ _ _ _ _ _ _ _ C).
Qed.
Lemma backed_bound p : exists b, forall f, (b <= f)%nat -> forall deep, backed canon hash cr mo (view canon l) f deep p.
Proof.
  destruct (seqner_sn (sp_seqner p)) as [n|er|] eqn:SN; [|exists 0%nat; intros f _ deep pre n event e said seen _ Q; congruence|exists 0%nat; intros f _ deep pre n event e said seen _ Q; congruence].
  exists (S (N.to_nat (asked_for n))). intros f LF deep pre n' event e said seen _ Q GE R S. assert (n' = n) as -> by congruence. cbn [view get_key_event] in GE. unfold at_sn in GE.
  destruct (nth_error (l_kel l pre) (N.to_nat (asked_for n))) as [x|] eqn:E; [|discriminate]. injection GE as ->. assert (asked_for n < 2 ^ 32) as L by (unfold asked_for; apply N.mod_lt; discriminate).
  apply (key_any pre (N.to_nat (asked_for n)) event e E); auto; lia.
Qed.
Lemma stated_bound said : exists b, forall f, (b <= f)%nat -> forall deep, stated canon hash cr mo (view canon l) f deep said.
Proof.
  destruct (get_latest_transaction_event (view canon l) said) as [event|er|] eqn:GE; [|exists 0%nat; intros f _ deep ev state ssaid seen Q; congruence|exists 0%nat; intros f _ deep ev state ssaid seen Q; congruence].
  destruct (serder_with_raw canon event) as [state|er|] eqn:R; [|exists 0%nat; intros f _ deep ev state ssaid seen Q Q'; congruence|exists 0%nat; intros f _ deep ev state ssaid seen Q Q'; congruence].
  pose proof GE as GE'. cbn [view get_latest_transaction_event] in GE'. apply last_of_in in GE' as (I & _). apply In_nth_error in I as (n & N). assert (N.of_nat n < 2 ^ 32) as LN. { assert (n < length (l_tel l said))%nat by (apply nth_error_Some; congruence). pose proof (TL said). unfold len in *. lia. }
  destruct (tel_deep_again canon hash cr mo group_text schema_check age seen_said l SH FA TX RE RB n said event state N LN R) as (b & B). exists b. intros f LF deep ev st' ssaid seen Q Q' _. assert (ev = event) as -> by congruence. assert (st' = state) as -> by congruence.
  destruct (B f deep seen LF) as (rest & value & seen' & X & Y & Z). eauto 6.
Qed.
Lemma acdc_bound c g : (forall node, edge (d_ked c) node -> exists b, forall f, (b <= f)%nat -> forall deep, borne canon hash cr mo schema_check age' (view canon l) f c deep node) ->
  exists b, forall f deep seen, (b <= f)%nat -> verdict (verify_acdc canon hash cr mo schema_check age' f (view canon l) c g deep seen) = verdict (verify_acdc canon hash cr mo schema_check age' 1 (view canon l) c g (Some false) []).
Proof.
  intros ND. destruct (edges_finite (d_ked c)) as (ns & NS).
  destruct (bound_all (fun f node => forall deep, borne canon hash cr mo schema_check age' (view canon l) f c deep node) ns) as (b1 & B1). { intros node I. apply ND. now apply NS. }
  destruct (bound_all (fun f p => forall deep, backed canon hash cr mo (view canon l) f deep p) (flat_map (fun x => match x with GPaths ps => ps | _ => [] end) g)) as (b2 & B2). { intros p _. apply backed_bound. }
  assert (exists b3, forall f, (b3 <= f)%nat -> forall deep said, sad_said c = Ok said -> stated canon hash cr mo (view canon l) f deep said) as (b3 & B3).
  { destruct (sad_said c) as [said| |]; [|exists 0%nat; intros; discriminate|exists 0%nat; intros; discriminate]. destruct (stated_bound said) as (b & B). exists b. intros f LF deep x [= <-]. now apply B. }
  exists (S (b1 + b2 + b3)). intros f deep seen LF. destruct f as [|f]; [lia|]. apply acdc_kin.
  - intros said. apply B3. lia.
  - intros ps p I J. apply B2; [lia|]. apply in_flat_map. exists (GPaths ps). auto.
  - intros node E. apply B1; [lia|]. now apply NS.
Qed.
Lemma kept_deep : forall n text e said, nth_error (l_acdc l) n = Some text -> creder_with_raw canon text = Ok e -> sad_said e = Ok said -> standing canon age' (view canon l) said ->
  (forall s, descends canon (view canon l) (d_ked e) s -> standing canon age' (view canon l) s) ->
  exists b, forall f, (b <= f)%nat -> forall deep seen, exists rest value seen', from_str text (len (d_raw e)) = Ok rest /\ first_group mo rest = Ok (GQuadlets value) /\
    verify_acdc canon hash cr mo schema_check age' f (view canon l) e value deep seen = Ok (true, seen').
Proof.
  intros n. induction n as [n IH] using lt_wf_ind. intros text e said N R S ST CH. destruct (kept_iff n text N) as (e' & value & rest & said' & T & G & R' & S' & K). assert (e' = e) as -> by congruence. assert (said' = said) as -> by congruence.
  destruct (RB _ _ G) as (more & M). assert (first_group mo rest = Ok (GQuadlets value)) as FG by (unfold first_group; now rewrite M, bind_Ok). assert (from_str text (len (d_raw e)) = Ok rest) as FR by (rewrite T; apply cut_rest; now apply (TX _ _ G)).
  destruct (acdc_bound e value) as (b & B).
  - intros node E. destruct (check_node canon schema_check (view canon l) e node) as [((s, t), x)|er|] eqn:CN; [|exists 0%nat; intros f _ deep said' text' e' seen Q; congruence|exists 0%nat; intros f _ deep said' text' e' seen Q; congruence].
    apply node_ok in CN as CN'. destruct CN' as (LD & GA & RX & _). assert (linked (d_ked e) s) as LK by (exists node; auto). destruct (C134b_l _ _ _ _ _ _ _ _ _ _ _ _ _ FA TX RE N R LK) as (m & t' & x' & LT & M' & RX' & SX').
    assert (get_acdc (view canon l) s = Ok t') as GA' by now apply (got m t' x'). assert (t' = t) as -> by congruence. assert (x' = x) as -> by congruence.
    destruct (IH m LT t x s M' RX SX') as (b & B). { apply CH. now apply descends_edge. } { intros s' D. apply CH. apply (descends_on canon _ _ s x); auto. exists t. auto. }
    exists b. intros f LF deep s' t' x' seen Q. assert (s' = s /\ t' = t /\ x' = x) as (-> & -> & ->) by (split; [|split]; congruence). destruct (B f LF deep seen) as (r1 & v1 & se & A1 & A2 & A3). eauto 6.
  - exists b. intros f LF deep seen. specialize (B f deep seen LF). rewrite (proj2 (K 0%nat []) ST) in B. destruct (verify_acdc canon hash cr mo schema_check age' f (view canon l) e value deep seen) as [(th, se)| |] eqn:V; try discriminate. cbn in B. injection B as ->.
    exists rest, value, se. auto.
Qed.
Lemma cred_verdict c g : (forall s, descends canon (view canon l) (d_ked c) s -> standing canon age' (view canon l) s) ->
  exists b, forall f deep seen, (b <= f)%nat -> verdict (verify_acdc canon hash cr mo schema_check age' f (view canon l) c g deep seen) = verdict (verify_acdc canon hash cr mo schema_check age' 1 (view canon l) c g (Some false) []).
Proof.
  intros CH. apply acdc_bound. intros node E.
  destruct (check_node canon schema_check (view canon l) c node) as [((s, t), x)|er|] eqn:CN; [|exists 0%nat; intros f _ deep said' text' e' seen Q; congruence|exists 0%nat; intros f _ deep said' text' e' seen Q; congruence].
  apply node_ok in CN as CN'. destruct CN' as (LD & GA & RX & _). assert (linked (d_ked c) s) as LK by (exists node; auto). destruct (in_view s t x GA RX) as (m & M & SX).
  destruct (kept_deep m t x s M RX SX) as (b & B). { apply CH. now apply descends_edge. } { intros s' D. apply CH. apply (descends_on canon _ _ s x); auto. exists t. auto. }
  exists b. intros f LF deep s' t' x' seen Q. assert (s' = s /\ t' = t /\ x' = x) as (-> & -> & ->) by (split; [|split]; congruence). destruct (B f LF deep seen) as (r1 & v1 & se & A1 & A2 & A3). eauto 6.
Qed.
End Kept.

(** ** The chain, with attachments printed and read back *)
Definition own_knot (g : group) : R bytes := match find (fun p => group_eqb (snd p) g) knots with Some p => Ok (fst p) | None => Err EDecoding end.
Lemma knot_textual : textual own_knot.
Proof. intros g t H. unfold own_knot in H. destruct (find _ knots) as [(k, x)|] eqn:F; [|discriminate]. injection H as <-. apply find_some in F as (F & _). cbn [knots In] in F. repeat (destruct F as [[= <- _]|F]; [reflexivity|]). destruct F. Qed.
Lemma knot_read : reads_back knotted own_knot.
Proof.
  intros g t H. unfold own_knot in H. destruct (find _ knots) as [(k, x)|] eqn:F; [|discriminate]. injection H as <-. apply find_some in F as (F & E). cbn [fst snd] in *. apply group_eqb_eq in E. subst x. exists [].
  cbn [knots In] in F. repeat (destruct F as [[= <- <-]|F]; [reflexivity|]). destruct F.
Qed.
Definition own_chain : ledger := fst (ingest_messages no_floats mix toy knotted own_knot (fun _ _ => Ok true) (fun _ => Ok 0%Z) (fun _ _ => true) 9 empty (s! "chain") (Some false) None).
Lemma chain_reached : reached no_floats mix toy knotted own_knot (fun _ _ => Ok true) (fun _ => Ok 0%Z) (fun _ _ => true) own_chain.
Proof. unfold own_chain. eapply (reached_more _ _ _ _ _ _ _ _ empty 9 (s! "chain") (Some false) None); [apply reached_empty|discriminate|apply surjective_pairing]. Qed.
Lemma own_kel p : l_kel own_chain p = added (added (added (added (added (added (fun _ => []) pre0 (d_raw event0 ++ s! "a")) pre0 (d_raw anchor1 ++ s! "a")) pre0 (d_raw anchor_a ++ s! "a")) pre_m (d_raw event_m ++ s! "e")) pre_m (d_raw anchor_m1 ++ s! "e")) pre_m (d_raw anchor_b ++ s! "e") p.
Proof. vm_compute. reflexivity. Qed.
Lemma own_tel p : l_tel own_chain p = added (added (added (added (fun _ => []) rpre0 (d_raw reg0 ++ s! "b")) csaid_a (d_raw iss_a ++ s! "c")) rpre_m (d_raw reg_m ++ s! "f")) csaid_b (d_raw iss_b ++ s! "g") p.
Proof. vm_compute. reflexivity. Qed.
Lemma own_acdc : l_acdc own_chain = [d_raw cred_a ++ s! "d"; d_raw cred_b ++ s! "h"].
Proof. vm_compute. reflexivity. Qed.
Lemma own_apart s x : an_event no_floats (view no_floats own_chain) s -> ~ held no_floats (view no_floats own_chain) s x.
Proof.
  apply (apart no_floats own_chain [csaid_a; csaid_b] [d_raw event0 ++ s! "a"; d_raw anchor1 ++ s! "a"; d_raw anchor_a ++ s! "a"; d_raw event_m ++ s! "e"; d_raw anchor_m1 ++ s! "e"; d_raw anchor_b ++ s! "e"; d_raw reg0 ++ s! "b"; d_raw iss_a ++ s! "c"; d_raw reg_m ++ s! "f"; d_raw iss_b ++ s! "g"]).
  - intros p y I. rewrite own_kel in I. repeat (apply in_added in I as [->|I]; [cbn [In]; tauto|]). destruct I.
  - intros p y I. rewrite own_tel in I. repeat (apply in_added in I as [->|I]; [cbn [In]; tauto|]). destruct I.
  - rewrite own_acdc. vm_compute. reflexivity.
  - vm_compute. reflexivity.
Qed.
Lemma added_long f pre x p : (length (added f pre x p) <= S (length (f p)))%nat.
Proof. unfold added. destruct (beq p pre); [rewrite app_length; cbn; lia|lia]. Qed.
Lemma own_short p : len (l_tel own_chain p) <= 2 ^ 32.
Proof.
  rewrite own_tel. unfold len. etransitivity; [|apply (N.le_trans _ 4); [apply N.le_refl|discriminate]]. enough (length (added (added (added (added (fun _ => []) rpre0 (d_raw reg0 ++ s! "b")) csaid_a (d_raw iss_a ++ s! "c")) rpre_m (d_raw reg_m ++ s! "f")) csaid_b (d_raw iss_b ++ s! "g") p) <= 4)%nat by lia.
  do 4 (etransitivity; [apply added_long|apply le_n_S]). cbn. lia.
Qed.
Lemma own_accepted : verify_acdc no_floats mix toy knotted accepts_all young 1 (view no_floats own_chain) cred_b [GPaths [csigs_b]] (Some false) [] = Ok (true, []).
Proof. vm_compute. reflexivity. Qed.
Lemma own_standing said e g : sad_said e = Ok said -> is_ok (verify_acdc no_floats mix toy knotted accepts_all young 1 (view no_floats own_chain) e g (Some false) []) = true -> standing no_floats young (view no_floats own_chain) said.
Proof.
  intros S H. destruct (verify_acdc _ _ _ _ _ _ _ _ _ _ _ _) as [(there, se)| |] eqn:V; try discriminate. apply exactly_accepted in V as (_ & said' & D & _). assert (sad_said e = Ok said') as S' by (destruct D as (a1 & a2 & a3 & a4 & a5 & a6 & a7 & a8 & D1 & D2 & _); exact D2).
  assert (said' = said) as -> by congruence. now apply due_standing in D.
Qed.
Lemma own_stands : standing no_floats young (view no_floats own_chain) csaid_a /\ standing no_floats young (view no_floats own_chain) csaid_b.
Proof. split; [apply (own_standing csaid_a cred_a [GPaths [csigs_a]])|apply (own_standing csaid_b cred_b [GPaths [csigs_b]])]; vm_compute; reflexivity. Qed.

(*# C170_stored_credentials_stand_until_revoked
   Every credential that was taken into a ledger from an empty one, with verification on, holds with it the attachments it came with, and verifying it with them against the ledger as it now is, whenever that is, with
   the store trusted, succeeds exactly as long as the credential is in good standing: the last event of its log is no revocation and is not too old. Nothing else that was taken in since can make it fail.
##
Example C170_stand_case : finds_all no_floats (fun _ _ => true) /\ textual own_knot /\
  reached no_floats mix toy knotted own_knot accepts_all young (fun _ _ => true) own_chain /\ length (l_acdc own_chain) = 2%nat /\
  standing no_floats young (view no_floats own_chain) csaid_a /\ ~ standing no_floats (fun _ => Ok 36000000001%Z) (view no_floats own_chain) csaid_a.
Proof.
  split; [intros l said _; reflexivity|]. split; [exact knot_textual|]. split; [exact chain_reached|]. split; [now rewrite own_acdc|]. split; [exact (proj1 own_stands)|].
  intros (state & ilk & dt & secs & _ & _ & _ & _ & _ & [= <-] & L). lia.
Qed.
#*)
Lemma C170_l (canon : bytes -> option bytes) (hash : bytes -> bytes -> bytes) (cr : crypto) (messages_of : bytes -> R (list message)) (group_text : group -> R bytes)
    (schema_check : bytes -> bytes -> R bool) (age : bytes -> R Z) (seen_said : ledger -> bytes -> bool) (l : ledger) (age' : bytes -> R Z) (n : nat) (text : bytes) :
  finds_all canon seen_said -> textual group_text -> reached canon hash cr messages_of group_text schema_check age seen_said l -> nth_error (l_acdc l) n = Some text ->
  exists e value rest said, text = d_raw e ++ rest /\ group_text (GQuadlets value) = Ok rest /\ creder_with_raw canon text = Ok e /\ sad_said e = Ok said /\ get_acdc (view canon l) said = Ok text /\
    forall fuel seen, verify_acdc canon hash cr messages_of schema_check age' (S fuel) (view canon l) e value (Some false) seen = Ok (true, seen) <-> standing canon age' (view canon l) said.
Proof.
  intros FA TX RE N. destruct (kept_iff _ _ _ messages_of _ _ _ _ _ FA TX RE age' n text N) as (e & value & rest & said & T & G & R & S & K). exists e, value, rest, said. repeat (split; [assumption|]). split; auto.
  now apply (got _ _ _ _ _ _ _ _ _ FA TX RE n text e).
Qed.

(*# C170_stored_credentials_stand_with_their_chains
   At depth, which is the default, the same credential verifies, once the recursion may be deep enough, exactly as long as it and every credential in the chains that start from it are in good standing. So one
   revocation anywhere up the chain, and nothing else, makes a stored credential fail. This is for a ledger in which no event has the identifier of a credential; the parser reads back groups that were printed.
##
Example C170_chain_case : sized_hash mix /\ finds_all no_floats (fun _ _ => true) /\ textual own_knot /\ reads_back knotted own_knot /\
  reached no_floats mix toy knotted own_knot accepts_all young (fun _ _ => true) own_chain /\ (forall pre, len (l_tel own_chain pre) <= 2 ^ 32) /\
  (forall s x, an_event no_floats (view no_floats own_chain) s -> ~ held no_floats (view no_floats own_chain) s x) /\
  nth_error (l_acdc own_chain) 1 = Some (d_raw cred_b ++ s! "h") /\ descends no_floats (view no_floats own_chain) (d_ked cred_b) csaid_a /\
  standing no_floats young (view no_floats own_chain) csaid_a /\ standing no_floats young (view no_floats own_chain) csaid_b.
Proof.
  split; [exact mix_sized|]. split; [intros l said _; reflexivity|]. split; [exact knot_textual|]. split; [exact knot_read|]. split; [exact chain_reached|]. split; [exact own_short|]. split; [exact own_apart|]. split; [now rewrite own_acdc|].
  split; [|exact own_stands]. apply descends_edge. exists edge_b. split; [|apply index_field; reflexivity].
  exists (s! "auth"), [(s! "d", VStr []); (s! "auth", edge_b)]. split; [right; now left|]. split; [discriminate|]. split; [discriminate|]. left. apply index_field. vm_compute. reflexivity.
Qed.
#*)
Lemma C170c_l (canon : bytes -> option bytes) (hash : bytes -> bytes -> bytes) (cr : crypto) (messages_of : bytes -> R (list message)) (group_text : group -> R bytes)
    (schema_check : bytes -> bytes -> R bool) (age : bytes -> R Z) (seen_said : ledger -> bytes -> bool) (l : ledger) (age' : bytes -> R Z) (n : nat) (text : bytes) (deep : option bool) :
  sized_hash hash -> finds_all canon seen_said -> textual group_text -> reads_back messages_of group_text -> reached canon hash cr messages_of group_text schema_check age seen_said l ->
  (forall pre, len (l_tel l pre) <= 2 ^ 32) -> (forall s x, an_event canon (view canon l) s -> ~ held canon (view canon l) s x) -> deep <> Some false -> nth_error (l_acdc l) n = Some text ->
  exists e value rest more said, text = d_raw e ++ rest /\ messages_of rest = Ok (MGroup (GQuadlets value) :: more) /\ creder_with_raw canon text = Ok e /\ sad_said e = Ok said /\
    (forall fuel r, verify_acdc canon hash cr messages_of schema_check age' fuel (view canon l) e value deep [] = Ok r ->
      standing canon age' (view canon l) said /\ forall s, descends canon (view canon l) (d_ked e) s -> standing canon age' (view canon l) s) /\
    (standing canon age' (view canon l) said -> (forall s, descends canon (view canon l) (d_ked e) s -> standing canon age' (view canon l) s) ->
      exists bound, forall fuel seen, (bound <= fuel)%nat -> exists seen', verify_acdc canon hash cr messages_of schema_check age' fuel (view canon l) e value deep seen = Ok (true, seen')).
Proof.
  intros SH FA TX RB RE TL AP DP N. destruct (kept_iff _ _ _ messages_of _ _ _ _ _ FA TX RE age' n text N) as (e & value & rest & said & T & G & R & S & K). destruct (RB _ _ G) as (more & M).
  exists e, value, rest, more, said. repeat (split; [assumption|]). split.
  - intros fuel r V. split.
    { apply acdc_shallow in V. apply exactly_accepted in V as (_ & s' & DU & _). assert (sad_said e = Ok s') as S' by (destruct DU as (a1 & a2 & a3 & a4 & a5 & a6 & a7 & a8 & D1 & D2 & _); exact D2). assert (s' = said) as -> by congruence. now apply due_standing in DU. }
    intros s D. assert (forall s x, In s [] -> ~ held canon (view canon l) s x) as NS by (intros ? ? []). destruct (C135_l _ _ _ _ _ _ _ _ _ _ _ _ _ _ AP NS DP V D) as (t & x & r' & v' & GA & RX & _ & _ & there & V').
    destruct (in_view canon l s t x GA RX) as (m & _ & SX). apply exactly_accepted in V' as (_ & s' & DU & _). assert (sad_said x = Ok s') as S' by (destruct DU as (a1 & a2 & a3 & a4 & a5 & a6 & a7 & a8 & D1 & D2 & _); exact D2).
    assert (s' = s) as -> by congruence. now apply due_standing in DU.
  - intros ST CH. destruct (cred_verdict canon hash cr messages_of group_text schema_check age seen_said l FA TX RE age' SH RB TL e value CH) as (b & B). exists b. intros fuel seen LF. specialize (B fuel deep seen LF). rewrite (proj2 (K 0%nat []) ST) in B.
    destruct (verify_acdc canon hash cr messages_of schema_check age' fuel (view canon l) e value deep seen) as [(th, se)| |]; try discriminate. cbn in B. injection B as ->. eauto.
Qed.

(*# C170_depth_adds_nothing
   For any credential, new or stored, good or bad, with any attachments: if every credential in the chains that start from it is in good standing, verification at any depth, once the recursion may be deep enough,
   gives exactly what verification that trusts the store gives: the same answer, the same error, or a panic as well. So what C161, C163 and C164 say of verification that trusts the store holds at depth for such a ledger.
##
Example C170_depth_case : sized_hash mix /\ finds_all no_floats (fun _ _ => true) /\ textual own_knot /\ reads_back knotted own_knot /\
  reached no_floats mix toy knotted own_knot accepts_all young (fun _ _ => true) own_chain /\ (forall pre, len (l_tel own_chain pre) <= 2 ^ 32) /\
  verify_acdc no_floats mix toy knotted accepts_all young 1 (view no_floats own_chain) cred_b [GPaths [csigs_b]] (Some false) [] = Ok (true, []) /\
  verdict (verify_acdc no_floats mix toy knotted accepts_all young 9 (view no_floats own_chain) cred_b [] None []) = verdict (verify_acdc no_floats mix toy knotted accepts_all young 1 (view no_floats own_chain) cred_b [] (Some false) []) /\
  is_err (verify_acdc no_floats mix toy knotted accepts_all young 9 (view no_floats own_chain) cred_b [] None []) = true.
Proof.
  split; [exact mix_sized|]. split; [intros l said _; reflexivity|]. split; [exact knot_textual|]. split; [exact knot_read|]. split; [exact chain_reached|]. split; [exact own_short|]. split; [exact own_accepted|]. split; vm_compute; reflexivity.
Qed.
#*)
Lemma C170d_l (canon : bytes -> option bytes) (hash : bytes -> bytes -> bytes) (cr : crypto) (messages_of : bytes -> R (list message)) (group_text : group -> R bytes)
    (schema_check : bytes -> bytes -> R bool) (age : bytes -> R Z) (seen_said : ledger -> bytes -> bool) (l : ledger) (age' : bytes -> R Z) (e : sadder) (g : list group) :
  sized_hash hash -> finds_all canon seen_said -> textual group_text -> reads_back messages_of group_text -> reached canon hash cr messages_of group_text schema_check age seen_said l ->
  (forall pre, len (l_tel l pre) <= 2 ^ 32) -> (forall s, descends canon (view canon l) (d_ked e) s -> standing canon age' (view canon l) s) ->
  exists bound, forall fuel deep seen, (bound <= fuel)%nat ->
    verdict (verify_acdc canon hash cr messages_of schema_check age' fuel (view canon l) e g deep seen) = verdict (verify_acdc canon hash cr messages_of schema_check age' 1 (view canon l) e g (Some false) []).
Proof. intros SH FA TX RB RE TL CH. now apply (cred_verdict canon hash cr messages_of group_text schema_check age seen_said l FA TX RE age' SH RB TL). Qed.
