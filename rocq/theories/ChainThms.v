(** Proofs of the theorems on chains of credentials. *)
From Coq Require Import String.
From Coq Require Import NArith ZArith QArith Bool List Lia.
From Verif Require Import Base Tables Matter Indexer Prims Json Tholder Common Saider Diger Sadder Signer Prefixer Pather Short Verify Ingest Events.
From Verif Require Import Spec SpecPrims SpecJson SpecCommon SpecTholder SpecSaider SpecSadder SpecPrefixer SpecSigner SpecLog SpecIngest SpecCred World Forgery Chain.
From Verif Require Import BaseFacts MatterFacts MatterText PrimsFacts JsonFacts SadderFacts SadderThms VerifyFacts VerifyThms LogThms IngestThms CredThms.
Import ListNotations.
Open Scope N_scope.

(*# C134_edges_checked
   Each edge of an accepted credential leads to a credential in the store. If the edge names a schema, this one accepts it. If the edge says I2I, or says nothing and the other credential has a holder, the holder is the
   issuer of the accepted credential; otherwise the edge says NI2I, or nothing and there is no holder. None says NOT.
##
Example C134_case : edge (d_ked cred_b) edge_b /\ operators edge_b [s! "I2I"] /\ exists seen, verify_acdc no_floats mix toy knotted (fun _ _ => Ok true) (fun _ => Ok 0%Z) 9 (view no_floats chained) cred_b [GPaths [csigs_b]] None [] = Ok (true, seen).
Proof.
  split. { exists (s! "auth"), [(s! "d", VStr []); (s! "auth", edge_b)]. split; [right; now left|]. split; [discriminate|]. split; [discriminate|]. left. apply index_field. vm_compute. reflexivity. }
  split. { right. left. exists (s! "I2I"). split; auto. apply index_field. reflexivity. }
  eexists. vm_compute. reflexivity.
Qed.
#*)
Lemma C134_l (canon : bytes -> option bytes) (hash : bytes -> bytes -> bytes) (cr : crypto) (messages_of : bytes -> R (list message)) (schema_check : bytes -> bytes -> R bool) (age : bytes -> R Z)
    (fuel : nat) (st : store) (e : sadder) (g : list group) (deep : option bool) (seen : list bytes) (r : bool * list bytes) (node : value) :
  verify_acdc canon hash cr messages_of schema_check age fuel st e g deep seen = Ok r -> edge (d_ked e) node ->
  exists said e' ops subject, leads node said /\ held canon st said e' /\ (forall schema, field_of node (s! "s") (VStr schema) -> schema_check schema (d_raw e') = Ok true) /\
    operators node ops /\ ~ In (s! "NOT") ops /\ field_of (d_ked e') (s! "a") subject /\
    (issuer_to_issuer ops subject /\ (exists issuer, field_of (d_ked e) (s! "i") (VStr issuer) /\ field_of subject (s! "i") (VStr issuer)) \/ not_issuer_to_issuer ops subject).
Proof.
  destruct fuel as [|f]; intros H ED; [discriminate|]. destruct r as (there & seen').
  apply passed_iff in H as (status & vcid & schema & event & prov & saider & state & secs & ssaid & t & edges & seen1 & seen2 & [H1 H2 H3 H4 H5 H6 H7 H8 HA H11 H12 H13 H14 H16 H17 H18 H19]).
  destruct (edges_each canon hash cr messages_of schema_check age f st e deep prov edges seen2 seen' H4 H17 H18 node ED) as (((nsaid & msg) & pa) & N).
  apply (node_ok canon schema_check st e node nsaid msg pa) in N as (N1 & N2 & N3 & N4 & ops & subject & N5 & N6 & N7 & N8); auto.
  exists nsaid, pa, ops, subject. split; auto. split; [exists msg; auto|]. auto.
Qed.

(*# C134_chains_lead_back
   In a store built by taking in streams, every edge of a credential leads to one stored before it. So chains of credentials end, and none leads back to where it started from.
##
Example C134_back_case : reached no_floats mix toy knotted knot_of (fun _ _ => Ok true) (fun _ => Ok 0%Z) (fun _ _ => true) chained /\
  nth_error (l_acdc chained) 1 = Some (d_raw cred_b ++ s! "h") /\ creder_with_raw no_floats (d_raw cred_b ++ s! "h") = Ok cred_b /\ linked (d_ked cred_b) csaid_a.
Proof.
  split. { unfold chained. eapply (reached_more _ _ _ _ _ _ _ _ empty 9 (s! "chain") (Some false) None); [apply reached_empty|discriminate|apply surjective_pairing]. }
  split; [vm_compute; reflexivity|]. split; [vm_compute; reflexivity|]. exists edge_b. split; [|apply index_field; reflexivity].
  exists (s! "auth"), [(s! "d", VStr []); (s! "auth", edge_b)]. split; [right; now left|]. split; [discriminate|]. split; [discriminate|]. left. apply index_field. vm_compute. reflexivity.
Qed.
#*)
Lemma C134b_l (canon : bytes -> option bytes) (hash : bytes -> bytes -> bytes) (cr : crypto) (messages_of : bytes -> R (list message)) (group_text : group -> R bytes)
    (schema_check : bytes -> bytes -> R bool) (age : bytes -> R Z) (seen_said : ledger -> bytes -> bool) (l : ledger) (n : nat) (text : bytes) (e : sadder) (said : bytes) :
  finds_all canon seen_said -> textual group_text -> reached canon hash cr messages_of group_text schema_check age seen_said l -> nth_error (l_acdc l) n = Some text -> creder_with_raw canon text = Ok e -> linked (d_ked e) said ->
  exists m text' e', (m < n)%nat /\ nth_error (l_acdc l) m = Some text' /\ creder_with_raw canon text' = Ok e' /\ sad_said e' = Ok said.
Proof.
  intros FA TX R N HE (node & ED & LD). destruct (C126c_l _ _ _ _ _ _ _ _ _ _ _ FA TX R N) as (l0 & e0 & v & rest & fu & de & se & se' & X & F & _ & _ & HE0 & V). assert (e0 = e) as -> by congruence.
  destruct (C134_l _ _ _ _ _ _ _ _ _ _ _ _ _ _ V ED) as (said' & e' & ops & subject & L' & (text' & G & HE') & _). assert (said' = said) as ->. { unfold leads in *. apply index_field in LD. apply index_field in L'. congruence. }
  cbn in G. apply last_of_in in G as (I & NM). unfold names in NM. rewrite HE' in NM. destruct (sad_said e') as [s| |] eqn:S; try discriminate. apply beq_eq in NM. subst s.
  rewrite F in I. apply In_nth_error in I as (m & M). assert (m < n)%nat as LT. { assert (m < length (firstn n (l_acdc l)))%nat by (apply nth_error_Some; congruence). rewrite firstn_length in H. lia. }
  exists m, text', e'. split; auto. split; auto. rewrite <- (firstn_skipn n (l_acdc l)), nth_error_app1; [exact M|]. apply nth_error_Some. congruence.
Qed.

(** ** Going deep *)
Section Deep.
Variable canon : bytes -> option bytes.
Variable hash : bytes -> bytes -> bytes.
Variable cr : crypto.
Variable mo : bytes -> R (list message).
Variable schema_check : bytes -> bytes -> R bool.
Variable age : bytes -> R Z.
Variable st : store.
Definition grows (seen seen' : list bytes) : Prop := incl seen seen' /\ forall s, In s seen' -> In s seen \/ an_event canon st s.
Lemma grows_refl seen : grows seen seen.
Proof. split; [apply incl_refl|auto]. Qed.
Lemma grows_trans a b c : grows a b -> grows b c -> grows a c.
Proof. intros (A1 & A2) (B1 & B2). split; [eapply incl_tran; eauto|]. intros s I. apply B2 in I as [I|I]; auto. Qed.
Lemma grows_cons s seen : an_event canon st s -> grows seen (s :: seen).
Proof. intros A. split; [intros x I; now right|]. intros x [<-|I]; auto. Qed.

Lemma key_grows : forall fuel e g deep seen r, verify_key_event canon hash cr mo fuel st e g deep seen = Ok r -> grows seen (snd r).
Proof.
  induction fuel as [|fuel IH]; intros e g deep seen (ex & seen') H; [discriminate|]. apply accepted_inv in H as (f & pre & p & sn & ilk & said & keys & found & E & A). injection E as <-.
  destruct A as [_ _ _ _ Hsaid _ _ _ _ _ Hprior _]. cbn [snd]. destruct Hprior as [(_ & ->)|(_ & n & event & pe & psaid & P1 & P2 & P3 & P4 & P5 & P6 & P7)]; [apply grows_refl|].
  destruct P7 as [(_ & rest & value & r & D1 & D2 & D3 & ->)|(_ & ->)]; [|apply grows_refl]. apply IH in D3. eapply grows_trans; [|exact D3]. apply grows_cons. exists event, pe. split; [left; eauto|auto].
Qed.
Lemma anchor_grows fuel apre sq sd e deep seen r : verify_anchor canon hash cr mo fuel st apre sq sd e deep seen = Ok r -> grows seen (snd r).
Proof.
  unfold verify_anchor. intros H. apply bind_ok in H as (sn & _ & H). apply bind_ok in H as (event & A & H). apply bind_ok in H as (ae & B & H). apply bind_ok in H as (asaid & C & H). apply bind_ok in H as (want & _ & H).
  destruct (negb _); [injection H as <-; apply grows_refl|]. apply bind_ok in H as (a & _ & H). apply bind_ok in H as (seals & _ & H).
  destruct seals as [|seal [|]]; [injection H as <-; apply grows_refl| |injection H as <-; apply grows_refl]. apply bind_ok in H as (x1 & _ & H). apply bind_ok in H as (x2 & _ & H). apply bind_ok in H as (x3 & _ & H). apply bind_ok in H as (seen1 & S & H).
  assert (grows seen seen1) as G.
  { destruct (_ && _); [|injection S as <-; apply grows_refl]. apply bind_ok in S as (rest & _ & S). apply bind_ok in S as (g & _ & S). destruct g; try discriminate. apply bind_ok in S as (r1 & V & S). injection S as <-.
    apply key_grows in V. eapply grows_trans; [|exact V]. apply grows_cons. exists event, ae. split; [left; eauto|auto]. }
  apply bind_ok in H as (s & _ & H). destruct (negb (beq x2 s)); [injection H as <-; auto|]. apply bind_ok in H as (pre & _ & H). destruct (negb (beq x1 pre)); [injection H as <-; auto|]. apply bind_ok in H as (said & _ & H). injection H as <-. auto.
Qed.
Lemma tel_grows : forall fuel e c deep seen r, verify_transaction_event canon hash cr mo fuel st e c deep seen = Ok r -> grows seen (snd r).
Proof.
  induction fuel as [|fuel IH]; intros e c deep seen r H; [discriminate|]. cbn [verify_transaction_event] in H. apply bind_ok in H as (pre & _ & H). apply bind_ok in H as (p & _ & H). apply bind_ok in H as (sn & _ & H).
  apply bind_ok in H as (ilk & _ & H). apply bind_ok in H as (said & S & H). apply bind_ok in H as (ri & _ & H). destruct c as [|(sq & sd) [|]]; try discriminate. apply bind_ok in H as (labels & _ & H). apply bind_ok in H as (ok & _ & H).
  destruct (negb ok); [discriminate|]. cbv zeta in H. apply bind_ok in H as (count & _ & H). apply bind_ok in H as (apre & _ & H). apply bind_ok in H as (an & AN & H). apply anchor_grows in AN. destruct (negb (fst an)); [discriminate|].
  apply bind_ok in H as (es & ES & H). apply bind_ok in H as (u & U & H). injection H as <-. eapply grows_trans; [exact AN|].
  destruct (_ || _) in ES; [destruct (negb _) in ES; [discriminate|]; injection ES as <-; apply grows_refl|]. destruct (sn <? 1); [discriminate|]. destruct (count <? sn); [discriminate|]. apply bind_ok in ES as (n & _ & ES).
  apply bind_ok in ES as (event & A & ES). apply bind_ok in ES as (pe & B & ES). apply bind_ok in ES as (psaid & C & ES). apply bind_ok in ES as (seen1 & S1 & ES). apply bind_ok in ES as (q & _ & ES). destruct (negb _) in ES; [discriminate|]. injection ES as <-. cbn [snd].
  destruct (_ && _); [|injection S1 as <-; apply grows_refl]. apply bind_ok in S1 as (rest & _ & S1). apply bind_ok in S1 as (g & _ & S1). destruct g; try discriminate. apply bind_ok in S1 as (r1 & V & S1). injection S1 as <-.
  apply IH in V. eapply grows_trans; [|exact V]. apply grows_cons. exists event, pe. split; [right; left; eauto|auto].
Qed.
Lemma path_grows fuel e deep g seen o : check_path_sig canon hash cr mo fuel st e deep g seen = Ok o -> match o with Some seen' => grows seen seen' | None => True end.
Proof.
  unfold check_path_sig. intros H. apply bind_ok in H as (path & _ & H). destruct (negb (beq path (s! "-"))); [injection H as <-; auto|].
  apply bind_ok in H as (pre & _ & H). apply bind_ok in H as (n & _ & H). apply bind_ok in H as (event & A & H). apply bind_ok in H as (x & B & H). apply bind_ok in H as (said & C & H). apply bind_ok in H as (want & _ & H).
  destruct (negb (beq said want)); [discriminate|]. apply bind_ok in H as (seen1 & S & H). assert (grows seen seen1) as G.
  { destruct (_ && _); [|injection S as <-; apply grows_refl]. apply bind_ok in S as (rest & _ & S). apply bind_ok in S as (gg & _ & S). destruct gg; try discriminate. apply bind_ok in S as (r1 & V & S). injection S as <-.
    apply key_grows in V. eapply grows_trans; [|exact V]. apply grows_cons. exists event, x. split; [left; eauto|auto]. }
  apply bind_ok in H as (v & _ & H). apply bind_ok in H as (found & _ & H). apply bind_ok in H as (t & _ & H). destruct t as [t|]; [|discriminate]. apply bind_ok in H as (ok & _ & H). destruct (negb ok); [discriminate|]. injection H as <-. exact G.
Qed.
Lemma paths_grow fuel e deep : forall gs rooted seen r, check_path_sigs canon hash cr mo fuel st e deep gs rooted seen = Ok r -> grows seen (snd r).
Proof.
  induction gs as [|g gs IH]; intros rooted seen r H; cbn [check_path_sigs] in H; [injection H as <-; apply grows_refl|]. apply bind_ok in H as (o & O & H). apply path_grows in O. destruct o as [seen1|]; apply IH in H; auto. eapply grows_trans; eauto.
Qed.
Lemma groups_grow fuel e deep : forall gs rooted seen r, check_path_groups canon hash cr mo fuel st e deep gs rooted seen = Ok r -> grows seen (snd r).
Proof.
  induction gs as [|g gs IH]; intros rooted seen r H; cbn [check_path_groups] in H; [injection H as <-; apply grows_refl|]. destruct g; try discriminate. apply bind_ok in H as (o & O & H). apply paths_grow in O. apply IH in H. eapply grows_trans; eauto.
Qed.

(** No event has the identifier of a credential. *)
Hypothesis NE : forall s e, an_event canon st s -> ~ held canon st s e.
Definition accepted (s : bytes) (e : sadder) : Prop := exists text rest value there, get_acdc st s = Ok text /\ creder_with_raw canon text = Ok e /\ from_str text (len (d_raw e)) = Ok rest /\ first_group mo rest = Ok (GQuadlets value) /\
  verify_acdc canon hash cr mo schema_check age 1 st e value (Some false) [] = Ok (there, []).
Definition fine (s : bytes) (seen : list bytes) : Prop := forall e, held canon st s e -> accepted s e /\ forall s', linked (d_ked e) s' -> In s' seen.
Definition good (seen seen' : list bytes) : Prop := incl seen seen' /\ forall s, In s seen' -> In s seen \/ fine s seen'.
Lemma grows_good a b : grows a b -> good a b.
Proof. intros (A & B). split; auto. intros s I. apply B in I as [I|I]; auto. right. intros e H. destruct (NE _ _ I H). Qed.
Lemma good_trans a b c : good a b -> good b c -> good a c.
Proof.
  intros (A1 & A2) (B1 & B2). split; [eapply incl_tran; eauto|]. intros s I. apply B2 in I as [I|I]; auto. apply A2 in I as [I|I]; auto. right. intros e H. destruct (I e H) as (X & Y). split; auto.
Qed.
Lemma good_refl a : good a a.
Proof. apply grows_good, grows_refl. Qed.

Lemma nodes_good f c deep : or_else deep true = true ->
  (forall e g seen r, verify_acdc canon hash cr mo schema_check age f st e g deep seen = Ok r -> good seen (snd r) /\ forall s, linked (d_ked e) s -> In s (snd r)) ->
  forall nodes seen seen', nodes_of canon hash cr mo schema_check age f st c deep nodes seen = Ok seen' ->
  good seen seen' /\ forall label node s, In (label, node) nodes -> label <> s! "d" -> label <> s! "o" -> leads node s -> In s seen'.
Proof.
  intros DP IH. induction nodes as [|(label, node) nodes IHN]; intros seen seen' H; cbn [nodes_of] in H. { injection H as <-. split; [apply good_refl|intros ? ? ? []]. }
  destruct (has_code [s! "d"; s! "o"] label) eqn:HC.
  - apply IHN in H as (G & L). split; auto. intros lb nd s [E|I] N1 N2 LD; [|now apply (L lb nd)]. injection E as <- <-. apply has_code_In in HC. destruct HC as [|[|[]]]; congruence.
  - apply bind_ok in H as (((nsaid, msg), pa) & N & H). apply bind_ok in H as (seen1 & S & H). apply (node_ok canon schema_check st c node nsaid msg pa) in N as (N1 & N2 & N3 & _); auto. apply IHN in H as (G & L).
    assert (good seen seen1 /\ In nsaid seen1) as (G1 & I1).
    { rewrite DP in S. cbn [andb] in S. destruct (has_code seen nsaid) eqn:HS; cbn [negb] in S; [injection S as <-; split; [apply good_refl|now apply has_code_In]|].
      apply bind_ok in S as (rest & R1 & S). apply bind_ok in S as (gg & GG & S). destruct gg as [| | |value|]; try discriminate. apply bind_ok in S as (r & V & S). injection S as <-. pose proof (acdc_shallow _ _ _ _ _ _ _ _ _ _ _ _ _ V) as SH. apply IH in V as ((V1 & V2) & V3).
      split; [|apply V1; now left]. split; [intros x I; apply V1; now right|]. intros s I. apply V2 in I as [[<-|I]|I]; auto. right. intros e (text & T1 & T2). rewrite N2 in T1. injection T1 as <-. assert (e = pa) as -> by congruence.
      split; [exists msg, rest, value, (fst r); auto|exact V3]. }
    split; [eapply good_trans; eauto|]. intros lb nd s [E|I] M1 M2 LD; [|now apply (L lb nd)]. injection E as <- <-. assert (s = nsaid) as -> by (unfold leads in *; apply index_field in LD; apply index_field in N1; congruence). now apply (proj1 G).
Qed.
Lemma edges_good f c deep : or_else deep true = true ->
  (forall e g seen r, verify_acdc canon hash cr mo schema_check age f st e g deep seen = Ok r -> good seen (snd r) /\ forall s, linked (d_ked e) s -> In s (snd r)) ->
  forall edges seen seen', edges_of canon hash cr mo schema_check age f st c deep edges seen = Ok seen' ->
  good seen seen' /\ forall es label node s, In (VObj es) edges -> In (label, node) es -> label <> s! "d" -> label <> s! "o" -> leads node s -> In s seen'.
Proof.
  intros DP IH. induction edges as [|x edges IHE]; intros seen seen' H; cbn [edges_of] in H. { injection H as <-. split; [apply good_refl|intros ? ? ? ? []]. }
  apply bind_ok in H as (m & M & H). apply bind_ok in H as (seen1 & N & H). apply (nodes_good f c deep DP IH) in N as (G1 & L1). apply IHE in H as (G & L). split; [eapply good_trans; eauto|].
  intros es label node s [->|I] J N1 N2 LD; [|now apply (L es label node)]. injection M as <-. apply (proj1 G). now apply (L1 label node).
Qed.
Lemma acdc_good deep : or_else deep true = true -> forall fuel e g seen r, verify_acdc canon hash cr mo schema_check age fuel st e g deep seen = Ok r -> good seen (snd r) /\ forall s, linked (d_ked e) s -> In s (snd r).
Proof.
  intros DP. induction fuel as [|f IH]; intros e g seen (there & seen') H; [discriminate|]. cbn [snd].
  apply passed_iff in H as (status & vcid & schema & event & prov & saider & state & secs & ssaid & t & edges & seen1 & seen2 & [H1 H2 H3 H4 H5 H6 H7 H8 HA H11 H12 H13 H14 H16 H17 H18 H19]).
  assert (grows seen seen1) as G1.
  { unfold state_of in H12. destruct (_ && _); [|injection H12 as <-; apply grows_refl]. apply bind_ok in H12 as (rest & _ & S). apply bind_ok in S as (gg & _ & S). destruct gg; try discriminate. apply bind_ok in S as (r1 & V & S). injection S as <-.
    apply tel_grows in V. eapply grows_trans; [|exact V]. apply grows_cons. exists event, state. split; [right; right; eauto|auto]. }
  apply groups_grow in H16. cbn [snd] in H16. apply (edges_good f e deep DP IH) in H18 as (G3 & L). split.
  - eapply good_trans; [apply grows_good; eapply grows_trans; [exact G1|exact H16]|exact G3].
  - intros s (node & ED & LD). apply (edges_in _ _ H4) in ED as (label & es & I & N1 & N2 & D). apply (L es label node); auto. destruct D as [->|(l & -> & J)]; subst edges; auto. now left.
Qed.
Lemma all_fine deep fuel e g seen r : or_else deep true = true -> (forall s x, In s seen -> ~ held canon st s x) -> verify_acdc canon hash cr mo schema_check age fuel st e g deep seen = Ok r ->
  forall v s, descends canon st v s -> (forall s', linked v s' -> In s' (snd r)) -> In s (snd r) /\ fine s (snd r).
Proof.
  intros DP NS H. destruct (acdc_good deep DP _ _ _ _ _ H) as ((G1 & G2) & _).
  assert (forall s, In s (snd r) -> fine s (snd r)) as F. { intros s I. apply G2 in I as [I|I]; auto. intros x X. destruct (NS _ _ I X). }
  intros v s D. induction D as [v s L|v s x s' L HD D IH]; intros LL; [split; auto|]. apply IH. intros s2 L2. destruct (F s (LL s L) x HD) as (_ & A). now apply A.
Qed.
End Deep.

(** ** The example's store *)
Lemma in_added f pre x p y : In y (added f pre x p) -> y = x \/ In y (f p).
Proof. unfold added. destruct (beq p pre); auto. intros I. apply in_app_or in I as [|[|[]]]; auto. Qed.
Lemma chained_kel p : l_kel chained p = added (added (added (added (added (added (fun _ => []) pre0 (d_raw event0 ++ s! "a")) pre0 (d_raw anchor1 ++ s! "a")) pre0 (d_raw anchor_a ++ s! "a")) pre_m (d_raw event_m ++ s! "e")) pre_m (d_raw anchor_m1 ++ s! "e")) pre_m (d_raw anchor_b ++ s! "e") p.
Proof. vm_compute. reflexivity. Qed.
Lemma chained_tel p : l_tel chained p = added (added (added (added (fun _ => []) rpre0 (d_raw reg0 ++ s! "b")) csaid_a (d_raw iss_a ++ s! "c")) rpre_m (d_raw reg_m ++ s! "f")) csaid_b (d_raw iss_b ++ s! "g") p.
Proof. vm_compute. reflexivity. Qed.
Lemma chained_acdc : l_acdc chained = [d_raw cred_a ++ s! "d"; d_raw cred_b ++ s! "h"].
Proof. vm_compute. reflexivity. Qed.
Definition id_in (new : bytes -> R sadder) (ids : list bytes) (text : bytes) : bool := match new text with Ok x => match sad_said x with Ok s => has_code ids s | _ => false end | _ => false end.
Lemma apart canon (l : ledger) (ids texts : list bytes) s x : (forall p y, In y (l_kel l p) -> In y texts) -> (forall p y, In y (l_tel l p) -> In y texts) ->
  forallb (id_in (creder_with_raw canon) ids) (l_acdc l) = true -> existsb (id_in (serder_with_raw canon) ids) texts = false -> an_event canon (view canon l) s -> ~ held canon (view canon l) s x.
Proof.
  intros K T F G (text & e & I & R & S) (t & T1 & T2). assert (has_code ids s = true) as C.
  { cbn [view get_acdc] in T1. apply last_of_in in T1 as (J & NM). unfold names in NM. rewrite T2 in NM. destruct (sad_said x) as [s1| |] eqn:S1; try discriminate. apply beq_eq in NM. subst s1.
    rewrite forallb_forall in F. apply F in J. unfold id_in in J. now rewrite T2, S1 in J. }
  assert (In text texts) as J.
  { destruct I as [(pre & n & I)|[(pre & n & I)|(pre & I)]]; cbn [view get_key_event get_transaction_event get_latest_transaction_event] in I; [apply at_sn_in in I; eauto|apply at_sn_in in I; eauto|apply last_of_in in I as (I & _); eauto]. }
  assert (existsb (id_in (serder_with_raw canon) ids) texts = true) as E; [|congruence]. apply existsb_exists. exists text. split; auto. unfold id_in. now rewrite R, S.
Qed.
Lemma chained_apart s x : an_event no_floats (view no_floats chained) s -> ~ held no_floats (view no_floats chained) s x.
Proof.
  apply (apart no_floats chained [csaid_a; csaid_b] [d_raw event0 ++ s! "a"; d_raw anchor1 ++ s! "a"; d_raw anchor_a ++ s! "a"; d_raw event_m ++ s! "e"; d_raw anchor_m1 ++ s! "e"; d_raw anchor_b ++ s! "e"; d_raw reg0 ++ s! "b"; d_raw iss_a ++ s! "c"; d_raw reg_m ++ s! "f"; d_raw iss_b ++ s! "g"]).
  - intros p y I. rewrite chained_kel in I. repeat (apply in_added in I as [->|I]; [cbn [In]; tauto|]). destruct I.
  - intros p y I. rewrite chained_tel in I. repeat (apply in_added in I as [->|I]; [cbn [In]; tauto|]). destruct I.
  - vm_compute. reflexivity.
  - vm_compute. reflexivity.
Qed.

(*# C135_deep_provenance
   If a credential is accepted by verification that goes deep, as it does by default, then every credential in the chains that start from it is in the store and is itself accepted, with the attachments
   stored with it: so what C129 to C133 say of an accepted credential holds of each. This is for a store in which no event has the identifier of a credential.
##
Example C135_case : linked (d_ked cred_b) csaid_a /\ (exists seen, verify_acdc no_floats mix toy knotted (fun _ _ => Ok true) (fun _ => Ok 0%Z) 9 (view no_floats chained) cred_b [GPaths [csigs_b]] None [] = Ok (true, seen)) /\
  forall s x, an_event no_floats (view no_floats chained) s -> ~ held no_floats (view no_floats chained) s x.
Proof.
  split. { exists edge_b. split; [|apply index_field; reflexivity]. exists (s! "auth"), [(s! "d", VStr []); (s! "auth", edge_b)]. split; [right; now left|]. split; [discriminate|]. split; [discriminate|]. left. apply index_field. vm_compute. reflexivity. }
  split; [eexists; vm_compute; reflexivity|exact chained_apart].
Qed.
#*)
Lemma C135_l (canon : bytes -> option bytes) (hash : bytes -> bytes -> bytes) (cr : crypto) (messages_of : bytes -> R (list message)) (schema_check : bytes -> bytes -> R bool) (age : bytes -> R Z)
    (fuel : nat) (st : store) (e : sadder) (g : list group) (deep : option bool) (seen : list bytes) (r : bool * list bytes) (said : bytes) :
  (forall s x, an_event canon st s -> ~ held canon st s x) -> (forall s x, In s seen -> ~ held canon st s x) -> deep <> Some false ->
  verify_acdc canon hash cr messages_of schema_check age fuel st e g deep seen = Ok r -> descends canon st (d_ked e) said ->
  exists text e' rest value, get_acdc st said = Ok text /\ creder_with_raw canon text = Ok e' /\ text = d_raw e' ++ rest /\ first_group messages_of rest = Ok (GQuadlets value) /\
    exists there, verify_acdc canon hash cr messages_of schema_check age 1 st e' value (Some false) [] = Ok (there, []).
Proof.
  intros NE NS DP H D. assert (or_else deep true = true) as DP' by (destruct deep as [[|]|]; auto; congruence). pose proof (acdc_good canon hash cr messages_of schema_check age st NE deep DP' _ _ _ _ _ H) as (_ & LL).
  destruct (all_fine canon hash cr messages_of schema_check age st NE deep fuel e g seen r DP' NS H _ _ D LL) as (I & F).
  assert (exists x, held canon st said x) as (x & X).
  { assert (forall v s, descends canon st v s -> (exists c gg f d sn r', verify_acdc canon hash cr messages_of schema_check age f st c gg d sn = Ok r' /\ v = d_ked c) -> (forall s', linked v s' -> In s' (snd r)) -> exists x, held canon st s x) as K.
    { intros v s DD. induction DD as [v s L|v s x s' L HD DD IH]; intros (c & gg & f & d & sn & r' & V & ->) LK.
      - destruct L as (node & ED & LD). destruct (C134_l _ _ _ _ _ _ _ _ _ _ _ _ _ _ V ED) as (s2 & e' & _ & _ & L2 & HH & _). assert (s2 = s) as -> by (unfold leads in *; apply index_field in LD; apply index_field in L2; congruence). eauto.
      - assert (descends canon st (d_ked c) s) as DS by now apply descends_edge. destruct (all_fine canon hash cr messages_of schema_check age st NE deep fuel e g seen r DP' NS H _ _ DS LK) as (_ & FX). destruct (FX x HD) as ((text & rest & value & there & _ & _ & _ & _ & VX) & LX).
        apply IH; auto. exists x, value, 1%nat, (Some false), [], (there, []). auto. }
    apply (K _ _ D); auto. exists e, g, fuel, deep, seen, r. auto. }
  destruct (F x X) as ((text & rest & value & there & A1 & A2 & A3 & A4 & A5) & _). exists text, x, rest, value. split; auto. split; auto. split; [|split; auto; exists there; auto].
  apply from_rest in A3. destruct (C87_l creder_new canon None None None text [] None None None None x) as (Z1 & Z2 & _); [cbn; auto|exact A2|].
  assert (len (d_raw x) = d_size x) as LE by (rewrite Z2, len_take; lia). rewrite LE, <- Z2 in A3. exact A3.
Qed.
