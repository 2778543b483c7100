(** Proofs of the theorems on taking streams into a store. *)
From Coq Require Import String.
From Coq Require Import NArith ZArith QArith Bool List Lia.
From Verif Require Import Base Tables Matter Indexer Prims Json Tholder Common Saider Diger Sadder Signer Prefixer Pather Short Verify Ingest Events.
From Verif Require Import Spec SpecPrims SpecJson SpecCommon SpecTholder SpecSaider SpecSadder SpecPrefixer SpecSigner SpecLog SpecIngest World.
From Verif Require Import BaseFacts MatterFacts MatterText PrimsFacts JsonFacts JsonThms CommonFacts SaiderFacts SaiderThms SignerThms SadderFacts SadderThms PrefixerThms DigerThms TholderThms StaleThms VerifyFacts VerifyThms LogThms.
Import ListNotations.
Open Scope N_scope.

Lemma at_sn_in l n x : at_sn l n = Ok x -> In x l.
Proof. unfold at_sn. destruct (nth_error l (N.to_nat n)) eqn:E; [|discriminate]. intros [= ->]. now apply nth_error_In in E. Qed.
Lemma last_of_in keep l x : last_of keep l = Ok x -> In x l /\ keep x = true.
Proof.
  induction l as [|y l IH]; cbn [last_of]; intros H; [discriminate|]. destruct (last_of keep l) as [z| |].
  - injection H as ->. destruct (IH eq_refl). split; auto. now right.
  - destruct (keep y) eqn:K; [|discriminate]. injection H as ->. split; auto. now left.
  - destruct (keep y) eqn:K; [|discriminate]. injection H as ->. split; auto. now left.
Qed.

(** ** What ends up among the identifiers seen *)
Section Seen.
Variable canon : bytes -> option bytes.
Variable hash : bytes -> bytes -> bytes.
Variable cr : crypto.
Variable mo : bytes -> R (list message).
Variable schema_check : bytes -> bytes -> R bool.
Variable age : bytes -> R Z.
Variable l : ledger.
Variable P : bytes -> Prop.
Hypothesis KP : forall s, known canon l s -> P s.

Lemma kel_known pre n text e s : get_key_event (view canon l) pre n = Ok text -> serder_with_raw canon text = Ok e -> sad_said e = Ok s -> known canon l s.
Proof. intros A B C. left. exists pre, text, e. split; auto. now apply at_sn_in in A. Qed.
Lemma tel_known pre n text e s : get_transaction_event (view canon l) pre n = Ok text -> serder_with_raw canon text = Ok e -> sad_said e = Ok s -> known canon l s.
Proof. intros A B C. right. left. exists pre, text, e. split; auto. now apply at_sn_in in A. Qed.
Lemma last_tel_known pre text e s : get_latest_transaction_event (view canon l) pre = Ok text -> serder_with_raw canon text = Ok e -> sad_said e = Ok s -> known canon l s.
Proof. intros A B C. right. left. exists pre, text, e. split; auto. now apply last_of_in in A. Qed.
Lemma acdc_known said text : get_acdc (view canon l) said = Ok text -> known canon l said.
Proof.
  intros A. right. right. apply last_of_in in A as (A & B). unfold names in B. destruct (creder_with_raw canon text) as [e| |] eqn:E; try discriminate. destruct (sad_said e) as [s| |] eqn:S; try discriminate.
  apply beq_eq in B. subst s. exists text, e. auto.
Qed.
Lemma stored_known pre said sn : check_stored canon (view canon l) pre said sn = Ok tt -> known canon l said.
Proof. intros H. apply stored_ok in H as (t & e & A & B & C). now apply (kel_known pre (as_u32 sn) t e). Qed.
Lemma stored_tel_known pre said sn : check_stored_transaction canon (view canon l) pre said sn = Ok tt -> known canon l said.
Proof.
  unfold check_stored_transaction. intros H. apply bind_ok in H as (t & A & H). apply bind_ok in H as (e & B & H). apply bind_ok in H as (s & C & H). destruct (beq said s) eqn:E; [|discriminate]. apply beq_eq in E. subst s.
  now apply (tel_known pre (as_u32 sn) t e).
Qed.

Lemma key_seen : forall fuel e g deep seen r, verify_key_event canon hash cr mo fuel (view canon l) e g deep seen = Ok r -> Forall P seen ->
  Forall P (snd r) /\ (fst r = true -> exists s, sad_said e = Ok s /\ known canon l s).
Proof.
  induction fuel as [|fuel IH]; intros e g deep seen (ex & seen') H F; [discriminate|]. apply accepted_inv in H as (f & pre & p & sn & ilk & said & keys & found & E & A). injection E as <-.
  destruct A as [_ _ _ _ Hsaid _ _ _ _ _ Hprior Hst]. cbn [fst snd]. split.
  - destruct Hprior as [(_ & ->)|(_ & n & event & pe & psaid & P1 & P2 & P3 & P4 & P5 & P6 & P7)]; auto. destruct P7 as [(_ & rest & value & r & D1 & D2 & D3 & ->)|(_ & ->)]; auto.
    apply (IH _ _ _ _ _ D3). constructor; auto. now apply KP, (kel_known pre n event pe).
  - intros ->. exists said. split; auto. now apply (stored_known pre said sn), Hst.
Qed.
Lemma anchor_seen fuel apre sq sd e deep seen r : verify_anchor canon hash cr mo fuel (view canon l) apre sq sd e deep seen = Ok r -> Forall P seen -> Forall P (snd r).
Proof.
  unfold verify_anchor. intros H F. apply bind_ok in H as (sn & _ & H). apply bind_ok in H as (event & A & H). apply bind_ok in H as (ae & B & H). apply bind_ok in H as (asaid & C & H). apply bind_ok in H as (want & _ & H).
  destruct (negb _); [injection H as <-; auto|]. apply bind_ok in H as (a & _ & H). apply bind_ok in H as (seals & _ & H).
  destruct seals as [|seal [|]]; [injection H as <-; auto| |injection H as <-; auto]. apply bind_ok in H as (x1 & _ & H). apply bind_ok in H as (x2 & _ & H). apply bind_ok in H as (x3 & _ & H). apply bind_ok in H as (seen1 & S & H).
  assert (Forall P seen1) as G.
  { destruct (_ && _); [|injection S as <-; auto]. apply bind_ok in S as (rest & _ & S). apply bind_ok in S as (g & _ & S). destruct g; try discriminate. apply bind_ok in S as (r1 & V & S). injection S as <-.
    apply (key_seen _ _ _ _ _ _ V). constructor; auto. now apply KP, (kel_known apre (as_u32 sn) event ae). }
  apply bind_ok in H as (s & _ & H). destruct (negb (beq x2 s)); [injection H as <-; auto|]. apply bind_ok in H as (pre & _ & H). destruct (negb (beq x1 pre)); [injection H as <-; auto|]. apply bind_ok in H as (said & _ & H). injection H as <-. auto.
Qed.
Lemma tel_seen : forall fuel e c deep seen r, verify_transaction_event canon hash cr mo fuel (view canon l) e c deep seen = Ok r -> Forall P seen ->
  Forall P (snd r) /\ (fst r = true -> exists s, sad_said e = Ok s /\ known canon l s).
Proof.
  induction fuel as [|fuel IH]; intros e c deep seen r H F; [discriminate|]. cbn [verify_transaction_event] in H. apply bind_ok in H as (pre & _ & H). apply bind_ok in H as (p & _ & H). apply bind_ok in H as (sn & _ & H).
  apply bind_ok in H as (ilk & _ & H). apply bind_ok in H as (said & S & H). apply bind_ok in H as (ri & _ & H). destruct c as [|(sq & sd) [|]]; try discriminate. apply bind_ok in H as (labels & _ & H). apply bind_ok in H as (ok & _ & H).
  destruct (negb ok); [discriminate|]. cbv zeta in H. apply bind_ok in H as (count & _ & H). apply bind_ok in H as (apre & _ & H). apply bind_ok in H as (an & AN & H). apply anchor_seen in AN; auto. destruct (negb (fst an)); [discriminate|].
  apply bind_ok in H as (es & ES & H). apply bind_ok in H as (u & U & H). injection H as <-. split.
  - destruct (_ || _) in ES; [destruct (negb _) in ES; [discriminate|]; injection ES as <-; auto|]. destruct (sn <? 1); [discriminate|]. destruct (count <? sn); [discriminate|]. apply bind_ok in ES as (n & _ & ES).
    apply bind_ok in ES as (event & A & ES). apply bind_ok in ES as (pe & B & ES). apply bind_ok in ES as (psaid & C & ES). apply bind_ok in ES as (seen1 & S1 & ES). apply bind_ok in ES as (q & _ & ES). destruct (negb _) in ES; [discriminate|]. injection ES as <-. cbn [snd].
    destruct (_ && _); [|injection S1 as <-; auto]. apply bind_ok in S1 as (rest & _ & S1). apply bind_ok in S1 as (g & _ & S1). destruct g; try discriminate. apply bind_ok in S1 as (r1 & V & S1). injection S1 as <-.
    apply (IH _ _ _ _ _ V). constructor; auto. now apply KP, (tel_known pre n event pe).
  - intros E. rewrite E in U. exists said. split; auto. destruct u. now apply (stored_tel_known pre said sn).
Qed.
Lemma path_seen fuel e deep g seen o : check_path_sig canon hash cr mo fuel (view canon l) e deep g seen = Ok o -> Forall P seen -> match o with Some seen' => Forall P seen' | None => True end.
Proof.
  unfold check_path_sig. intros H F. apply bind_ok in H as (path & _ & H). destruct (negb _); [injection H as <-; auto|]. apply bind_ok in H as (pre & _ & H). apply bind_ok in H as (sn & _ & H). apply bind_ok in H as (event & A & H).
  apply bind_ok in H as (ev & B & H). apply bind_ok in H as (said & C & H). apply bind_ok in H as (want & _ & H). destruct (negb _); [discriminate|]. apply bind_ok in H as (seen1 & S & H).
  apply bind_ok in H as (v & _ & H). apply bind_ok in H as (found & _ & H). apply bind_ok in H as (t & _ & H). destruct t as [t|]; [|discriminate]. apply bind_ok in H as (ok & _ & H). destruct (negb ok); [discriminate|]. injection H as <-.
  destruct (_ && _); [|injection S as <-; auto]. apply bind_ok in S as (rest & _ & S). apply bind_ok in S as (gg & _ & S). destruct gg; try discriminate. apply bind_ok in S as (r1 & V & S). injection S as <-.
  apply (key_seen _ _ _ _ _ _ V). constructor; auto. now apply KP, (kel_known pre (as_u32 sn) event ev).
Qed.
Lemma paths_seen fuel e deep : forall gs rooted seen r, check_path_sigs canon hash cr mo fuel (view canon l) e deep gs rooted seen = Ok r -> Forall P seen -> Forall P (snd r).
Proof.
  induction gs as [|g gs IH]; intros rooted seen r H F; cbn [check_path_sigs] in H; [injection H as <-; auto|]. apply bind_ok in H as (o & O & H). apply path_seen in O; auto. destruct o as [seen1|]; now apply (IH _ _ _ H).
Qed.
Lemma groups_seen fuel e deep : forall gs rooted seen r, check_path_groups canon hash cr mo fuel (view canon l) e deep gs rooted seen = Ok r -> Forall P seen -> Forall P (snd r).
Proof.
  induction gs as [|g gs IH]; intros rooted seen r H F; cbn [check_path_groups] in H; [injection H as <-; auto|]. destruct g; try discriminate. apply bind_ok in H as (o & O & H). apply paths_seen in O; auto. now apply (IH _ _ _ H).
Qed.
Lemma node_known e node x : check_node canon schema_check (view canon l) e node = Ok x -> known canon l (fst (fst x)).
Proof.
  unfold check_node. intros H. apply bind_ok in H as (map & _ & H). apply bind_ok in H as (n & _ & H). apply bind_ok in H as (said & _ & H). apply bind_ok in H as (msg & A & H). apply acdc_known in A.
  apply bind_ok in H as (pa & _ & H). apply bind_ok in H as (ok & _ & H). destruct (negb ok); [discriminate|]. apply bind_ok in H as (ops & _ & H). apply bind_ok in H as (sub & _ & H). apply bind_ok in H as (ns & _ & H). apply bind_ok in H as (op & _ & H).
  destruct (beq op (s! "I2I")).
  - apply bind_ok in H as (i & _ & H). apply bind_ok in H as (holder & _ & H). apply bind_ok in H as (issuer & _ & H). destruct (negb _); [discriminate|]. injection H as <-. exact A.
  - destruct (beq op (s! "NI2I")); [|discriminate]. injection H as <-. exact A.
Qed.
Lemma acdc_seen : forall fuel e g deep seen r, verify_acdc canon hash cr mo schema_check age fuel (view canon l) e g deep seen = Ok r -> Forall P seen ->
  Forall P (snd r) /\ (fst r = true -> exists s, sad_said e = Ok s /\ known canon l s).
Proof.
  induction fuel as [|fuel IH]; intros e g deep seen r H F; [discriminate|]. cbn [verify_acdc] in H. apply bind_ok in H as (status & _ & H). destruct status; [|discriminate]. apply bind_ok in H as (vcid & VC & H).
  apply bind_ok in H as (schema & _ & H). apply bind_ok in H as (prov & _ & H). apply bind_ok in H as (saider & _ & H). apply bind_ok in H as (ok & _ & H). destruct (negb ok); [discriminate|].
  apply bind_ok in H as (event & A & H). apply bind_ok in H as (state & B & H). apply bind_ok in H as (dt & _ & H). apply bind_ok in H as (secs & _ & H). destruct (_ <? _)%Z; [discriminate|].
  apply bind_ok in H as (ssaid & C & H). apply bind_ok in H as (seen1 & S & H).
  assert (Forall P seen1) as F1.
  { destruct (or_else deep true && negb (has_code seen ssaid)); [|injection S as <-; auto]. apply bind_ok in S as (rest & _ & S). apply bind_ok in S as (gg & _ & S). destruct gg; try discriminate. apply bind_ok in S as (r1 & V & S). injection S as <-.
    apply (tel_seen _ _ _ _ _ _ V). constructor; auto. now apply KP, (last_tel_known vcid event state). }
  apply bind_ok in H as (t & _ & H). destruct (has_code _ t); [discriminate|]. apply bind_ok in H as (text & _ & H). apply bind_ok in H as (valid & _ & H). destruct (negb valid); [discriminate|].
  apply bind_ok in H as (rs & RS & H). apply groups_seen in RS; auto. destruct (negb (fst rs)); [discriminate|]. apply bind_ok in H as (edges & _ & H). apply bind_ok in H as (seen2 & S2 & H).
  assert (Forall P seen2) as F2.
  { clear H. revert S2 RS. generalize (snd rs). induction edges as [|edge edges IHE]; intros sn S2 RS; [injection S2 as <-; auto|]. apply bind_ok in S2 as (map & _ & S2). apply bind_ok in S2 as (seen3 & S3 & S2). apply (IHE _ S2). clear IHE S2.
    revert sn S3 RS. induction map as [|(label, node) map IHM]; intros sn S3 RS; [injection S3 as <-; auto|]. destruct (has_code _ label); [now apply (IHM _ S3)|].
    apply bind_ok in S3 as (((nsaid, msg), pa) & N & S3). apply node_known in N. cbn [fst] in N. apply bind_ok in S3 as (seen4 & S4 & S3). apply (IHM _ S3). clear IHM S3.
    destruct (or_else deep true && negb (has_code sn nsaid)); [|injection S4 as <-; auto]. apply bind_ok in S4 as (rest & _ & S4). apply bind_ok in S4 as (gg & _ & S4). destruct gg; try discriminate. apply bind_ok in S4 as (r1 & V & S4). injection S4 as <-.
    apply (IH _ _ _ _ _ V). constructor; auto. }
  destruct (get_acdc (view canon l) vcid) as [msg| |] eqn:G; try discriminate.
  - apply acdc_known in G. apply bind_ok in H as (pe & _ & H). apply bind_ok in H as (es & _ & H). destruct (negb (beq vcid es)); [discriminate|]. injection H as <-. split; auto. intros _. exists vcid. auto.
  - injection H as <-. split; auto. discriminate.
Qed.
End Seen.

(** ** Invariant *)
Lemma extends_refl l : extends l l.
Proof. repeat split; intros; exists []; now rewrite app_nil_r. Qed.
Lemma extends_trans a b c : extends a b -> extends b c -> extends a c.
Proof.
  intros (A1 & A2 & A3) (B1 & B2 & B3). repeat split.
  - intros pre. destruct (A1 pre) as (x & X), (B1 pre) as (y & Y). exists (x ++ y). now rewrite Y, X, app_assoc.
  - intros pre. destruct (A2 pre) as (x & X), (B2 pre) as (y & Y). exists (x ++ y). now rewrite Y, X, app_assoc.
  - destruct A3 as (x & X), B3 as (y & Y). exists (x ++ y). now rewrite Y, X, app_assoc.
Qed.
Lemma key_extends l pre t : extends l (insert_key_event l pre t).
Proof. repeat split; cbn; intros; try (exists []; now rewrite app_nil_r). unfold added. destruct (beq pre0 pre); [exists [t]|exists []]; auto. now rewrite app_nil_r. Qed.
Lemma tel_extends l pre t : extends l (insert_transaction_event l pre t).
Proof. repeat split; cbn; intros; try (exists []; now rewrite app_nil_r). unfold added. destruct (beq pre0 pre); [exists [t]|exists []]; auto. now rewrite app_nil_r. Qed.
Lemma acdc_extends l t : extends l (insert_acdc l t).
Proof. repeat split; cbn; intros; try (exists []; now rewrite app_nil_r). exists [t]. auto. Qed.
Lemma known_extends canon l l' s : extends l l' -> known canon l s -> known canon l' s.
Proof.
  intros (A1 & A2 & A3) [(pre & t & e & I & K)|[(pre & t & e & I & K)|(t & e & I & K)]].
  - left. exists pre, t, e. split; auto. destruct (A1 pre) as (x & ->). apply in_or_app. auto.
  - right. left. exists pre, t, e. split; auto. destruct (A2 pre) as (x & ->). apply in_or_app. auto.
  - right. right. exists t, e. split; auto. destruct A3 as (x & ->). apply in_or_app. auto.
Qed.
Lemma utf8_from s t : from_utf8 s = Ok t -> t = s.
Proof. unfold from_utf8. destruct (utf8 s); intros H; [now injection H|discriminate]. Qed.
Lemma read_on canon raw e t : serder_with_raw canon raw = Ok e -> utf8 t = true -> serder_with_raw canon (d_raw e ++ t) = Ok e.
Proof. intros H U. destruct (C87_l serder_new canon None None None raw t None None None None e) as (_ & _ & _ & _ & G); [cbn; auto|exact H|]. exact (G U). Qed.
Lemma read_on_creder canon raw e t : creder_with_raw canon raw = Ok e -> utf8 t = true -> creder_with_raw canon (d_raw e ++ t) = Ok e.
Proof. intros H U. destruct (C87_l creder_new canon None None None raw t None None None None e) as (_ & _ & _ & _ & G); [cbn; auto|exact H|]. exact (G U). Qed.

Section Invariant.
Variable canon : bytes -> option bytes.
Variable hash : bytes -> bytes -> bytes.
Variable cr : crypto.
Variable mo : bytes -> R (list message).
Variable group_text : group -> R bytes.
Variable schema_check : bytes -> bytes -> R bool.
Variable age : bytes -> R Z.
Variable seen_said : ledger -> bytes -> bool.
Hypothesis FA : finds_all canon seen_said.
Hypothesis TX : textual group_text.

Definition key_entry (l : ledger) (pre : bytes) (n : nat) (text : bytes) : Prop :=
  exists l0 e value rest, extends l0 l /\ l_kel l0 pre = firstn n (l_kel l pre) /\ text = d_raw e ++ rest /\ group_text (GQuadlets value) = Ok rest /\ serder_with_raw canon text = Ok e /\
    field_of (d_ked e) (s! "i") (VStr pre) /\ ordinal (d_ked e) (N.of_nat n) /\ verify_key_event canon hash cr mo 1 (view canon l0) e value None [] = Ok (false, []).
Definition tel_entry (l : ledger) (pre : bytes) (n : nat) (text : bytes) : Prop :=
  exists l0 e value rest fuel deep seen seen', extends l0 l /\ l_tel l0 pre = firstn n (l_tel l pre) /\ text = d_raw e ++ rest /\ group_text (GSources value) = Ok rest /\ serder_with_raw canon text = Ok e /\
    field_of (d_ked e) (s! "i") (VStr pre) /\ ordinal (d_ked e) (N.of_nat n) /\ verify_transaction_event canon hash cr mo fuel (view canon l0) e value deep seen = Ok (false, seen').
Definition acdc_entry (l : ledger) (n : nat) (text : bytes) : Prop :=
  exists l0 e value rest fuel deep seen seen', extends l0 l /\ l_acdc l0 = firstn n (l_acdc l) /\ text = d_raw e ++ rest /\ group_text (GQuadlets value) = Ok rest /\ creder_with_raw canon text = Ok e /\
    verify_acdc canon hash cr mo schema_check age fuel (view canon l0) e value deep seen = Ok (false, seen').
Definition kept (l : ledger) : Prop :=
  (forall pre n text, nth_error (l_kel l pre) n = Some text -> key_entry l pre n text) /\
  (forall pre n text, nth_error (l_tel l pre) n = Some text -> tel_entry l pre n text) /\
  (forall n text, nth_error (l_acdc l) n = Some text -> acdc_entry l n text).

Lemma firstn_extends {A} (a b : list A) n x : nth_error a n = Some x -> firstn n (a ++ b) = firstn n a /\ nth_error (a ++ b) n = Some x.
Proof.
  intros H. assert (n < length a)%nat as L by (apply nth_error_Some; congruence). split; [|now rewrite nth_error_app1].
  rewrite firstn_app. replace (n - length a)%nat with 0%nat by lia. cbn. now rewrite app_nil_r.
Qed.
Lemma snoc {A} (a : list A) t n x : nth_error (a ++ [t]) n = Some x -> nth_error a n = Some x \/ n = length a /\ x = t.
Proof.
  intros H. destruct (Nat.lt_ge_cases n (length a)) as [L|L]; [left; now rewrite nth_error_app1 in H|right]. rewrite nth_error_app2 in H by auto.
  destruct (n - length a)%nat as [|k] eqn:K; cbn in H; [injection H as <-; split; [lia|auto]|destruct k; discriminate].
Qed.
Lemma firstn_snoc {A} (a : list A) t : firstn (length a) (a ++ [t]) = a.
Proof. rewrite firstn_app, Nat.sub_diag, firstn_all. cbn. apply app_nil_r. Qed.

Lemma key_entry_extends l l' pre n text : extends l l' -> nth_error (l_kel l pre) n = Some text -> key_entry l pre n text -> key_entry l' pre n text.
Proof.
  intros X H (l0 & e & v & r & E & K & R). exists l0, e, v, r. split; [now apply (extends_trans _ l)|]. split; [|exact R]. destruct X as (X & _). destruct (X pre) as (m & ->). destruct (firstn_extends _ m _ _ H) as (-> & _). exact K.
Qed.
Lemma tel_entry_extends l l' pre n text : extends l l' -> nth_error (l_tel l pre) n = Some text -> tel_entry l pre n text -> tel_entry l' pre n text.
Proof.
  intros X H (l0 & e & v & r & f & d & s & s' & E & K & R). exists l0, e, v, r, f, d, s, s'. split; [now apply (extends_trans _ l)|]. split; [|exact R]. destruct X as (_ & X & _). destruct (X pre) as (m & ->).
  destruct (firstn_extends _ m _ _ H) as (-> & _). exact K.
Qed.
Lemma acdc_entry_extends l l' n text : extends l l' -> nth_error (l_acdc l) n = Some text -> acdc_entry l n text -> acdc_entry l' n text.
Proof.
  intros X H (l0 & e & v & r & f & d & s & s' & E & K & R). exists l0, e, v, r, f, d, s, s'. split; [now apply (extends_trans _ l)|]. split; [|exact R]. destruct X as (_ & _ & m & ->).
  destruct (firstn_extends _ m _ _ H) as (-> & _). exact K.
Qed.

Lemma tel_number fuel st e c deep seen seen' : verify_transaction_event canon hash cr mo fuel st e c deep seen = Ok (false, seen') ->
  exists pre count, serder_pre e = Ok pre /\ count_transaction_events st pre = Ok count /\ serder_sn e = Ok count.
Proof.
  destruct fuel as [|fuel]; intros H; [discriminate|]. cbn [verify_transaction_event] in H. apply bind_ok in H as (pre & HP & H). apply bind_ok in H as (p & _ & H). apply bind_ok in H as (sn & SN & H).
  apply bind_ok in H as (ilk & _ & H). apply bind_ok in H as (said & S & H). apply bind_ok in H as (ri & _ & H). destruct c as [|(sq & sd) [|]]; try discriminate. apply bind_ok in H as (labels & _ & H). apply bind_ok in H as (ok & _ & H).
  destruct (negb ok); [discriminate|]. cbv zeta in H. apply bind_ok in H as (count & C & H). apply bind_ok in H as (apre & _ & H). apply bind_ok in H as (an & AN & H). destruct (negb (fst an)); [discriminate|].
  apply bind_ok in H as (es & ES & H). apply bind_ok in H as (u & U & H). injection H as ->. exists pre, count. split; auto. split; auto. rewrite SN. f_equal.
  destruct (_ || _) in ES.
  - destruct (N.eqb_spec sn 0) as [->|]; [|discriminate]. injection ES as ES _. destruct (N.eqb_spec count 0); [auto|discriminate].
  - destruct (sn <? 1); [discriminate|]. destruct (count <? sn); [discriminate|]. apply bind_ok in ES as (n & _ & ES).
    apply bind_ok in ES as (event & A & ES). apply bind_ok in ES as (pe & B & ES). apply bind_ok in ES as (psaid & D & ES). apply bind_ok in ES as (seen1 & S1 & ES). apply bind_ok in ES as (q & _ & ES). destruct (negb (beq psaid q)) in ES; [discriminate|].
    injection ES as ES _. destruct (N.eqb_spec sn count); [auto|discriminate].
Qed.

(** One message. *)
Lemma one_kept fuel deep verify l seen raw next l' seen' : verify <> Some false -> ingest_one canon hash cr mo group_text schema_check age seen_said fuel deep verify l seen raw next = Ok (l', seen') ->
  kept l -> Forall (known canon l) seen -> extends l l' /\ kept l' /\ Forall (known canon l') seen'.
Proof.
  intros NV H (K1 & K2 & K3) F. unfold ingest_one in H. apply bind_ok in H as (i & _ & H). cbv zeta in H.
  assert (or_else verify true = true) as OV by (destruct verify as [[|]|]; auto; congruence).
  assert (forall said check r, there seen_said l verify said seen check = Ok r -> (In said seen /\ r = (true, seen)) \/ check (said :: seen) = Ok r) as TH.
  { intros said check r T. unfold there in T. rewrite OV in T. cbn [andb] in T. destruct (has_code seen said) eqn:HC; cbn [negb] in T; [left|now right]. apply has_code_In in HC. split; auto. injection T as <-. f_equal. apply FA.
    rewrite Forall_forall in F. now apply F. }
  assert (forall said l1, extends l l1 -> known canon l1 said -> forall x, (known canon l x \/ x = said) -> known canon l1 x) as UP. { intros said l1 E K x [A| ->]; auto. now apply (known_extends canon l). }
  assert (forall said, Forall (fun x => known canon l x \/ x = said) (said :: seen)) as FP. { intros said. constructor; auto. eapply Forall_impl; [|exact F]. auto. }
  destruct (beq (vi_ident i) (s! "KERI")).
  - apply bind_ok in H as (e & HE & H). apply bind_ok in H as (said & HS & H). apply bind_ok in H as (g & _ & H). apply bind_ok in H as (ilk & _ & H).
    destruct (has_code [s! "icp"; s! "rot"; s! "ixn"] ilk); [|destruct (has_code [s! "vcp"; s! "iss"; s! "rev"] ilk); [|discriminate]].
    + destruct g as [| | |value|]; try discriminate. apply bind_ok in H as ((ex & sn) & T & H). cbn [fst snd] in H.
      apply TH in T as [(I & TE)|T]; [injection TE as -> ->; cbn [negb] in H; injection H as <- <-; split; [apply extends_refl|split; [split; auto|auto]]|].
      destruct (key_seen canon hash cr mo l (fun x => known canon l x \/ x = said) (fun s K => or_introl K) _ _ _ _ _ _ T (FP said)) as (G1 & G2). cbn [fst snd] in G1, G2. destruct ex; cbn [negb] in H.
      * injection H as <- <-. split; [apply extends_refl|]. split; [split; auto|]. destruct (G2 eq_refl) as (s & S & Q). assert (s = said) as -> by congruence.
        eapply Forall_impl; [|exact G1]. intros x [A| ->]; auto.
      * apply bind_ok in H as (event & HU & H). apply utf8_from in HU. subst event. apply bind_ok in H as (pre & HP & H). apply bind_ok in H as (text & HT & H). injection H as <- <-.
        assert (serder_with_raw canon (d_raw e ++ text) = Ok e) as RD by (apply (read_on canon raw); eauto). pose proof (key_extends l pre (d_raw e ++ text)) as X.
        assert (known canon (insert_key_event l pre (d_raw e ++ text)) said) as KS. { left. exists pre, (d_raw e ++ text), e. split; auto. cbn. unfold added. rewrite beq_refl. apply in_or_app. right. now left. }
        split; auto. split; [split; [|split]|].
        -- intros pre' n t N. cbn in N. unfold added in N. destruct (beq pre' pre) eqn:B; [|now apply (key_entry_extends l); auto]. apply beq_eq in B. subst pre'.
           apply snoc in N as [N|(-> & ->)]; [now apply (key_entry_extends l); auto|]. exists l, e, value, text. split; auto. split; [cbn; unfold added; rewrite beq_refl, firstn_snoc; auto|].
           split; auto. split; auto. split; auto. split; [now apply pre_field|]. pose proof T as T'. destruct (C120_l _ _ _ _ _ _ _ _ _ _ _ _ T) as (p' & n & s' & ilk' & labels & count & A1 & A2 & _ & _ & _ & _ & A3 & A4 & A5 & _).
           apply pre_field in A1. assert (p' = pre) as -> by congruence. cbn in A3. injection A3 as <-. assert (n = len (l_kel l pre)) as ->. { destruct (N.lt_ge_cases n (len (l_kel l pre))) as [Z|Z]; [apply A5 in Z; discriminate|lia]. }
           split; [exact A2|]. destruct (shallow _ _ _ _ _ _ _ _ _ _ _ T') as (th & V). rewrite V. f_equal. f_equal. destruct (C120_l _ _ _ _ _ _ _ _ _ _ _ _ V) as (p2 & n2 & _ & _ & _ & c2 & B1 & B2 & _ & _ & _ & _ & B3 & _ & B5 & _).
           apply pre_field in B1. assert (p2 = pre) as -> by congruence. cbn in B3. injection B3 as <-. apply sn_field in A2, B2. assert (n2 = len (l_kel l pre)) as -> by congruence. destruct th; auto. exfalso. destruct B5 as (B5 & _). specialize (B5 eq_refl). lia.
        -- intros pre' n t N. apply (tel_entry_extends l); auto.
        -- intros n t N. apply (acdc_entry_extends l); auto.
        -- eapply Forall_impl; [|exact G1]. now apply UP.
    + destruct g as [|value| | |]; try discriminate. apply bind_ok in H as ((ex & sn) & T & H). cbn [fst snd] in H.
      apply TH in T as [(I & TE)|T]; [injection TE as -> ->; cbn [negb] in H; injection H as <- <-; split; [apply extends_refl|split; [split; auto|auto]]|].
      destruct (tel_seen canon hash cr mo l (fun x => known canon l x \/ x = said) (fun s K => or_introl K) _ _ _ _ _ _ T (FP said)) as (G1 & G2). cbn [fst snd] in G1, G2. destruct ex; cbn [negb] in H.
      * injection H as <- <-. split; [apply extends_refl|]. split; [split; auto|]. destruct (G2 eq_refl) as (s & S & Q). assert (s = said) as -> by congruence.
        eapply Forall_impl; [|exact G1]. intros x [A| ->]; auto.
      * apply bind_ok in H as (event & HU & H). apply utf8_from in HU. subst event. apply bind_ok in H as (pre & HP & H). apply bind_ok in H as (text & HT & H). injection H as <- <-.
        assert (serder_with_raw canon (d_raw e ++ text) = Ok e) as RD by (apply (read_on canon raw); eauto). pose proof (tel_extends l pre (d_raw e ++ text)) as X.
        assert (known canon (insert_transaction_event l pre (d_raw e ++ text)) said) as KS. { right. left. exists pre, (d_raw e ++ text), e. split; auto. cbn. unfold added. rewrite beq_refl. apply in_or_app. right. now left. }
        split; auto. split; [split; [|split]|].
        -- intros pre' n t N. apply (key_entry_extends l); auto.
        -- intros pre' n t N. cbn in N. unfold added in N. destruct (beq pre' pre) eqn:B; [|now apply (tel_entry_extends l); auto]. apply beq_eq in B. subst pre'.
           apply snoc in N as [N|(-> & ->)]; [now apply (tel_entry_extends l); auto|]. exists l, e, value, text, fuel, deep, (said :: seen), sn. split; auto. split; [cbn; unfold added; rewrite beq_refl, firstn_snoc; auto|].
           split; auto. split; auto. split; auto. split; [now apply pre_field|]. split; auto. destruct (tel_number _ _ _ _ _ _ _ T) as (p' & count & A1 & A2 & A3). assert (p' = pre) as -> by congruence. cbn in A2. injection A2 as <-. apply sn_field. exact A3.
        -- intros n t N. apply (acdc_entry_extends l); auto.
        -- eapply Forall_impl; [|exact G1]. now apply UP.
  - destruct (beq (vi_ident i) (s! "ACDC")); [|discriminate]. apply bind_ok in H as (e & HE & H). apply bind_ok in H as (said & HS & H). apply bind_ok in H as (g & _ & H). destruct g as [| | |value|]; try discriminate.
    apply bind_ok in H as ((ex & sn) & T & H). cbn [fst snd] in H.
    apply TH in T as [(I & TE)|T]; [injection TE as -> ->; cbn [negb] in H; injection H as <- <-; split; [apply extends_refl|split; [split; auto|auto]]|].
    destruct (acdc_seen canon hash cr mo schema_check age l (fun x => known canon l x \/ x = said) (fun s K => or_introl K) _ _ _ _ _ _ T (FP said)) as (G1 & G2). cbn [fst snd] in G1, G2. destruct ex; cbn [negb] in H.
    + injection H as <- <-. split; [apply extends_refl|]. split; [split; auto|]. destruct (G2 eq_refl) as (s & S & Q). assert (s = said) as -> by congruence.
      eapply Forall_impl; [|exact G1]. intros x [A| ->]; auto.
    + apply bind_ok in H as (event & HU & H). apply utf8_from in HU. subst event. apply bind_ok in H as (text & HT & H). injection H as <- <-.
      assert (creder_with_raw canon (d_raw e ++ text) = Ok e) as RD by (apply (read_on_creder canon raw); eauto). pose proof (acdc_extends l (d_raw e ++ text)) as X.
      assert (known canon (insert_acdc l (d_raw e ++ text)) said) as KS. { right. right. exists (d_raw e ++ text), e. split; auto. cbn. apply in_or_app. right. now left. }
      split; auto. split; [split; [|split]|].
      * intros pre' n t N. apply (key_entry_extends l); auto.
      * intros pre' n t N. apply (tel_entry_extends l); auto.
      * intros n t N. cbn in N. apply snoc in N as [N|(-> & ->)]; [now apply (acdc_entry_extends l); auto|]. exists l, e, value, text, fuel, deep, (said :: seen), sn. split; auto. split; [cbn; now rewrite firstn_snoc|].
        split; auto.
      * eapply Forall_impl; [|exact G1]. now apply UP.
Qed.

Lemma loop_kept fuel deep verify : verify <> Some false -> forall k ms l seen l' r, (length ms <= k)%nat -> ingest_loop canon hash cr mo group_text schema_check age seen_said fuel deep verify l seen ms = (l', r) ->
  kept l -> Forall (known canon l) seen -> extends l l' /\ kept l'.
Proof.
  intros NV. induction k as [|k IH]; intros ms l seen l' r L H K F.
  - destruct ms; [|cbn in L; lia]. injection H as <- <-. split; auto. apply extends_refl.
  - destruct ms as [|[raw|g] ms]; cbn [ingest_loop] in H; [injection H as <- <-; split; auto; apply extends_refl| |injection H as <- <-; split; auto; apply extends_refl].
    destruct ms as [|m ms]. { destruct (ingest_one _ _ _ _ _ _ _ _ _ _ _ _ _ _ _); injection H as <- <-; split; auto; apply extends_refl. }
    destruct (ingest_one _ _ _ _ _ _ _ _ _ _ _ _ _ _ _) as [(l1 & seen1)| |] eqn:O; [|injection H as <- <-; split; auto; apply extends_refl|injection H as <- <-; split; auto; apply extends_refl].
    cbn [fst snd] in H. destruct (one_kept _ _ _ _ _ _ _ _ _ NV O K F) as (E1 & K1 & F1). destruct (IH ms l1 seen1 l' r) as (E2 & K2); auto; [cbn in L; lia|]. split; auto. now apply (extends_trans _ l1).
Qed.
Lemma reached_kept l : reached canon hash cr mo group_text schema_check age seen_said l -> kept l.
Proof.
  induction 1 as [|l fuel stream deep verify l' r R IH NV H].
  - repeat split; cbn; intros; destruct n; discriminate.
  - unfold ingest_messages in H. destruct (mo stream) as [ms| |]; [|injection H as <- <-; auto|injection H as <- <-; auto]. now destruct (loop_kept fuel deep verify NV (length ms) ms l [] l' r).
Qed.
End Invariant.

Lemma letters_textual : textual letter_of.
Proof.
  intros g t H. unfold letter_of in H. destruct (find _ letters) as [(k, x)|] eqn:F; injection H as <-; [|reflexivity]. apply find_some in F as (F & _).
  assert (forallb (fun p => utf8 (fst p)) letters = true) as A by (vm_compute; reflexivity). rewrite forallb_forall in A. exact (A _ F).
Qed.
Lemma sigs_textual : textual sigs_text.
Proof. intros g t H. unfold sigs_text in H. repeat match type of H with context [match ?x with _ => _ end] => destruct x end; injection H as <-; reflexivity. Qed.

(*# C126_key_events_verified
   Whatever streams are taken in, one after the other and each with any outcome: every key event in the ledger stands at the place that is its number, in the log of its own prefix, with the text of the groups attached to it, and was
   verified with these groups when the log was as long as its number says. The ledger it was verified against has only been extended since. This is for a store that, asked for the data with an identifier, finds the events and credentials inserted.
##
Example C126_case : finds_all no_floats (fun _ _ => true) /\ textual sigs_text /\ exists l, length (l_kel l pre0) = 3%nat /\
  reached no_floats mix toy streams sigs_text (fun _ _ => Ok true) (fun _ => Ok 0%Z) (fun _ _ => true) l.
Proof.
  split; [intros l said _; reflexivity|]. split; [exact sigs_textual|].
  exists (fst (ingest_messages no_floats mix toy streams sigs_text (fun _ _ => Ok true) (fun _ => Ok 0%Z) (fun _ _ => true) 5 empty (s! "log") (Some false) None)). split; [vm_compute; reflexivity|].
  eapply reached_more; [apply reached_empty| |apply surjective_pairing]. discriminate.
Qed.
#*)
Lemma C126_l (canon : bytes -> option bytes) (hash : bytes -> bytes -> bytes) (cr : crypto) (messages_of : bytes -> R (list message)) (group_text : group -> R bytes)
    (schema_check : bytes -> bytes -> R bool) (age : bytes -> R Z) (seen_said : ledger -> bytes -> bool) (l : ledger) (pre : bytes) (n : nat) (text : bytes) :
  finds_all canon seen_said -> textual group_text -> reached canon hash cr messages_of group_text schema_check age seen_said l -> nth_error (l_kel l pre) n = Some text ->
  exists l0 e value rest, extends l0 l /\ l_kel l0 pre = firstn n (l_kel l pre) /\ text = d_raw e ++ rest /\ group_text (GQuadlets value) = Ok rest /\ serder_with_raw canon text = Ok e /\
    field_of (d_ked e) (s! "i") (VStr pre) /\ ordinal (d_ked e) (N.of_nat n) /\ verify_key_event canon hash cr messages_of 1 (view canon l0) e value None [] = Ok (false, []).
Proof. intros FA TX RE H. now apply (proj1 (reached_kept canon hash cr messages_of group_text schema_check age seen_said FA TX l RE)) in H. Qed.

(*# C126_registry_events_verified
   The same for registry events: each stands at the place that is its number, in the log of its own prefix, and was verified when the log was that long.
##
Example C126_registry_case : finds_all no_floats (fun _ _ => true) /\ textual letter_of /\ exists l, length (l_tel l rpre0) = 1%nat /\ length (l_tel l csaid0) = 2%nat /\
  reached no_floats mix toy lettered letter_of (fun _ _ => Ok true) (fun _ => Ok 0%Z) (fun _ _ => true) l.
Proof.
  split; [intros l said _; reflexivity|]. split; [exact letters_textual|].
  exists (fst (ingest_messages no_floats mix toy lettered letter_of (fun _ _ => Ok true) (fun _ => Ok 0%Z) (fun _ _ => true) 9 (fst (ingest_messages no_floats mix toy lettered letter_of (fun _ _ => Ok true) (fun _ => Ok 0%Z) (fun _ _ => true) 9 empty (s! "issued") (Some false) None)) (s! "revoked") None None)).
  split; [vm_compute; reflexivity|]. split; [vm_compute; reflexivity|].
  eapply reached_more; [eapply reached_more; [apply reached_empty| |apply surjective_pairing]| |apply surjective_pairing]; discriminate.
Qed.
#*)
Lemma C126r_l (canon : bytes -> option bytes) (hash : bytes -> bytes -> bytes) (cr : crypto) (messages_of : bytes -> R (list message)) (group_text : group -> R bytes)
    (schema_check : bytes -> bytes -> R bool) (age : bytes -> R Z) (seen_said : ledger -> bytes -> bool) (l : ledger) (pre : bytes) (n : nat) (text : bytes) :
  finds_all canon seen_said -> textual group_text -> reached canon hash cr messages_of group_text schema_check age seen_said l -> nth_error (l_tel l pre) n = Some text ->
  exists l0 e value rest fuel deep seen seen', extends l0 l /\ l_tel l0 pre = firstn n (l_tel l pre) /\ text = d_raw e ++ rest /\ group_text (GSources value) = Ok rest /\ serder_with_raw canon text = Ok e /\
    field_of (d_ked e) (s! "i") (VStr pre) /\ ordinal (d_ked e) (N.of_nat n) /\ verify_transaction_event canon hash cr messages_of fuel (view canon l0) e value deep seen = Ok (false, seen').
Proof. intros FA TX RE H. now apply (proj1 (proj2 (reached_kept canon hash cr messages_of group_text schema_check age seen_said FA TX l RE))) in H. Qed.

(*# C126_credentials_verified
   And for credentials: each was verified when it was inserted.
##
Example C126_credential_case : exists l, length (l_acdc l) = 1%nat /\ reached no_floats mix toy lettered letter_of (fun _ _ => Ok true) (fun _ => Ok 0%Z) (fun _ _ => true) l.
Proof.
  exists (fst (ingest_messages no_floats mix toy lettered letter_of (fun _ _ => Ok true) (fun _ => Ok 0%Z) (fun _ _ => true) 9 empty (s! "issued") (Some false) None)).
  split; [vm_compute; reflexivity|]. eapply reached_more; [apply reached_empty| |apply surjective_pairing]. discriminate.
Qed.
#*)
Lemma C126c_l (canon : bytes -> option bytes) (hash : bytes -> bytes -> bytes) (cr : crypto) (messages_of : bytes -> R (list message)) (group_text : group -> R bytes)
    (schema_check : bytes -> bytes -> R bool) (age : bytes -> R Z) (seen_said : ledger -> bytes -> bool) (l : ledger) (n : nat) (text : bytes) :
  finds_all canon seen_said -> textual group_text -> reached canon hash cr messages_of group_text schema_check age seen_said l -> nth_error (l_acdc l) n = Some text ->
  exists l0 e value rest fuel deep seen seen', extends l0 l /\ l_acdc l0 = firstn n (l_acdc l) /\ text = d_raw e ++ rest /\ group_text (GQuadlets value) = Ok rest /\ creder_with_raw canon text = Ok e /\
    verify_acdc canon hash cr messages_of schema_check age fuel (view canon l0) e value deep seen = Ok (false, seen').
Proof. intros FA TX RE H. now apply (proj2 (proj2 (reached_kept canon hash cr messages_of group_text schema_check age seen_said FA TX l RE))) in H. Qed.

(*# C126_any_store_refuted
   False for a store that finds only other data by their identifiers: in a stream with an inception and, after it, the same inception with its threshold lowered, the second is inserted without verification. No store and no
   signatures would make verification accept it.
#*)
Lemma C126_no_l : textual sigs_text /\ exists l text e, reached no_floats mix toy streams sigs_text (fun _ _ => Ok true) (fun _ => Ok 0%Z) (fun _ _ => false) l /\
  nth_error (l_kel l pre0) 1 = Some text /\ serder_with_raw no_floats text = Ok e /\ forall fuel st g deep seen r, verify_key_event no_floats mix toy streams fuel st e g deep seen <> Ok r.
Proof.
  split; [exact sigs_textual|].
  exists (fst (ingest_messages no_floats mix toy streams sigs_text (fun _ _ => Ok true) (fun _ => Ok 0%Z) (fun _ _ => false) 5 empty (s! "forged") None None)), (d_raw forged0), forged0.
  split. { eapply reached_more; [apply reached_empty| |apply surjective_pairing]. discriminate. }
  split; [vm_compute; reflexivity|]. split; [vm_compute; reflexivity|]. intros fuel st g deep seen r H. assert (serder_with_raw no_floats (d_raw forged0) = Ok forged0) as RF by (vm_compute; reflexivity).
  destruct (inception_ok _ _ _ _ _ _ _ _ _ _ _ _ RF H) as (pre & _ & _ & _ & V); [apply type_text; vm_compute; reflexivity|]. assert (prefixer_verify mix (d_saider forged0) (d_ked forged0) (Some true) = Ok false) as Z by (vm_compute; reflexivity). congruence.
Qed.

(*# C127_append_only
   Taking in a stream only appends to the logs and to the credentials, whatever the stream, its outcome and the options.
##
Example C127_case : let l := fst (ingest_messages no_floats mix toy streams sigs_text (fun _ _ => Ok true) (fun _ => Ok 0%Z) (fun _ _ => false) 5 log1 (s! "forged") None (Some false)) in
  length (l_kel log1 pre0) = 1%nat /\ length (l_kel l pre0) = 3%nat.
Proof. split; vm_compute; reflexivity. Qed.
#*)
Lemma C127_l (canon : bytes -> option bytes) (hash : bytes -> bytes -> bytes) (cr : crypto) (messages_of : bytes -> R (list message)) (group_text : group -> R bytes)
    (schema_check : bytes -> bytes -> R bool) (age : bytes -> R Z) (seen_said : ledger -> bytes -> bool) (fuel : nat) (l : ledger) (stream : bytes) (deep verify : option bool) (l' : ledger) (r : R unit) :
  ingest_messages canon hash cr messages_of group_text schema_check age seen_said fuel l stream deep verify = (l', r) -> extends l l'.
Proof.
  unfold ingest_messages. destruct (messages_of stream) as [ms| |]; try (intros [= <- <-]; apply extends_refl). generalize (@nil bytes) as seen. remember (length ms) as k eqn:K. assert (length ms <= k)%nat as L by lia. clear K. revert ms L l.
  assert (forall l seen raw next l1 seen1, ingest_one canon hash cr messages_of group_text schema_check age seen_said fuel deep verify l seen raw next = Ok (l1, seen1) -> extends l l1) as ONE.
  { intros l seen raw next l1 seen1 H. unfold ingest_one in H. apply bind_ok in H as (i & _ & H). cbv zeta in H. destruct (beq (vi_ident i) (s! "KERI")).
    - apply bind_ok in H as (e & HE & H). apply bind_ok in H as (said & HS & H). apply bind_ok in H as (g & _ & H). apply bind_ok in H as (ilk & _ & H).
      destruct (has_code [s! "icp"; s! "rot"; s! "ixn"] ilk); [|destruct (has_code [s! "vcp"; s! "iss"; s! "rev"] ilk); [|discriminate]]; destruct g; try discriminate; apply bind_ok in H as (x & _ & H);
        (destruct (fst x); cbn [negb] in H; [injection H as <- _; apply extends_refl|]); apply bind_ok in H as (event & _ & H); apply bind_ok in H as (pre & _ & H); apply bind_ok in H as (text & _ & H); injection H as <- _; [apply key_extends|apply tel_extends].
    - destruct (beq (vi_ident i) (s! "ACDC")); [|discriminate]. apply bind_ok in H as (e & HE & H). apply bind_ok in H as (said & HS & H). apply bind_ok in H as (g & _ & H). destruct g; try discriminate. apply bind_ok in H as (x & _ & H).
      destruct (fst x); cbn [negb] in H; [injection H as <- _; apply extends_refl|]. apply bind_ok in H as (event & _ & H). apply bind_ok in H as (text & _ & H). injection H as <- _. apply acdc_extends. }
  induction k as [|k IH]; intros ms L l seen H.
  - destruct ms; [|cbn in L; lia]. injection H as <- <-. apply extends_refl.
  - destruct ms as [|[raw|g] ms]; cbn [ingest_loop] in H; [injection H as <- <-; apply extends_refl| |injection H as <- <-; apply extends_refl].
    destruct ms as [|m ms]. { destruct (ingest_one _ _ _ _ _ _ _ _ _ _ _ _ _ _ _); injection H as <- <-; apply extends_refl. }
    destruct (ingest_one _ _ _ _ _ _ _ _ _ _ _ _ _ _ _) as [(l1 & seen1)| |] eqn:O; [|injection H as <- <-; apply extends_refl|injection H as <- <-; apply extends_refl].
    apply (extends_trans _ l1); [now apply (ONE l seen raw (Some m) l1 seen1)|]. apply (IH ms ltac:(cbn in L; lia) l1 seen1 H).
Qed.

Lemma entry_back canon hash cr mo l l0 pre n e value : l_kel l0 pre = firstn (S n) (l_kel l pre) ->
  field_of (d_ked e) (s! "i") (VStr pre) -> ordinal (d_ked e) (N.of_nat (S n)) -> N.of_nat (S n) <= 2 ^ 32 -> verify_key_event canon hash cr mo 1 (view canon l0) e value None [] = Ok (false, []) ->
  ~ of_type (d_ked e) (s! "icp") /\ exists t pe psaid, nth_error (l_kel l pre) n = Some t /\ serder_with_raw canon t = Ok pe /\ sad_said pe = Ok psaid /\ field_of (d_ked e) (s! "p") (VStr psaid).
Proof.
  intros K I O L V. destruct (step_back _ _ _ _ _ _ _ _ _ _ _ _ _ V I O L ltac:(lia)) as (T & pe & psaid & (t & A & B & C) & F). split; auto. exists t, pe, psaid. repeat (split; [|assumption || auto]).
  cbn in A. unfold at_sn in A. rewrite K in A. replace (N.to_nat (N.of_nat (S n) - 1)) with n in A by lia. destruct (nth_error (firstn (S n) (l_kel l pre)) n) as [x|] eqn:E; [|discriminate]. injection A as ->.
  rewrite <- (firstn_skipn (S n) (l_kel l pre)). rewrite nth_error_app1; auto. apply nth_error_Some. congruence.
Qed.

(*# C128_ledgers_agree
   Two ledgers were made by taking in streams, by two parties with their own signature schemes, parsers and options. If the events under a number in the logs of a prefix have the same identifier, then so have those under every
   smaller number, and their data are the same, the text of field d aside; or Blake3 has a collision. (Of inceptions this is said of the fields after a leading version string.)
##
Example C128_case : exists l1 l2, length (l_kel l1 pre0) = 3%nat /\ length (l_kel l2 pre0) = 4%nat /\ nth_error (l_kel l1 pre0) 2 = nth_error (l_kel l2 pre0) 2 /\
  reached no_floats mix toy lettered letter_of (fun _ _ => Ok true) (fun _ => Ok 0%Z) (fun _ _ => true) l1 /\ reached no_floats mix toy lettered letter_of (fun _ _ => Ok true) (fun _ => Ok 0%Z) (fun _ _ => true) l2.
Proof.
  exists (fst (ingest_messages no_floats mix toy lettered letter_of (fun _ _ => Ok true) (fun _ => Ok 0%Z) (fun _ _ => true) 9 empty (s! "issued") (Some false) None)),
    (fst (ingest_messages no_floats mix toy lettered letter_of (fun _ _ => Ok true) (fun _ => Ok 0%Z) (fun _ _ => true) 9 (fst (ingest_messages no_floats mix toy lettered letter_of (fun _ _ => Ok true) (fun _ => Ok 0%Z) (fun _ _ => true) 9 empty (s! "issued") (Some false) None)) (s! "revoked") None None)).
  split; [vm_compute; reflexivity|]. split; [vm_compute; reflexivity|]. split; [vm_compute; reflexivity|]. split.
  - eapply reached_more; [apply reached_empty| |apply surjective_pairing]. discriminate.
  - eapply reached_more; [eapply reached_more; [apply reached_empty| |apply surjective_pairing]| |apply surjective_pairing]; discriminate.
Qed.
#*)
Lemma C128_l (canon : bytes -> option bytes) (hash : bytes -> bytes -> bytes) (cr1 cr2 : crypto) (messages_of1 messages_of2 : bytes -> R (list message)) (group_text1 group_text2 : group -> R bytes)
    (schema_check1 schema_check2 : bytes -> bytes -> R bool) (age1 age2 : bytes -> R Z) (seen_said1 seen_said2 : ledger -> bytes -> bool) (l1 l2 : ledger) (pre : bytes) :
  sized_hash hash -> finds_all canon seen_said1 -> finds_all canon seen_said2 -> textual group_text1 -> textual group_text2 ->
  reached canon hash cr1 messages_of1 group_text1 schema_check1 age1 seen_said1 l1 -> reached canon hash cr2 messages_of2 group_text2 schema_check2 age2 seen_said2 l2 ->
  (forall text e, In text (l_kel l1 pre) \/ In text (l_kel l2 pre) -> serder_with_raw canon text = Ok e -> float_free (d_ked e)) ->
  forall (n : nat) (text1 text2 : bytes) (e1 e2 : sadder) (said : bytes), N.of_nat n <= 2 ^ 32 ->
  nth_error (l_kel l1 pre) n = Some text1 -> nth_error (l_kel l2 pre) n = Some text2 -> serder_with_raw canon text1 = Ok e1 -> serder_with_raw canon text2 = Ok e2 -> sad_said e1 = Ok said -> sad_said e2 = Ok said ->
  (forall m, (m <= n)%nat -> exists t1 t2 e1' e2' said', nth_error (l_kel l1 pre) m = Some t1 /\ nth_error (l_kel l2 pre) m = Some t2 /\ serder_with_raw canon t1 = Ok e1' /\ serder_with_raw canon t2 = Ok e2' /\
     sad_said e1' = Ok said' /\ sad_said e2' = Ok said' /\
     (forall m1 m2, (0 < m)%nat -> d_ked e1' = VObj m1 -> d_ked e2' = VObj m2 -> without [s! "d"] m1 = without [s! "d"] m2) /\
     (forall vs1 vs2 m1 m2, m = 0%nat -> d_ked e1' = VObj ((s! "v", VStr vs1) :: m1) -> d_ked e2' = VObj ((s! "v", VStr vs2) :: m2) -> without [s! "d"] m1 = without [s! "d"] m2)) \/
  collision hash (s! "E").
Proof.
  intros SH FA1 FA2 TX1 TX2 RE1 RE2 FF. induction n as [|n IH]; intros text1 text2 e1 e2 said L N1 N2 R1 R2 S1 S2.
  - destruct (C126_l _ _ _ _ _ _ _ _ _ _ _ _ FA1 TX1 RE1 N1) as (l01 & e1' & v1 & x1 & X1 & K1 & T1 & G1 & R1' & I1 & O1 & V1). assert (e1' = e1) as -> by congruence.
    destruct (C126_l _ _ _ _ _ _ _ _ _ _ _ _ FA2 TX2 RE2 N2) as (l02 & e2' & v2 & x2 & X2 & K2 & T2 & G2 & R2' & I2 & O2 & V2). assert (e2' = e2) as -> by congruence.
    assert (float_free (d_ked e1) /\ float_free (d_ked e2)) as (F1 & F2). { split; [apply (FF text1)|apply (FF text2)]; auto; [left|right]; eapply nth_error_In; eauto. }
    assert (forall cr mo st e v, verify_key_event canon hash cr mo 1 st e v None [] = Ok (false, []) -> ordinal (d_ked e) (N.of_nat 0) -> of_type (d_ked e) (s! "icp")) as IC.
    { intros cr mo st e v V O. destruct (C120_l _ _ _ _ _ _ _ _ _ _ _ _ V) as (p' & n' & s' & ilk & labels & count & A1 & A2 & _ & A4 & _ & _ & _ & _ & _ & _ & _ & A5). apply sn_field in A2, O. change (N.of_nat 0) with 0 in O. assert (n' = 0) as -> by congruence.
      destruct (beq ilk (s! "icp")) eqn:B; [apply beq_eq in B; now subst|]. destruct A5 as (A5 & _); [intros ->; rewrite beq_refl in B; discriminate|]. vm_compute in A5. now elim A5. }
    pose proof (IC _ _ _ _ _ V1 O1) as TY1. pose proof (IC _ _ _ _ _ V2 O2) as TY2.
    assert ((forall vs1 vs2 m1 m2, d_ked e1 = VObj ((s! "v", VStr vs1) :: m1) -> d_ked e2 = VObj ((s! "v", VStr vs2) :: m2) -> without [s! "d"] m1 = without [s! "d"] m2) \/ collision hash (s! "E")) as [W|]; [| |now right].
    { destruct (d_ked e1) as [| | | | | |[|(k1, y1) m1]] eqn:E1; try (left; intros; discriminate). destruct y1 as [| | | |vs1| |]; try (left; intros; discriminate). destruct (beq k1 (s! "v")) eqn:B1; [apply beq_eq in B1; subst k1|left; intros ? ? ? ? [= -> ]; rewrite beq_refl in B1; discriminate].
      destruct (d_ked e2) as [| | | | | |[|(k2, y2) m2]] eqn:E2; try (left; intros; discriminate). destruct y2 as [| | | |vs2| |]; try (left; intros; discriminate). destruct (beq k2 (s! "v")) eqn:B2; [apply beq_eq in B2; subst k2|left; intros ? ? ? ? ? [= -> ]; rewrite beq_refl in B2; discriminate].
      assert (field_of (d_ked e1) (s! "i") (VStr pre) /\ field_of (d_ked e2) (s! "i") (VStr pre)) as (I1' & I2') by (rewrite E1, E2; auto). assert (of_type (d_ked e1) (s! "icp") /\ of_type (d_ked e2) (s! "icp")) as (TY1' & TY2') by (rewrite E1, E2; auto).
      assert (float_free (d_ked e1) /\ float_free (d_ked e2)) as (F1' & F2') by (rewrite E1, E2; auto).
      destruct (C123b_l canon hash cr1 cr2 messages_of1 messages_of2 1 1 (view canon l01) (view canon l02) text1 text2 e1 e2 v1 v2 None None [] [] _ _ vs1 vs2 pre m1 m2 SH R1 R2 V1 V2 TY1' TY2' I1' I2' E1 E2 F1' F2') as [W|]; [left|now right].
      intros ? ? ? ? [= <- <-] [= <- <-]. exact W. }
    left. intros m LM. assert (m = 0%nat) as -> by lia. exists text1, text2, e1, e2, said. repeat (split; [assumption|]). split; [intros; lia|]. intros; eapply W; eauto.
  - destruct (C126_l _ _ _ _ _ _ _ _ _ _ _ _ FA1 TX1 RE1 N1) as (l01 & e1' & v1 & x1 & X1 & K1 & T1 & G1 & R1' & I1 & O1 & V1). assert (e1' = e1) as -> by congruence.
    destruct (C126_l _ _ _ _ _ _ _ _ _ _ _ _ FA2 TX2 RE2 N2) as (l02 & e2' & v2 & x2 & X2 & K2 & T2 & G2 & R2' & I2 & O2 & V2). assert (e2' = e2) as -> by congruence.
    assert (float_free (d_ked e1) /\ float_free (d_ked e2)) as (F1 & F2). { split; [apply (FF text1)|apply (FF text2)]; auto; [left|right]; eapply nth_error_In; eauto. }
    destruct (entry_back _ _ _ _ _ _ _ _ _ _ K1 I1 O1 L V1) as (TY1 & t1 & pe1 & ps1 & B1 & B2 & B3 & B4). destruct (entry_back _ _ _ _ _ _ _ _ _ _ K2 I2 O2 L V2) as (TY2 & t2 & pe2 & ps2 & D1 & D2 & D3 & D4).
    assert (forall raw e, serder_with_raw canon raw = Ok e -> exists m, d_ked e = VObj m) as OB. { intros raw e R. destruct (read_said _ _ _ R) as (t & F & _). now destruct F as (a & b & E & _); eauto. }
    destruct (OB _ _ R1) as (m1 & E1). destruct (OB _ _ R2) as (m2 & E2).
    destruct (C123c_l canon hash cr1 cr2 messages_of1 messages_of2 1 1 (view canon l01) (view canon l02) text1 text2 e1 e2 v1 v2 None None [] [] _ _ said m1 m2 SH R1 R2 V1 V2 TY1 TY2 S1 S2 E1 E2 F1 F2) as [W|]; [|now right].
    rewrite E1 in B4. rewrite E2 in D4. apply (kept_field _ _ _ _ W) in B4; [|discriminate]. apply index_field in B4, D4. assert (ps1 = ps2) as -> by congruence.
    destruct (IH t1 t2 pe1 pe2 ps2 ltac:(lia) B1 D1 B2 D2 B3 D3) as [A|]; [|now right]. left. intros m LM. destruct (Nat.eq_dec m (S n)) as [->|]; [|apply A; lia].
    exists text1, text2, e1, e2, said. repeat (split; [assumption|]). split; [|intros; lia]. intros a b _ A1 A2. rewrite E1 in A1. rewrite E2 in A2. injection A1 as <-. injection A2 as <-. exact W.
Qed.
