(** Property C174: endorsements of key events and what can be read back from them. *)
From Coq Require Import String.
From Coq Require Import NArith ZArith Lia Bool List.
From Verif Require Import Base BaseFacts B64 B64Facts Util Tables Matter MatterFacts MatterThms Indexer IndexerFacts IndexerMore SpecIndexer IndexerThms Counter CounterFacts CounterThms
  Prims PrimsFacts PrimsThms Json JsonFacts Common CommonFacts CommonThms SpecJson SpecPrims SpecCommon SpecSaider SpecSadder Saider SaiderFacts Sadder SadderFacts SadderThms Messaging Spec SpecMessaging MessagingThms Short Events.
Import ListNotations.
Open Scope N_scope.

Lemma wigers_are l t : wiger_texts l = Ok t <-> Forall (fun p => transferable (snd p) = false) l /\ siger_texts l = Ok t.
Proof.
  revert t. induction l as [|(x & v) l IH]; intros t; cbn [wiger_texts siger_texts]; [split; [intros H; split; auto|intros (_ & H); exact H]|]. destruct (transferable v) eqn:T.
  { split; [discriminate|]. intros (F & _). inversion F as [|p q F1 F2]; subst. cbn in F1. congruence. }
  split.
  - intros H. apply bind_ok in H as (a & A & H). apply bind_ok in H as (b & B & H). apply IH in B as (F & B). split; [constructor; auto|]. rewrite A, bind_Ok, B, bind_Ok. exact H.
  - intros (F & H). inversion F as [|p q F1 F2]; subst. apply bind_ok in H as (a & A & H). apply bind_ok in H as (b & B & H). rewrite A, bind_Ok, (proj2 (IH b) (conj F2 B)), bind_Ok. exact H.
Qed.
Lemma headed_wigers l t : headed (s! "-B") l (wiger_texts l) = Ok t <-> Forall (fun p => transferable (snd p) = false) l /\ siger_group (s! "-B") l = Ok t.
Proof.
  unfold headed, siger_group. destruct (counter_of_code_count (s! "-B") (as_u32 (len l))) as [c| |]; [rewrite !bind_Ok|cbn [bind]; split; [discriminate|intros (_ & X); discriminate]..].
  destruct (cinfil c) as [h| |]; [rewrite !bind_Ok|cbn [bind]; split; [discriminate|intros (_ & X); discriminate]..]. split.
  - intros H. apply bind_ok in H as (a & A & H). apply wigers_are in A as (F & A). split; auto. now rewrite A, bind_Ok.
  - intros (F & H). apply bind_ok in H as (a & A & H). now rewrite (proj2 (wigers_are l a) (conj F A)), bind_Ok.
Qed.
Lemma quadlets_count n : counter_of_code_count (s! "-V") n = if 4096 <=? n then Err EInvalidVarIndex else Ok (Ct (s! "-V") n).
Proof. erewrite cconstruct; [|reflexivity]. reflexivity. Qed.
Lemma quadlets_wf n : n < 4096 -> exists z, cwf (Ct (s! "-V") n) z /\ hs z + ss z = 4.
Proof. intros L. eexists. split; [split; [reflexivity|exact L]|reflexivity]. Qed.
Lemma small_quadlets (en : bytes) : len en < 2 ^ 34 -> as_u32 (len en / 4) = len en / 4.
Proof. intros L. unfold as_u32. apply N.mod_small. apply N.div_lt_upper_bound; [discriminate|]. change (2 ^ 34) with (4 * 2 ^ 32) in L. exact L. Qed.

(*# C174_endorsements_read_back_partial
   Without unindexed signatures and without a seal (see C174_seals_read_back for seals), an endorsement is one group for each list given, and reading it gives the codes, the exact numbers of signatures and the signatures in
   order. In the pipelined form the event is followed by a counter that says exactly how many groups of four characters follow, and then by the endorsement; the event is read from it as
   before. Lists are shorter than 2^32 and endorsements than 2^34 characters. Full statement: also unindexed signatures with their keys; see C174_whose_signatures_refuted.
##
Example C174_case : exists p q s en t, siger_new None (Some 3) (Some 4) (Some (s! "2A")) (Some (repeat x07 64)) None None None = Ok p /\
  siger_new (Some (Mt (s! "B") 0 (repeat x05 32))) (Some 1) None (Some (s! "B")) (Some (repeat x09 64)) None None None = Ok q /\
  serder_new (fun _ => None) None (Some (s! "{""v"":""KERI10JSON00004c_"",""d"":""EAAAAAAAAAAAAAAAAAAAAAAAAAAAAAAAAAAAAAAAAAAA""}")) None None None = Ok s /\
  endorse_serder (Some [p; p]) None (Some [q]) None = Ok en /\ messagize_serder s en (Some true) = Ok t /\ len t = 76 + 4 + 4 + 2 * 92 + 4 + 88.
Proof.
  eexists. eexists. eexists. eexists. eexists. split; [vm_compute; reflexivity|]. split; [vm_compute; reflexivity|]. split; [vm_compute; reflexivity|].
  split; [vm_compute; reflexivity|]. split; [vm_compute; reflexivity|]. vm_compute. reflexivity.
Qed.
#*)
Lemma C174_l (s : sadder) (sigers wigers : option (list (indexer * matter))) (en : bytes) :
  (forall code l, In (code, l) (given (s! "-A") sigers ++ given (s! "-B") wigers) -> Forall made l /\ len l < 2 ^ 32) ->
  endorse_serder sigers None wigers None = Ok en ->
  (exists gs, groups gs en /\ same_groups (given (s! "-A") sigers ++ given (s! "-B") wigers) gs) /\
  (forall t, messagize_serder s en (Some false) = Ok t -> t = d_raw s ++ en) /\
  (forall t, len en < 2 ^ 34 -> messagize_serder s en (Some true) = Ok t ->
    exists h n, t = d_raw s ++ h ++ en /\ len h = 4 /\ cexfil (h ++ en) = Ok (Ct (s! "-V") n) /\ len en = 4 * n) /\
  (forall p t, messagize_serder s en p = Ok t ->
    forall new canon code raw kind ked sad, In new constructors -> new canon code (Some raw) kind ked sad = Ok s -> new canon code (Some t) None None None = Ok s).
Proof.
  intros M H. unfold endorse_serder in H. destruct (is_none sigers && is_none wigers && is_none None); [discriminate|]. apply bind_ok in H as (atc & AT & H). apply bind_ok in H as (watc & WT & H). rewrite bind_Ok, app_nil_r in H. injection H as <-.
  assert (match sigers with Some l => siger_group (s! "-A") l | None => Ok [] end = Ok atc) as AT'.
  { destruct sigers; [|exact AT]. rewrite bind_Ok in AT. apply bind_ok in AT as (g & G & AT). injection AT as <-. exact G. }
  assert (match wigers with Some l => siger_group (s! "-B") l | None => Ok [] end = Ok watc) as WT' by (destruct wigers; [|exact WT]; now apply headed_wigers in WT).
  assert (forall l', wigers = Some l' -> Forall made l' /\ len l' < 2 ^ 32) as MW by (intros l' ->; apply (M (s! "-B")); apply in_or_app; right; now left).
  assert (forall l', sigers = Some l' -> Forall made l' /\ len l' < 2 ^ 32) as MS by (intros l' ->; apply (M (s! "-A")); apply in_or_app; left; now left).
  destruct (attached (s! "-B") wigers watc [] [] ltac:(cbn; tauto) MW WT' eq_refl eq_refl [] (Forall2_nil _)) as (AW & gw & GW & SW). rewrite app_nil_r in GW, SW.
  destruct (attached (s! "-A") sigers atc watc gw ltac:(cbn; tauto) MS AT' AW GW _ SW) as (AA & gs & GS & SS).
  split; [eauto|]. set (en := atc ++ watc) in *. assert (ascii en = true) as AE by (unfold en; now rewrite ascii_app, AA, AW). clearbody en.
  assert (forall p t, messagize_serder s en p = Ok t -> exists h, t = d_raw s ++ h ++ en /\ ascii h = true /\ (p = Some false -> h = []) /\
    (p = Some true -> len en < 2 ^ 34 -> exists n, len h = 4 /\ cexfil (h ++ en) = Ok (Ct (s! "-V") n) /\ len en = 4 * n)) as K.
  { intros p t H. unfold messagize_serder in H. apply bind_ok in H as (msg & U & H). rewrite from_utf8_eq in U. destruct (utf8 (d_raw s)); [|discriminate]. injection U as <-. apply bind_ok in H as (h & G & H). injection H as <-.
    exists h. split; [reflexivity|]. destruct p as [[|]|]; cbn [or_else] in G; [|injection G as <-; repeat split; intros X; discriminate..].
    destruct (N.eqb_spec (len en mod 4) 0) as [E|E]; cbn [negb] in G; [|discriminate]. rewrite quadlets_count in G. destruct (N.leb_spec 4096 (as_u32 (len en / 4))) as [B|B]; [discriminate|]. rewrite bind_Ok in G.
    destruct (quadlets_wf _ B) as (z & W & S). rewrite (cinfil_wf _ _ W) in G. injection G as <-. split; [apply is_b64s_ascii; now apply ctext_b64|]. split; [intros X; discriminate|].
    intros _ L. rewrite (small_quadlets _ L) in *. exists (len en / 4). split; [now rewrite (len_ctext _ _ W)|]. split; [apply (cexfil_ctext _ _ _ W); now apply utf8_ascii|].
    pose proof (N.div_mod (len en) 4). lia. }
  split; [|split].
  - intros t H. destruct (K _ _ H) as (h & -> & _ & X & _). now rewrite (X eq_refl).
  - intros t L H. destruct (K _ _ H) as (h & -> & _ & _ & X). destruct (X eq_refl L) as (n & X1 & X2 & X3). exists h, n. auto.
  - intros p t H new canon code raw kind ked sad I N. destruct (K _ _ H) as (h & -> & A & _). destruct (C87_l new canon code kind None raw (h ++ en) ked None sad None s I N) as (_ & _ & _ & _ & R). apply R.
    rewrite utf8_ascii_app by auto. now apply utf8_ascii.
Qed.
(*# C174_seals_read_back
   With a seal and signatures of the controller the endorsement begins with a counter announcing one group and the identifier of the seal, and, unless the seal stands for the last event, with
   the number written in hexadecimal in the seal and its digest; then come the signatures as before. If the identifier and the digest are texts of primitives, all of it is read back.
##
Example C174_seals_case : exists p en, siger_new None (Some 1) None (Some (s! "B")) (Some (repeat x09 64)) None None None = Ok p /\
  endorse_serder (Some [p]) (Some (VObj [(s! "i", VStr (s! "MAAB")); (s! "s", VStr (s! "1f")); (s! "d", VStr (s! "MAAC"))], false)) None None = Ok en /\ take 36 en = s! "-FABMAAB0AAAAAAAAAAAAAAAAAAAAAAfMAAC".
Proof. eexists. eexists. split; [vm_compute; reflexivity|]. split; [vm_compute; reflexivity|]. vm_compute. reflexivity. Qed.
#*)
Lemma C174_seals_l (sigers : list (indexer * matter)) (wigers : option (list (indexer * matter))) (v : value) (last : bool) (i sn d en : bytes) (pi pd : matter) :
  (forall code l, In (code, l) (given (s! "-A") (Some sigers) ++ given (s! "-B") wigers) -> Forall made l /\ len l < 2 ^ 32) ->
  endorse_serder (Some sigers) (Some (v, last)) wigers None = Ok en ->
  field_of v (s! "i") (VStr i) -> utf8 i = true -> exfil i = Ok pi -> (last = false -> field_of v (s! "s") (VStr sn) /\ field_of v (s! "d") (VStr d) /\ utf8 d = true /\ exfil d = Ok pd) ->
  exists h a b gs, en = h ++ i ++ a ++ b /\ len h = 4 /\ exfil (i ++ a ++ b) = Ok pi /\ groups gs b /\
    same_groups (given (s! "-A") (Some sigers) ++ given (s! "-B") wigers) gs /\
    (last = true -> cexfil (h ++ i ++ a ++ b) = Ok (Ct (s! "-H") 1) /\ a = []) /\
    (last = false -> cexfil (h ++ i ++ a ++ b) = Ok (Ct (s! "-F") 1) /\
      exists q m n, a = q ++ d /\ exfil (q ++ d ++ b) = Ok m /\ infil m = Ok q /\ m_code m = s! "0A" /\ seqner_sn m = Ok n /\ hex_reading sn n /\ exfil (d ++ b) = Ok pd).
Proof.
  intros M H FI UI EI FD. set (e := Sd [] [] VNull [] [] 0 current_version (Mt [] 0 [])).
  assert (forall z : seal, sl_i z = i -> sl_last z = last -> (last = false -> sl_s z = sn /\ sl_d z = d) -> messagize e (Some sigers) (Some z) wigers None = Ok en) as K.
  { intros z ZI ZL ZD. unfold endorse_serder in H. cbn [is_none andb] in H. apply bind_ok in H as (a & A & H). apply bind_ok in H as (b & B & H). rewrite bind_Ok, app_nil_r in H. injection H as <-.
    apply bind_ok in A as (h & HH & A). apply bind_ok in A as (g & G & A). injection A as <-.
    assert (seal_header z = Ok h) as SH.
    { unfold seal_head in HH. apply index_field in FI. rewrite FI, bind_Ok in HH. unfold seal_header. rewrite ZI, ZL. apply bind_ok in HH as (c & C & HH). apply bind_ok in HH as (t & T & HH). cbn [to_string] in HH. rewrite bind_Ok in HH. destruct last.
      - rewrite C, bind_Ok, T, bind_Ok. exact HH.
      - destruct (FD eq_refl) as (F1 & F2 & _). destruct (ZD eq_refl) as (Z1 & Z2). apply index_field in F1. apply index_field in F2. rewrite F1, bind_Ok in HH. cbn [to_string] in HH. rewrite bind_Ok in HH.
        apply bind_ok in HH as (m & MM & HH). apply bind_ok in HH as (q & Q & HH). rewrite F2, !bind_Ok in HH. rewrite C, bind_Ok, T, bind_Ok. unfold seal_sn. unfold seqner_with_snh in MM. rewrite Z1, MM, bind_Ok, Q, bind_Ok, Z2. exact HH. }
    assert (match wigers with Some l => siger_group (s! "-B") l | None => Ok [] end = Ok b) as WT' by (destruct wigers; [|exact B]; now apply headed_wigers in B).
    unfold messagize. cbn [d_raw e]. rewrite from_utf8_eq. cbn [utf8 is_none andb]. rewrite bind_Ok, SH, bind_Ok. change (headed (s! "-A") sigers (siger_texts sigers)) with (siger_group (s! "-A") sigers) in G.
    rewrite G, !bind_Ok, WT', bind_Ok. reflexivity. }
  destruct last.
  - destruct (seal_emitted e sigers (Sl i [] i true) wigers None en pi pi M (K (Sl i [] i true) eq_refl eq_refl ltac:(discriminate)) UI EI UI EI) as (h & a & b & gs & A1 & A2 & A3 & A4 & A5 & A6 & _).
    exists h, a, b, gs. split; [exact A1|]. split; [exact A2|]. split; [exact A3|]. split; [exact A4|]. split; [exact A5|]. split; [exact A6|intros X; discriminate X].
  - destruct (FD eq_refl) as (_ & _ & UD & ED). destruct (seal_emitted e sigers (Sl i sn d false) wigers None en pi pd M (K (Sl i sn d false) eq_refl eq_refl (fun _ => conj eq_refl eq_refl)) UI EI UD ED) as (h & a & b & gs & A1 & A2 & A3 & A4 & A5 & _ & A7).
    exists h, a, b, gs. split; [exact A1|]. split; [exact A2|]. split; [exact A3|]. split; [exact A4|]. split; [exact A5|]. split; [intros X; discriminate X|exact A7].
Qed.
Lemma same_whoever (sigers wigers : option (list (indexer * matter))) (seal : option (value * bool)) (some other : list (matter * matter)) :
  map fst some = map fst other -> Forall (fun p => transferable (snd p) = false) (some ++ other) ->
  endorse_serder sigers seal wigers (Some some) = endorse_serder sigers seal wigers (Some other).
Proof.
  intros E F. apply Forall_app in F as (F1 & F2). assert (headed (s! "-C") some (cigar_texts some) = headed (s! "-C") other (cigar_texts other)) as K; [|unfold endorse_serder; now rewrite K].
  assert (cigar_texts some = cigar_texts other) as ->.
  { revert other E F2. induction F1 as [|(x & v) l V F IH]; intros [|(y & w) r] E F2; try discriminate E; [reflexivity|]. cbn [map fst] in E. injection E as -> E. inversion F2 as [|p q W F3]; subst.
    cbn [snd] in V, W. cbn [cigar_texts]. rewrite V, W, (IH r E F3). reflexivity. }
  unfold headed. replace (len other) with (len some); [reflexivity|]. rewrite <- (len_map fst some), E. now rewrite len_map.
Qed.
(*# C174_whose_signatures_refuted
   The full statement is false of unindexed signatures: the group that announces pairs of a key and a signature holds the signatures only, so the endorsement is the same whoever signed.
   Endorsements for any two lists with the same signatures, and with keys that are not transferable, are one and the same text; and there are such lists for which it is made.
##
Example C174_whose_case : exists t, endorse_serder None None None (Some [(Mt (s! "0B") 0 (repeat x07 64), Mt (s! "B") 0 (repeat x05 32))]) = Ok t /\ t = s! "-CAB" ++ drop 4 t /\ len t = 4 + 88.
Proof. eexists. split; [vm_compute; reflexivity|]. split; vm_compute; reflexivity. Qed.
#*)
Lemma C174_no_l : (forall (sigers wigers : option (list (indexer * matter))) (seal : option (value * bool)) (some other : list (matter * matter)),
    map fst some = map fst other -> Forall (fun p => transferable (snd p) = false) (some ++ other) ->
    endorse_serder sigers seal wigers (Some some) = endorse_serder sigers seal wigers (Some other)) /\
  exists x v w en, v <> w /\ endorse_serder None None None (Some [(x, v)]) = Ok en /\ endorse_serder None None None (Some [(x, w)]) = Ok en.
Proof.
  split; [exact same_whoever|]. exists (Mt (s! "0B") 0 (repeat x07 64)), (Mt (s! "B") 0 (repeat x05 32)), (Mt (s! "B") 0 (repeat x06 32)). eexists. split; [discriminate|].
  split; [vm_compute; reflexivity|]. vm_compute. reflexivity.
Qed.
(*# C174_endorsed_exactly
   Without a seal an endorsement is made exactly if at least one list is given, none is longer than 4095, every signature can be printed, and no key of a witness or of an unindexed
   signature is transferable.
##
Example C174_exactly_case : exists x v t, siger_new (Some (Mt (s! "D") 0 (repeat x05 32))) (Some 1) None (Some (s! "B")) (Some (repeat x09 64)) None None None = Ok (x, v) /\ transferable v = true /\
  endorse_serder (Some [(x, v)]) None None None = Ok t /\ endorse_serder None None (Some [(x, v)]) None = Err EEncoding.
Proof. eexists. eexists. eexists. split; [vm_compute; reflexivity|]. split; [vm_compute; reflexivity|]. split; [vm_compute; reflexivity|]. vm_compute. reflexivity. Qed.
#*)
Lemma C174_exactly_l (sigers wigers : option (list (indexer * matter))) (cigars : option (list (matter * matter))) :
  (forall l, sigers = Some l \/ wigers = Some l -> Forall made l /\ len l < 2 ^ 32) -> (forall l, cigars = Some l -> len l < 2 ^ 32) ->
  (exists en, endorse_serder sigers None wigers cigars = Ok en) <->
  (sigers <> None \/ wigers <> None \/ cigars <> None) /\
  (forall l, sigers = Some l \/ wigers = Some l -> len l <= 4095 /\ Forall printable l) /\
  (forall l, wigers = Some l -> Forall (fun p => transferable (snd p) = false) l) /\
  (forall l, cigars = Some l -> len l <= 4095 /\ Forall (fun p => transferable (snd p) = false /\ exists t, infil (fst p) = Ok t) l).
Proof.
  intros M LC. assert (forall l, (exists t, cigar_texts l = Ok t) <-> Forall (fun p => transferable (snd p) = false /\ exists t, infil (fst p) = Ok t) l) as CT.
  { clear. induction l as [|(x & v) l IH]; cbn [cigar_texts]; [split; [constructor|eauto]|]. split.
    - intros (t & H). destruct (transferable v) eqn:T; [discriminate|]. apply bind_ok in H as (a & A & H). apply bind_ok in H as (b & B & H). constructor; [cbn; eauto|]. apply IH. eauto.
    - intros F. inversion F as [|p q (F1 & a & A) F2]; subst. cbn [fst snd] in *. apply IH in F2 as (b & B). rewrite F1, A, bind_Ok, B, bind_Ok. eauto. }
  assert ((exists t, match sigers with None => Ok [] | Some l => let* h := Ok [] in let* g := headed (s! "-A") l (siger_texts l) in Ok (h ++ g) end = Ok t) <->
    (forall l, sigers = Some l -> len l <= 4095 /\ Forall printable l)) as A.
  { destruct sigers as [l|]; [|split; [discriminate|eauto]]. destruct (M l (or_introl eq_refl)) as (M1 & M2). change (headed (s! "-A") l (siger_texts l)) with (siger_group (s! "-A") l).
    destruct (group_ok (s! "-A") l ltac:(cbn; tauto) M1 M2) as (G & _). split.
    - intros (t & H) l' X. injection X as <-. rewrite bind_Ok in H. apply bind_ok in H as (g & H & _). destruct (proj1 G (ex_intro _ g H)) as (G1 & G2). split; [lia|auto].
    - intros X. destruct (X l eq_refl) as (X1 & X2). assert (len l < 4096) as X3 by lia. destruct (proj2 G (conj X3 X2)) as (g & H). rewrite bind_Ok, H, bind_Ok. eauto. }
  assert ((exists t, match wigers with None => Ok [] | Some l => headed (s! "-B") l (wiger_texts l) end = Ok t) <->
    (forall l, wigers = Some l -> len l <= 4095 /\ Forall printable l) /\ (forall l, wigers = Some l -> Forall (fun p => transferable (snd p) = false) l)) as B.
  { destruct wigers as [l|]; [|split; [intros _; split; discriminate|eauto]]. destruct (M l (or_intror eq_refl)) as (M1 & M2). destruct (group_ok (s! "-B") l ltac:(cbn; tauto) M1 M2) as (G & _). split.
    - intros (t & H). apply headed_wigers in H as (H1 & H). destruct (proj1 G (ex_intro _ t H)) as (G1 & G2). split; intros l' X; injection X as <-; auto. split; [lia|auto].
    - intros (X & Y). destruct (X l eq_refl) as (X1 & X2). assert (len l < 4096) as X3 by lia. destruct (proj2 G (conj X3 X2)) as (g & H). exists g. apply headed_wigers. auto. }
  assert ((exists t, match cigars with None => Ok [] | Some l => headed (s! "-C") l (cigar_texts l) end = Ok t) <->
    (forall l, cigars = Some l -> len l <= 4095 /\ Forall (fun p => transferable (snd p) = false /\ exists t, infil (fst p) = Ok t) l)) as C.
  { destruct cigars as [l|]; [|split; [discriminate|eauto]]. unfold headed. assert (as_u32 (len l) = len l) as -> by (unfold as_u32; apply N.mod_small; now apply LC).
    assert (counter_of_code_count (s! "-C") (len l) = if 4096 <=? len l then Err EInvalidVarIndex else Ok (Ct (s! "-C") (len l))) as -> by (erewrite cconstruct; [|reflexivity]; reflexivity).
    destruct (N.leb_spec 4096 (len l)) as [G|G].
    { split; [intros (t & X); discriminate|]. intros X. destruct (X l eq_refl) as (X1 & _). lia. }
    rewrite bind_Ok. assert (exists z, cwf (Ct (s! "-C") (len l)) z) as (z & W) by (eexists; split; [reflexivity|exact G]). rewrite (cinfil_wf _ _ W), bind_Ok. split.
    - intros (t & H) l' X. injection X as <-. apply bind_ok in H as (ts & H & _). split; [lia|]. apply CT. eauto.
    - intros X. destruct (X l eq_refl) as (_ & X2). apply CT in X2 as (ts & X2). rewrite X2, bind_Ok. eauto. }
  unfold endorse_serder. destruct (is_none sigers && is_none wigers && is_none cigars) eqn:E.
  { destruct sigers, wigers, cigars; try discriminate E. split; [intros (t & X); discriminate|]. intros ([X|[X|X]] & _); congruence. }
  assert (sigers <> None \/ wigers <> None \/ cigars <> None) as NE by (destruct sigers; [left; discriminate|]; destruct wigers; [right; left; discriminate|]; destruct cigars; [right; right; discriminate|discriminate E]).
  split.
  - intros (t & H). apply bind_ok in H as (a & HA & H). apply bind_ok in H as (b & HB & H). apply bind_ok in H as (c & HC & _). pose proof (proj1 A (ex_intro _ a HA)) as A'. destruct (proj1 B (ex_intro _ b HB)) as (B1 & B2). pose proof (proj1 C (ex_intro _ c HC)) as C'.
    split; auto. split; [|split; auto]. intros l [X|X]; auto.
  - intros (_ & X & Y & Z). destruct (proj2 A (fun l e => X l (or_introl e))) as (a & HA). destruct (proj2 B (conj (fun l e => X l (or_intror e)) Y)) as (b & HB). destruct (proj2 C Z) as (c & HC).
    rewrite HA, bind_Ok, HB, bind_Ok, HC, bind_Ok. eauto.
Qed.
(*# C174_pipelined_exactly
   The pipelined form is made exactly if the event is text and the endorsement has a whole number of groups of four characters, at most 4095; the counter it uses has two digits. So an
   event with 187 to 4095 signatures of 88 characters has an endorsement but no pipelined message, and the event-building functions of the sample, which always pipeline, fail on it.
##
Example C174_pipelined_case : exists p en, siger_new None (Some 3) None (Some (s! "A")) (Some (repeat x07 64)) None None None = Ok p /\ endorse_serder (Some (repeat p 187)) None None None = Ok en /\
  len en = 4 + 187 * 88 /\ len en mod 4 = 0 /\ 4095 < len en / 4.
Proof. eexists. eexists. split; [vm_compute; reflexivity|]. split; [vm_compute; reflexivity|]. split; vm_compute; auto. Qed.
#*)
Lemma C174_pipelined_l (s : sadder) (en : bytes) : len en < 2 ^ 34 ->
  ((exists t, messagize_serder s en (Some true) = Ok t) <-> utf8 (d_raw s) = true /\ len en mod 4 = 0 /\ len en / 4 <= 4095) /\
  ((exists t, messagize_serder s en (Some false) = Ok t) <-> utf8 (d_raw s) = true) /\
  forall p, messagize_serder s en p <> Panic.
Proof.
  intros L. unfold messagize_serder. rewrite from_utf8_eq. destruct (utf8 (d_raw s)).
  2:{ cbn [bind]. split; [split; [intros (t & X)|intros (X & _)]; discriminate|]. split; [split; [intros (t & X)|]; discriminate|]. intros p X. discriminate X. }
  rewrite !bind_Ok. cbn [or_else]. assert (forall r : R bytes, r <> Panic -> ((exists t, bind r (fun glue => Ok (d_raw s ++ glue ++ en)) = Ok t) <-> exists t, r = Ok t) /\ bind r (fun glue => Ok (d_raw s ++ glue ++ en)) <> Panic) as K.
  { intros [r|e|] N; cbn [bind]; [split; [split; eauto|discriminate]|split; [split; intros (t & X); discriminate|discriminate]|contradiction]. }
  set (q := if negb (len en mod 4 =? 0) then Err EValue else let* c := counter_of_code_count (s! "-V") (as_u32 (len en / 4)) in cinfil c).
  assert (q <> Panic /\ ((exists t, q = Ok t) <-> len en mod 4 = 0 /\ len en / 4 <= 4095)) as (QP & Q).
  { unfold q. rewrite (small_quadlets _ L), quadlets_count. destruct (N.eqb_spec (len en mod 4) 0) as [E|E]; cbn [negb]; [|split; [discriminate|]; split; [intros (t & X); discriminate|intros (X & _); contradiction]].
    destruct (N.leb_spec 4096 (len en / 4)) as [B|B]; cbn [bind]; [split; [discriminate|]; split; [intros (t & X); discriminate|lia]|]. destruct (quadlets_wf _ B) as (z & W & _). rewrite (cinfil_wf _ _ W).
    split; [discriminate|]. split; [intros _; split; [auto|lia]|eauto]. }
  destruct (K q QP) as (K1 & K2). split; [rewrite K1, Q; tauto|]. split; [split; [auto|intros _; rewrite bind_Ok; eauto]|].
  intros p. rewrite bind_Ok. destruct p as [[|]|]; [exact K2|discriminate..].
Qed.
