(** Exactly which events built from data are read back from their own bytes (C54). *)
From Coq Require Import String.
From Coq Require Import NArith ZArith Lia Bool List.
From Verif Require Import Base BaseFacts Tables Matter MatterFacts MatterText MatterMore MatterThms Prims PrimsFacts PrimsThms Json JsonFacts JsonThms Common CommonFacts CommonThms
  Saider SaiderFacts SaiderThms Diger Tholder Sadder SadderFacts SadderThms Spec SpecPrims SpecJson SpecCommon SpecSaider SpecSadder SpecAccept AcceptThms SpecCompact CompactThms.
Import ListNotations.
Open Scope N_scope.

(** ** Texts that differ in the case of hexadecimal digits only *)
Definition near (x y : byte) : Prop := x = y \/ (In x (s! "ABCDEF") /\ In y (s! "abcdef")).
Lemma recased_near a b : recased a b -> Forall2 near a b.
Proof.
  intros R. assert (forall p a b, Forall2 near a b -> Forall2 near (p ++ a) (p ++ b)) as P. { intros p x y F. induction p as [|c p IH]; auto. cbn [app]. constructor; auto. now left. }
  induction R as [|c a b R IH|d up low a b D U R IH]; [constructor|constructor; auto; now left|]. apply P, P. cbn in U. 
  repeat (destruct U as [U|U]; [injection U as <- <-; cbn [app]; constructor; auto; right; vm_compute; tauto|]). destruct U.
Qed.
Lemma near_split a b c d : len a = len c -> Forall2 near (a ++ b) (c ++ d) -> Forall2 near a c /\ Forall2 near b d.
Proof.
  revert c. induction a as [|x a IH]; intros c L F; destruct c as [|y c]; rewrite ?len_cons in L; cbn [app] in F.
  - split; [constructor|exact F].
  - change (len []) with 0 in L. lia.
  - change (len []) with 0 in L. lia.
  - inversion F; subst. destruct (IH c ltac:(lia) ltac:(auto)) as (A & B). split; auto.
Qed.
Lemma near_upper n a b : uppercase n b -> Forall2 near a b -> a = b.
Proof.
  intros (_ & U) F. induction F as [|x y a b N F IH]; auto. f_equal; [|apply IH; intros c I; apply U; now right]. destruct N as [N|(_ & Y)]; auto. exfalso. specialize (U y (or_introl eq_refl)).
  cbn in Y. repeat (destruct Y as [<-|Y]; [vm_compute in U; repeat (destruct U as [U|U]; [discriminate|]); destruct U|]). destruct Y.
Qed.
Lemma near_hex n a b : hex_digits n a -> Forall2 near a b -> a = b.
Proof.
  intros (_ & U) F. induction F as [|x y a b N F IH]; auto. f_equal; [|apply IH; intros c I; apply U; now right]. destruct N as [N|(X & _)]; auto. exfalso. specialize (U x (or_introl eq_refl)).
  cbn in X. repeat (destruct X as [<-|X]; [vm_compute in U; repeat (destruct U as [U|U]; [discriminate|]); destruct U|]). destruct X.
Qed.
Lemma near_version a b : version_like a -> version_like b -> Forall2 near a b -> a = b.
Proof.
  intros (p & v & k & h & -> & P & V & K & H) (p' & v' & k' & h' & -> & P' & V' & K' & H') F.
  pose proof P as (LP & _). pose proof V as (LV & _). pose proof K as (LK & _). pose proof H as (LH & _). pose proof P' as (LP' & _). pose proof V' as (LV' & _). pose proof K' as (LK' & _). pose proof H' as (LH' & _).
  apply near_split in F as (F1 & F); [|lia]. apply near_split in F as (F2 & F); [|lia]. apply near_split in F as (F3 & F); [|lia]. apply near_split in F as (F4 & _); [|lia].
  rewrite (near_upper _ _ _ P' F1), (near_hex _ _ _ V F2), (near_upper _ _ _ K' F3), (near_hex _ _ _ H F4). reflexivity.
Qed.
Lemma string_like vs proto a b n : version_string vs proto a b n -> version_like vs.
Proof. intros V. apply version_like_rever. eapply version_string_rever; eauto. Qed.
(** A version-like text has no quote, and an underscore at its end only. *)
Lemma like_char t : version_like t -> len t = 17 /\ forall p c r, t = p ++ c :: r -> c <> x22 /\ (c = x5f -> r = []).
Proof.
  intros (p & v & k & h & -> & (LP & P) & (LV & V) & (LK & K) & (LH & H)). split; [rewrite !len_app, LP, LV, LK, LH; reflexivity|].
  assert (forall c, In c (p ++ v ++ k ++ h) -> c <> x22 /\ c <> x5f) as N.
  { intros c I. assert (In c (s! "ABCDEFGHIJKLMNOPQRSTUVWXYZ") \/ In c hex_alphabet) as J. { rewrite !in_app_iff in I. destruct I as [I|[I|[I|I]]]; auto. }
    destruct J as [J|J]; vm_compute in J; split; intros ->; repeat (destruct J as [J|J]; [discriminate|]); destruct J. }
  intros q c r E. replace (p ++ v ++ k ++ h ++ s! "_") with ((p ++ v ++ k ++ h) ++ [x5f]) in E by (rewrite <- !app_assoc; reflexivity). destruct r as [|d r].
  - apply app_inj_tail in E as (_ & <-). split; [discriminate|auto].
  - destruct (@exists_last _ (d :: r) ltac:(discriminate)) as (r' & e & E2). rewrite E2 in E. replace (q ++ c :: r' ++ [e]) with ((q ++ c :: r') ++ [e]) in E by (rewrite <- app_assoc; reflexivity). apply app_inj_tail in E as (E & _).
    destruct (N c) as (N1 & N2); [rewrite E; apply in_or_app; right; now left|]. split; auto. intros X. congruence.
Qed.
(** Two version-like texts, one starting before the other: they do not overlap if a quote stands before the second. *)
Lemma apart fore old back A vs B : fore ++ old ++ back = A ++ [x22] ++ vs ++ B -> version_like old -> len vs = 17 -> len fore <= len A + 1 ->
  (fore = A ++ [x22] /\ back = B /\ old = vs) \/ exists X, A = fore ++ old ++ X /\ back = X ++ [x22] ++ vs ++ B.
Proof.
  intros E O LV L. destruct (like_char _ O) as (LO & Q). destruct (N.eq_dec (len fore) (len A + 1)) as [Z|Z].
  - left. change (A ++ [x22] ++ vs ++ B) with (A ++ ([x22] ++ vs ++ B)) in E. rewrite (app_assoc A) in E. apply app_eq_len in E as (-> & E); [|rewrite len_app; exact Z]. apply app_eq_len in E as (-> & ->); [auto|lia].
  - right. destruct (N.le_gt_cases (len fore + 17) (len A)) as [G|G].
    + exists (drop (len fore + 17) A). assert (A = take (len fore + 17) A ++ drop (len fore + 17) A) as EA by (symmetry; apply take_drop). rewrite EA in E at 1. rewrite <- app_assoc, (app_assoc fore) in E.
      apply app_eq_len in E as (E1 & E2); [|rewrite len_app, len_take; lia]. split; [|exact E2]. rewrite app_assoc, E1. exact EA.
    + exfalso. (* the quote lies in old *)
      assert (exists p r, old = p ++ x22 :: r) as (p & r & EO).
      { exists (drop (len fore) A), (drop (len A + 1 - len fore) old). assert (drop (len fore) (fore ++ old ++ back) = drop (len fore) (A ++ [x22] ++ vs ++ B)) as D by now rewrite E. rewrite drop_app_exact in D by auto. rewrite drop_app_le in D by lia.
        rewrite <- (take_drop (len A + 1 - len fore) old) in D at 1. rewrite <- app_assoc in D. change (drop (len fore) A ++ [x22] ++ vs ++ B) with (drop (len fore) A ++ ([x22] ++ vs ++ B)) in D. rewrite (app_assoc _ [x22]) in D.
        apply app_eq_len in D as (D & _); [|rewrite len_take, len_app, len_drop; change (len [x22]) with 1; lia]. rewrite <- (take_drop (len A + 1 - len fore) old) at 1. rewrite D, <- app_assoc. reflexivity. }
      apply Q in EO as (X & _). congruence.
Qed.
(** Writing a version string over the first version-like text leaves it the first, whatever follows. *)
Lemma still_first t fore old back vs c : first_version t fore old back -> version_like vs -> first_version (fore ++ vs ++ back ++ c) fore vs (back ++ c).
Proof.
  intros (E & O & F) V. split; auto. split; auto. intros q m r E2 M. destruct (N.le_gt_cases (len fore) (len q)) as [L|L]; auto. exfalso.
  destruct (like_char _ V) as (LV & QV). destruct (like_char _ M) as (LM & QM). destruct (like_char _ O) as (LO & _).
  destruct (N.le_gt_cases (len q + 17) (len fore)) as [G|G].
  - assert (q ++ m = take (len q + 17) fore) as T.
    { assert (take (len q + 17) (q ++ m ++ r) = take (len q + 17) (fore ++ vs ++ back ++ c)) as T by now rewrite E2. rewrite app_assoc, take_app_exact in T by (rewrite len_app; lia). rewrite take_app_le in T by lia. exact T. }
    assert (fore = q ++ m ++ drop (len q + 17) fore) as EF by (rewrite app_assoc, T; symmetry; apply take_drop). specialize (F q m (drop (len q + 17) fore ++ old ++ back)).
    assert (t = q ++ m ++ drop (len q + 17) fore ++ old ++ back) as ET by (rewrite E; rewrite EF at 1; rewrite <- !app_assoc; reflexivity). specialize (F ET M). lia.
  - (* the underscore that ends m lies in vs, before its end *)
    destruct M as (p & v & k & h & EM & _). assert (m = take 16 m ++ [x5f]) as EM'.
    { rewrite EM at 2. replace (p ++ v ++ k ++ h ++ s! "_") with ((p ++ v ++ k ++ h) ++ [x5f]) in * by (rewrite <- !app_assoc; reflexivity). assert (len (p ++ v ++ k ++ h) = 16) as L16 by (rewrite EM, len_app in LM; change (len [x5f]) with 1 in LM; lia).
      rewrite take_app_exact by auto. exact EM. }
    set (i := len q + 16 - len fore). assert (exists u, vs = take i vs ++ x5f :: u /\ u <> []) as (u & EU & NU).
    { exists (drop (i + 1) vs). split.
      - assert (drop (len q + 16) (q ++ m ++ r) = drop (len q + 16) (fore ++ vs ++ back ++ c)) as D by now rewrite E2. rewrite (drop_app_ge _ q), (drop_app_ge _ fore) in D by lia. replace (len q + 16 - len q) with 16 in D by lia. fold i in D.
        rewrite drop_app_le in D by lia. rewrite (drop_app_le _ vs) in D by (unfold i; lia). rewrite EM' in D at 1. rewrite drop_app_exact in D by (rewrite len_take; lia). cbn [app] in D.
        assert (drop i vs = x5f :: drop (i + 1) vs) as DV. { destruct (drop i vs) as [|x y] eqn:DI; [exfalso; assert (len (drop i vs) = 0) as Z by (now rewrite DI); rewrite len_drop in Z; unfold i in Z; lia|]. cbn [app] in D. injection D as <- _. f_equal. replace (i + 1) with (i + 1) by lia. rewrite <- drop_drop, DI. reflexivity. }
        rewrite <- DV. symmetry. apply take_drop.
      - intros Z. assert (len (drop (i + 1) vs) = 0) as Z2 by now rewrite Z. rewrite len_drop in Z2. unfold i in Z2. lia. }
    destruct (QV _ _ _ EU) as (_ & X). apply NU, X. reflexivity.
Qed.

Lemma data_ff v : data v -> float_free v.
Proof.
  induction v as [|b|z|t|s|l IH|m IH] using value_ind'; intros D; inversion D; subst; constructor; auto.
  - rewrite Forall_forall in *. auto.
  - rewrite Forall_forall in *. intros x I. apply in_map_iff in I as (kv & <- & I). apply IH; auto. match goal with H : forall x, In x (map snd m) -> data x |- _ => apply H end. now apply in_map.
Qed.
Lemma hex1_text a x : hex_digits 1 a -> hex_number a = hex_number [x] -> forallb lhex [x] = true -> a = [x].
Proof. intros (L & H)%hex_digits_forallb E X. apply hex_number_inj; auto. Qed.
Lemma fore_quote m1 k : exists A, fore m1 k = A ++ [x22].
Proof. exists (x7b :: lead m1 ++ json_string k ++ [x3a]). unfold fore. cbn [app]. rewrite <- !app_assoc. reflexivity. Qed.

(*# C54_round_trip_exactly
   Exactly which events survive: an event built from data without floats, nested at most 127 deep and shorter than 2^32 bytes, is read back from its own bytes,
   followed by any text, if and only if those bytes are the JSON of its data.
##
Example C54_exactly_case : exists s, serder_new (fun _ => None) None None None (Some (VObj [(s! "k", VStr (s! "KERI10JSON000064_")); (s! "v", VStr (s! "KERI10JSON000064_")); (s! "d", VStr (s! "EAAAAAAAAAAAAAAAAAAAAAAAAAAAAAAAAAAAAAAAAAAA"))])) None = Ok s /\
  d_raw s = to_json (d_ked s) /\ (exists s', serder_new (fun _ => None) None None None (Some (VObj [(s! "k", VStr (s! "KERI10JSON000000_")); (s! "v", VStr (s! "KERI10JSON000000_")); (s! "d", VStr (s! "EAAAAAAAAAAAAAAAAAAAAAAAAAAAAAAAAAAAAAAAAAAA"))])) None = Ok s' /\
    d_raw s' <> to_json (d_ked s')).
Proof. eexists. split; [vm_compute; reflexivity|]. split; [vm_compute; reflexivity|]. eexists. split; [vm_compute; reflexivity|]. vm_compute. discriminate. Qed.
#*)
Lemma C54_exactly_l (new : constructor) (only : option bytes) (canon : bytes -> option bytes) (code kind kind' : option bytes) (ked : value) (ked' : option value) (sad sad' : option sadder) (s : sadder) (c : bytes) :
  In (new, only) protocols -> data ked -> nests 127 ked -> new canon code None kind (Some ked) sad = Ok s -> len (d_raw s) < 2 ^ 32 -> utf8 c = true ->
  (new canon code (Some (d_raw s ++ c)) kind' ked' sad' = Ok s <-> d_raw s = to_json (d_ked s)).
Proof.
  intros I D NE H L C. destruct (C57_building_l new only canon code kind ked sad I) as (BB & _). apply BB in H as (z & d & Z & AG & (t & FD & ED & CD & ID) & ->). clear BB. cbn [d_raw d_ked] in *.
  apply C52_exactly_l in Z as (m1 & vs & m2 & proto & n & vs' & fo & old & ba & -> & NI & V & K & U & FV & L12 & V' & ->). cbn [z_raw z_ked z_ident] in *.
  destruct (version_string_plain _ _ _ _ _ V) as (PL & AS). destruct (version_string_plain _ _ _ _ _ V') as (PL' & AS').
  pose proof (string_like _ _ _ _ _ V) as VL. pose proof (string_like _ _ _ _ _ V') as VL'. destruct (like_char _ VL) as (LV & _). destruct (like_char _ VL') as (LV' & _). pose proof FV as (EJ & OL & FF). destruct (like_char _ OL) as (LO & _).
  set (ked0 := VObj (m1 ++ (s! "v", VStr vs) :: m2)) in *. set (ked1 := VObj (m1 ++ (s! "v", VStr vs') :: m2)) in *.
  assert (len (fo ++ vs' ++ ba) = len (to_json ked0)) as LR by (rewrite EJ, !len_app; lia). rewrite LR in L. rewrite LR. rewrite (N.mod_small (len (to_json ked0)) (2 ^ 32) L) in V' |- *.
  assert (len (to_json ked1) = len (to_json ked0)) as LJ by (unfold ked1, ked0; rewrite !to_json_str, !len_app by auto; lia).
  assert (data ked1) as D1. { unfold ked1. rewrite <- (insert_at (s! "v") (VStr vs) (VStr vs') m1 m2 NI). apply data_insert; auto. apply data_str. now apply utf8_ascii. }
  assert (nests 127 ked1) as N1. { unfold ked1. rewrite <- (insert_at (s! "v") (VStr vs) (VStr vs') m1 m2 NI). now apply nests_insert. }
  split.
  - intros R. apply (C57_reading_l new only) in R as (proto' & n' & v & d' & AN & AG' & LN & UT & VT & ND & E); auto. injection E as E1 E2 E3 E4 E5 E6. subst v proto' n' d'.
    rewrite <- E2 in VT. apply (C119_l canon) in VT as (_ & VT); [|now apply data_ff]. rewrite LJ, LR in VT. specialize (VT eq_refl). apply recased_near in VT.
    unfold ked1 in VT |- *. unfold ked0 in EJ. rewrite to_json_str in EJ, VT |- * by auto. destruct (fore_quote m1 (s! "v")) as (A & EA). rewrite EA in *. rewrite <- app_assoc in EJ.
    assert (len fo <= len A + 1) as LA. { specialize (FF (A ++ [x22]) vs (back m2)). rewrite len_app in FF. apply FF; auto. unfold ked0. rewrite to_json_str by auto. now rewrite EA. }
    destruct (apart fo old ba A vs (back m2)) as [(-> & -> & ->)|(X & -> & ->)]; auto.
    rewrite <- !app_assoc in VT. apply near_split in VT as (_ & VT); [|reflexivity]. apply near_split in VT as (F1 & VT); [|lia]. apply near_split in VT as (_ & VT); [|reflexivity]. apply near_split in VT as (_ & VT); [|reflexivity]. apply near_split in VT as (F2 & _); [|lia].
    apply near_version in F1, F2; auto. subst. rewrite <- !app_assoc. reflexivity.
  - intros R. apply (C57_reading_l new only); auto. exists proto, (len (to_json ked0)), ked1, d.
    assert (utf8 (fo ++ vs' ++ ba) = true) as UR by (rewrite R; apply utf8_to_json, data_wfv, D1).
    assert (take (len (to_json ked0)) ((fo ++ vs' ++ ba) ++ c) = fo ++ vs' ++ ba) as TR by (apply take_app_exact; exact LR). rewrite TR.
    assert (field_of ked1 (s! "d") (VStr t)) as F1. { apply field_assoc in FD. apply field_assoc. unfold ked0, ked1 in *. rewrite assoc_app in FD |- *. exact FD. }
    pose proof (C49_l canon _ D1 N1) as VT. rewrite <- R in VT.
    split; [|split; [exact AG|split; [rewrite len_app; lia|split; [exact UR|split; [exact VT|split; [exists t; auto|reflexivity]]]]]].
    split; [rewrite utf8_app by auto; auto|]. split. { pose proof (text_obj _ _ _ _ _ VT F1) as TO. assert (44 <= len t) by (eapply said_len; apply said_text; rewrite said_digest; eauto). rewrite len_app. lia. }
    destruct (still_first _ _ _ _ _ c FV VL') as (E1 & _ & F2). destruct V' as (PR & a & b & h & EV & HA & HB & HH & NA & NB & NH).
    exists fo, h, (ba ++ c). assert (vs' = proto ++ s! "10JSON" ++ h ++ s! "_") as EV'.
    { rewrite EV. f_equal. assert (a = s! "1") as -> by (apply hex1_text; auto). assert (b = s! "0") as -> by (apply hex1_text; auto). reflexivity. }
    rewrite <- EV'. split; [now rewrite <- !app_assoc|]. split; auto. split; [destruct PR as [-> | ->]; split; [reflexivity| |reflexivity|]; intros x J; vm_compute in J |- *; intuition|]. split; auto. split; auto.
    intros q m r E M. apply (F2 q m r); auto. rewrite <- E. now rewrite <- !app_assoc.
Qed.
