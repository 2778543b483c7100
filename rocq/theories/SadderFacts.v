(** Lemmas about events. *)
From Coq Require Import String.
From Coq Require Import NArith ZArith Lia Bool List Permutation.
From Verif Require Import Base BaseFacts Tables Matter MatterFacts MatterText MatterMore MatterThms Prims PrimsFacts Json JsonFacts JsonThms Common CommonFacts CommonThms
  Saider SaiderFacts Diger Sadder Spec SpecPrims SpecJson SpecCommon SpecSaider SpecSadder.
Import ListNotations.
Open Scope N_scope.

(** ** Strings are no longer than the text they are read from *)
Lemma unescape_short s u r : unescape s = Some (u, r) -> (length u + length r <= length s)%nat.
Proof.
  unfold unescape. destruct s as [|c s]; [discriminate|]. cbn [length]. destruct (simple_escape c); [intros H; inversion H; subst; cbn [length]; lia|].
  destruct (negb _); [discriminate|]. destruct (hex4 s) as [(n, r1)|] eqn:E; [|discriminate]. apply hex4_len in E.
  assert (forall n, length (utf8_of n) <= 4)%nat as U. { intros k. unfold utf8_of. repeat (destruct (_ <? _); [cbn; lia|]). cbn; lia. }
  destruct ((56320 <=? n) && (n <=? 57343)); [discriminate|]. destruct ((55296 <=? n) && (n <=? 56319)); [|intros H; inversion H; subst; specialize (U n); lia].
  destruct (eat x5c r1) as [q|] eqn:E1; [|discriminate]. apply eat_len in E1. destruct (eat x75 q) as [q2|] eqn:E2; [|discriminate]. apply eat_len in E2.
  destruct (hex4 q2) as [(n2, r3)|] eqn:E3; [|discriminate]. apply hex4_len in E3. destruct (_ && _); [|discriminate]. intros H; injection H as <- <-.
  match goal with |- context [utf8_of ?x] => specialize (U x) end. lia.
Qed.
Lemma pstr_short f s t r : pstr f s = Some (t, r) -> (length t + length r < length s)%nat.
Proof.
  revert s t r; induction f as [|f IH]; intros s t r H; [discriminate|]. cbn [pstr] in H. destruct s as [|c s]; [discriminate|].
  destruct (Byte.eqb c x22); [inversion H; subst; cbn; lia|]. destruct (Byte.eqb c x5c).
  - destruct (unescape s) as [(u, r1)|] eqn:E; [|discriminate]. apply unescape_short in E. destruct (pstr f r1) as [(t2, r2)|] eqn:E2; [|discriminate].
    apply IH in E2. inversion H; subst. rewrite app_length. cbn [length]. lia.
  - destruct (_ <? _); [discriminate|]. destruct (pstr f s) as [(t2, r2)|] eqn:E2; [|discriminate].
    apply IH in E2. inversion H; subst. cbn [length]. lia.
Qed.
Section Canon.
Variable canon : bytes -> option bytes.
Lemma pnum_kind neg s j r : pnum canon neg s = Ok (j, r) -> match j with JPos _ | JNeg _ | JFloat _ => True | _ => False end.
Proof.
  assert (forall x q, pfloat canon x q = Ok (j, r) -> match j with JPos _ | JNeg _ | JFloat _ => True | _ => False end) as Hp.
  { intros x q. unfold pfloat. destruct (canon x); [|discriminate]. intros [= <- _]. exact I. }
  unfold pnum. destruct (digits s) as (d, r0). cbv zeta. destruct (bad_lead d); [discriminate|].
  destruct (pfrac r0) as [(fr, r1)|]; [|discriminate]. destruct (pexp r1) as [(ex, r2)|]; [|discriminate].
  destruct fr as [|a fr]; [destruct ex as [|b ex]|]; [|intros H; exact (Hp _ _ H)|intros H; exact (Hp _ _ H)].
  destruct (u64_max <? _); [intros H; exact (Hp _ _ H)|].
  destruct neg; [|intros H; inversion H; subst; exact I].
  destruct (_ || _); [intros H; exact (Hp _ _ H)|]. intros H; inversion H; subst; exact I.
Qed.
Lemma pval_string f d s t r : pval canon f d s = Ok (JStr t, r) -> (length t <= length s)%nat.
Proof.
  destruct f as [|f]; [discriminate|].
  rewrite pval_step. pose proof (skip_ws_len canon s) as L. destruct (skip_ws s) as [|c q]; [discriminate|]. cbn [length] in L.
  assert (forall lit j, plit lit j q = Ok (JStr t, r) -> j = JStr t) as PL. { intros lit j. unfold plit. destruct (beq _ _); [|discriminate]. congruence. }
  destruct (Byte.eqb c x6e); [intros H; apply PL in H; discriminate|]. destruct (Byte.eqb c x74); [intros H; apply PL in H; discriminate|].
  destruct (Byte.eqb c x66); [intros H; apply PL in H; discriminate|].
  destruct (Byte.eqb c x2d); [intros H; apply pnum_kind in H; destruct H|]. destruct (is_digit c); [intros H; apply pnum_kind in H; destruct H|].
  destruct (Byte.eqb c x22).
  { intros H. apply bind_ok in H as ((u & q') & H1 & H). unfold pstring in H1. destruct (pstr _ q) as [(t', r')|] eqn:E; [|discriminate]. apply pstr_short in E.
    destruct (utf8 t'); [|discriminate]. injection H1 as -> ->. cbn [fst snd] in H. injection H as -> ->. lia. }
  destruct (Byte.eqb c x5b).
  { destruct d as [|[|d]]; try discriminate. destruct (eat x5d (skip_ws q)); [discriminate|]. intros H. apply bind_ok in H as (? & _ & H). discriminate. }
  destruct (Byte.eqb c x7b); [|discriminate].
  destruct d as [|[|d]]; try discriminate. destruct (eat x7d (skip_ws q)); [discriminate|]. intros H. apply bind_ok in H as (? & _ & H). discriminate.
Qed.
Lemma insert_in {A} k (v : A) l k' v' : In (k', v') (insert k v l) -> (k' = k /\ v' = v) \/ In (k', v') l.
Proof.
  induction l as [|(a, w) l IH]; cbn [insert]; [intros [H|[]]; inversion H; auto|]. destruct (beq a k) eqn:E.
  - intros [H|H]; [|right; now right]. apply beq_eq in E. inversion H; subst; auto.
  - intros [H|H]; [right; now left|]. apply IH in H as [H|H]; auto. right; now right.
Qed.
Lemma pobj_string f : forall d acc s l r k t, pobj canon f d acc s = Ok (l, r) -> In (k, JStr t) l -> In (k, JStr t) acc \/ (length t <= length s)%nat.
Proof.
  induction f as [|f IH]; intros d acc s l r k t H I; [discriminate|]. rewrite pobj_step in H. pose proof (skip_ws_len canon s) as L0.
  destruct (eat x22 (skip_ws s)) eqn:E; [|discriminate]. apply eat_len in E.
  apply bind_ok in H as ((k0 & q) & H1 & H). apply (pstring_len canon) in H1. cbn [fst snd] in H. pose proof (skip_ws_len canon q) as L.
  destruct (eat x3a (skip_ws q)) eqn:E1; [|discriminate]. apply eat_len in E1. apply bind_ok in H as ((j & q2) & H2 & H). pose proof (proj1 (consume canon f) _ _ _ _ H2) as C.
  cbn [fst snd] in H. pose proof (skip_ws_len canon q2) as L2.
  assert (forall l', In (k, JStr t) (insert k0 j l') -> In (k, JStr t) l' \/ (length t <= length s)%nat) as G.
  { intros l' Hin. apply insert_in in Hin as [(_ & <-)|Hin]; auto. right. apply pval_string in H2. lia. }
  destruct (eat x7d (skip_ws q2)) eqn:E2; [injection H as <- _; auto|].
  destruct (eat x2c (skip_ws q2)) eqn:E3; [|discriminate]. apply eat_len in E3. destruct (IH _ _ _ _ _ _ _ H I) as [Hin|]; [apply G in Hin; auto|right; lia].
Qed.
Lemma ogo_in l : forall acc m k v, ogo_obj l acc = Ok m -> In (k, v) m -> In (k, v) acc \/ exists j, In (k, j) l /\ of_json j = Ok v.
Proof.
  induction l as [|(k0, j) l IH]; intros acc m k v; cbn [ogo_obj]; fold ogo_obj.
  - intros [= ->]; auto.
  - intros H I. apply bind_ok in H as (v0 & V & H). destruct (IH _ _ _ _ H I) as [Hin|(j' & Hin & J)]; [|right; exists j'; split; [now right|auto]].
    apply insert_in in Hin as [(-> & ->)|Hin]; [|auto]. right. exists j. split; [now left|auto].
Qed.
Lemma of_json_str j t : of_json j = Ok (VStr t) -> j = JStr t.
Proof.
  destruct j as [|b|n|n|f|u|l|l]; try (intros [=]; subst; reflexivity).
  - cbn [of_json]. destruct (_ <=? _); discriminate.
  - cbn [of_json]. destruct (existsb _ _); discriminate.
  - intros H. rewrite of_json_arr in H. apply bind_ok in H as (? & _ & H). discriminate.
  - intros H. rewrite of_json_obj in H. apply bind_ok in H as (? & _ & H). discriminate.
Qed.
Lemma text_string s m k t : value_of_text canon s = Ok (VObj m) -> assoc k m = Some (VStr t) -> (length t <= length s)%nat.
Proof.
  unfold value_of_text. intros H A. apply bind_ok in H as (j & P & H). unfold pjson in P. apply bind_ok in P as ((j0 & r) & P & Q).
  cbn [fst snd] in Q. destruct (skip_ws r); [|discriminate]. injection Q as ->. apply assoc_In in A.
  destruct j as [| | | | | |l|l]; try (cbn [of_json] in H; try (destruct (_ <=? _)); try (destruct (existsb _ _)); discriminate).
  - rewrite of_json_arr in H. apply bind_ok in H as (? & _ & H). discriminate.
  - rewrite of_json_obj in H. apply bind_ok in H as (m' & O & H). injection H as ->. destruct (ogo_in _ _ _ _ _ O A) as [[]|(j & I & J)]. apply of_json_str in J. subst j.
    revert P. set (fu := (length s + length s + 2)%nat). destruct fu as [|f]; [discriminate|]. intros P.
    assert (forall X, X = pval canon (S f) 128 s -> X = Ok (JObj l, r) -> (length t <= length s)%nat) as G; [|apply (G _ eq_refl); exact P].
    intros X -> P'. revert P'. rewrite pval_step. pose proof (skip_ws_len canon s) as L. destruct (skip_ws s) as [|c q]; [discriminate|]. cbn [length] in L.
    assert (forall lit j, plit lit j q = Ok (JObj l, r) -> j = JObj l) as PL. { intros lit j. unfold plit. destruct (beq _ _); [|discriminate]. congruence. }
    destruct (Byte.eqb c x6e); [intros H; apply PL in H; discriminate|]. destruct (Byte.eqb c x74); [intros H; apply PL in H; discriminate|].
    destruct (Byte.eqb c x66); [intros H; apply PL in H; discriminate|].
    destruct (Byte.eqb c x2d); [intros H; apply pnum_kind in H; destruct H|]. destruct (is_digit c); [intros H; apply pnum_kind in H; destruct H|].
    destruct (Byte.eqb c x22); [intros H; apply bind_ok in H as (? & _ & H); discriminate|].
    destruct (Byte.eqb c x5b); [destruct (eat x5d (skip_ws q)); [discriminate|]; intros H; apply bind_ok in H as (? & _ & H); discriminate|].
    destruct (Byte.eqb c x7b); [|discriminate]. destruct (eat x7d (skip_ws q)) eqn:E.
    + intros H. injection H as <- _. destruct I.
    + intros H. apply bind_ok in H as ((l0 & q0) & H1 & H). cbn [fst snd] in H. injection H as -> _. destruct (pobj_string _ _ _ _ _ _ _ _ H1 I) as [[]|B].
      pose proof (skip_ws_len canon q). lia.
Qed.
End Canon.

(** ** Finding the version string in a prefix *)
Lemma rever_here_long s r : 17 <= len s -> rever_here (s ++ r) = rever_here s.
Proof.
  intros L. unfold rever_here. rewrite (match_classes_take _ (s ++ r)), (match_classes_take _ s). f_equal. change (length rever) with 17%nat.
  rewrite firstn_app. unfold len in L. replace (17 - length s)%nat with 0%nat by lia. cbn [firstn]. apply app_nil_r.
Qed.
Lemma find_rever_len s i : find_rever s = Some i -> i + 17 <= len s.
Proof. intros H. destruct (find_rever_some _ _ H) as (p & m & t & -> & <- & L & _). rewrite !len_app. lia. Qed.
Lemma find_rever_app a r i : find_rever a = Some i -> find_rever (a ++ r) = Some i.
Proof.
  revert i; induction a as [|c a IH]; intros i H.
  - vm_compute in H. discriminate.
  - pose proof (find_rever_len _ _ H) as L. assert (17 <= len (c :: a)) as L' by lia. pose proof (rever_here_long (c :: a) r L') as E. cbn [app] in *.
    cbn [find_rever] in *. rewrite E. destruct (rever_here (c :: a)); auto. destruct (find_rever a) as [j|]; [|discriminate]. now rewrite (IH _ eq_refl).
Qed.
Lemma find_rever_back a r i : find_rever (a ++ r) = Some i -> i + 17 <= len a -> find_rever a = Some i.
Proof.
  revert i; induction a as [|c a IH]; intros i H L.
  - rewrite len_nil in L. lia.
  - assert (17 <= len (c :: a)) as L' by lia. pose proof (rever_here_long (c :: a) r L') as E. cbn [app] in *.
    cbn [find_rever] in *. rewrite E in H. destruct (rever_here (c :: a)); auto. destruct (find_rever (a ++ r)) as [j|]; [|discriminate].
    rewrite (IH j eq_refl); auto. injection H as <-. rewrite len_cons in L. lia.
Qed.

Definition vinfo_of (m : bytes) : vinfo := Vi (g_ident m) (g_kind m) (Ver (hex_number (g_major m)) (hex_number (g_minor m))) (hex_number (g_size m)).
Lemma rever_ascii m : len m = 17 -> rever_here m = true -> ascii m = true.
Proof.
  intros L H. destruct (rever_parts m L H) as (E & U1 & X1 & X2 & U2 & X3 & _). rewrite E, !ascii_app.
  destruct (upper_plain _ U1) as (_ & ->). destruct (lhex_plain _ X1) as (_ & ->). destruct (lhex_plain _ X2) as (_ & ->).
  destruct (upper_plain _ U2) as (_ & ->). destruct (lhex_plain _ X3) as (_ & ->). reflexivity.
Qed.
Lemma slice_mid p c m t : b2n c <= 127 -> ascii m = true -> utf8 (p ++ (c :: m) ++ t) = true -> slice_str (p ++ (c :: m) ++ t) (len p) (len p + len (c :: m)) = Ok (c :: m).
Proof.
  intros C A U. apply slice_str_ok. assert (utf8 (p ++ c :: m ++ t) = true) as U' by exact U. rewrite (utf8_mid c (m ++ t) C _ p (le_n _)) in U'.
  apply andb_prop in U' as (Up & Ut). rewrite utf8_ascii_app in Ut by auto.
  assert (forall i, i <= len (c :: m) -> boundary (p ++ (c :: m) ++ t) (len p + i) = true) as B.
  { intros i I. unfold boundary. destruct (len p + i =? 0) eqn:E0; [reflexivity|]. destruct (len p + i =? len (p ++ (c :: m) ++ t)) eqn:E1; [reflexivity|]. cbn [orb].
    rewrite !len_app in E1. rewrite nth_error_app2 by (unfold len; lia). replace (N.to_nat (len p + i) - length p)%nat with (N.to_nat i) by (unfold len; lia).
    assert (i < len (c :: m) \/ i = len (c :: m)) as [I'|I'] by lia.
    - rewrite nth_error_app1 by (unfold len in I'; lia). destruct (nth_error (c :: m) (N.to_nat i)) eqn:E2.
      + rewrite (nth_error_ascii (c :: m) _ _ ltac:(cbn [ascii forallb]; unfold is_ascii at 1; apply andb_true_intro; split; [apply N.leb_le; exact C|exact A]) E2). reflexivity.
      + apply nth_error_None in E2. unfold len in I'. lia.
    - subst i. rewrite nth_error_app2 by (unfold len; lia). replace (N.to_nat (len (c :: m)) - length (c :: m))%nat with 0%nat by (unfold len; lia).
      destruct t as [|b t]; [rewrite len_nil in E1; lia|]. cbn [nth_error]. now rewrite (utf8_head_not_cont _ _ Ut). }
  pose proof (B 0 ltac:(lia)) as B0. rewrite N.add_0_r in B0. pose proof (B (len (c :: m)) ltac:(lia)) as B1.
  rewrite !len_app. repeat split; auto; try lia. rewrite drop_app_exact by reflexivity. rewrite take_app_exact; auto. lia.
Qed.
Lemma sniff_at p m t : len m = 17 -> rever_here m = true -> find_rever (p ++ m ++ t) = Some (len p) -> 29 <= len (p ++ m ++ t) -> utf8 (p ++ m ++ t) = true ->
  sniff (p ++ m ++ t) = if 12 <? len p then Err EValue else if negb (has_code serials (g_kind m)) then Err EValidation else Ok (vinfo_of m).
Proof.
  intros L H F LL U. unfold sniff. replace (len (p ++ m ++ t) <? 29) with false by (symmetry; apply N.ltb_ge; auto). unfold from_utf8. rewrite U, bind_Ok, F.
  destruct (12 <? len p); [reflexivity|]. pose proof (rever_ascii m L H) as A.
  assert (slice_str (p ++ m ++ t) (len p) (len p + 17) = Ok m) as ->.
  { destruct m as [|c m]; [discriminate L|]. rewrite <- L. cbn [ascii forallb] in A. apply andb_prop in A as (A & A'). apply slice_mid; auto. now apply N.leb_le. }
  rewrite bind_Ok. rewrite !replace_whole by auto. destruct (rever_parts m L H) as (E & U1 & X1 & X2 & U2 & X3 & L1 & L2 & L3 & L4 & L5).
  rewrite !uint_hex by (eauto using ne_len; eapply ne_len; eauto; lia).
  pose proof (hex1_le _ L2 X1). pose proof (hex1_le _ L3 X2). pose proof (hex6_le _ L5 X3). change (2 ^ 24) with 16777216 in *.
  replace (hex_number (g_major m) <=? 255) with true by (symmetry; apply N.leb_le; lia).
  replace (hex_number (g_minor m) <=? 255) with true by (symmetry; apply N.leb_le; lia).
  replace (hex_number (g_size m) <=? u32_max) with true by (symmetry; apply N.leb_le; unfold u32_max; lia).
  rewrite !bind_Ok. reflexivity.
Qed.
Lemma sniff_ok raw i : sniff raw = Ok i -> exists p m t, raw = p ++ m ++ t /\ len m = 17 /\ rever_here m = true /\ find_rever raw = Some (len p) /\ 29 <= len raw /\
  utf8 raw = true /\ len p <= 12 /\ has_code serials (g_kind m) = true /\ i = vinfo_of m.
Proof.
  intros H. pose proof H as H'. unfold sniff in H'. destruct (len raw <? 29) eqn:L; [discriminate|]. apply N.ltb_ge in L. unfold from_utf8 in H'.
  destruct (utf8 raw) eqn:U; [|discriminate]. rewrite bind_Ok in H'. destruct (find_rever raw) as [st|] eqn:F; [|discriminate]. clear H'.
  destruct (find_rever_some _ _ F) as (p & m & t & E & LP & LM & M). subst st raw. rewrite sniff_at in H by auto.
  destruct (12 <? len p) eqn:LP; [discriminate|]. apply N.ltb_ge in LP. destruct (has_code serials (g_kind m)) eqn:K; [|discriminate]. cbn [negb] in H.
  exists p, m, t. repeat split; auto. congruence.
Qed.
Lemma sniff_np raw : sniff raw <> Panic.
Proof.
  unfold sniff. destruct (len raw <? 29) eqn:L; [discriminate|]. apply N.ltb_ge in L. unfold from_utf8.
  destruct (utf8 raw) eqn:U; [|discriminate]. rewrite bind_Ok. destruct (find_rever raw) as [st|] eqn:F; [|discriminate].
  destruct (find_rever_some _ _ F) as (p & m & t & E & LP & LM & M). subst st raw. pose proof (sniff_at p m t LM M F L U) as S. unfold sniff in S.
  replace (len (p ++ m ++ t) <? 29) with false in S by (symmetry; apply N.ltb_ge; auto). unfold from_utf8 in S. rewrite U, bind_Ok, F in S. rewrite S.
  destruct (12 <? len p); [discriminate|]. destruct (negb _); discriminate.
Qed.
Lemma sniff_app a r i : sniff a = Ok i -> utf8 r = true -> sniff (a ++ r) = Ok i.
Proof.
  intros H Ur. destruct (sniff_ok _ _ H) as (p & m & t & -> & L & M & F & LL & U & P & K & ->). rewrite <- !app_assoc.
  pose proof (find_rever_app _ r _ F) as F'. rewrite <- !app_assoc in F'. rewrite sniff_at; auto.
  - apply N.ltb_ge in P. rewrite P, K. reflexivity.
  - rewrite !len_app in *. lia.
  - replace (p ++ m ++ t ++ r) with ((p ++ m ++ t) ++ r) by now rewrite <- !app_assoc. rewrite utf8_app; auto.
Qed.
Lemma sniff_back a r i : sniff (a ++ r) = Ok i -> utf8 a = true -> 29 <= len a -> sniff a = Ok i.
Proof.
  intros H Ua La. destruct (sniff_ok _ _ H) as (p & m & t & E & L & M & F & LL & U & P & K & ->).
  assert (find_rever a = Some (len p)) as F' by (eapply find_rever_back; eauto; lia).
  destruct (find_rever_some _ _ F') as (p' & m' & t' & E' & LP' & LM' & M'). subst a.
  assert (p' = p /\ m' = m) as (-> & ->).
  { rewrite <- !app_assoc in E. apply app_eq_len in E as (-> & E); [|lia]. apply app_eq_len in E as (-> & _); [auto|lia]. }
  rewrite sniff_at; auto. apply N.ltb_ge in P. rewrite P, K. reflexivity.
Qed.
Lemma find_rever_le q m r : rever_here m = true -> exists i, find_rever (q ++ m ++ r) = Some i /\ i <= len q.
Proof.
  intros M. induction q as [|c q IH].
  - exists 0. split; [exact (find_rever_start m r M)|lia].
  - destruct IH as (i & F & L). cbn [app find_rever]. destruct (rever_here (c :: q ++ m ++ r)); [exists 0; split; [auto|lia]|]. rewrite F. exists (i + 1). split; auto. rewrite len_cons. lia.
Qed.
Lemma serials_json k : has_code serials k = true -> k = s! "JSON".
Proof. rewrite has_code_in. intros [E|[]]. auto. Qed.
Lemma hex1_digit a d : len a = 1 -> forallb lhex a = true -> hex_number a = hex_number [d] -> lhex d = true -> a = [d].
Proof. intros L F E D. apply hex_number_inj; auto. cbn [forallb]. now rewrite D. Qed.
Lemma version_eqb_eq v : version_eqb v current_version = true <-> v = Ver 1 0.
Proof.
  unfold version_eqb. destruct v as [a b]. cbn. split.
  - intros H. apply andb_prop in H as (H1 & H2). apply N.eqb_eq in H1, H2. congruence.
  - intros [= -> ->]. reflexivity.
Qed.
Lemma announces_sniff raw proto n : announces raw proto n <-> sniff raw = Ok (Vi proto (s! "JSON") (Ver 1 0) n).
Proof.
  split.
  - intros (U & L & p & h & t & E & P & UP & HX & HN & FST). set (m := proto ++ s! "10JSON" ++ h ++ s! "_") in *.
    assert (version_like m) as V. { exists proto, (s! "10"), (s! "JSON"), h. split; [reflexivity|]. split; auto. split. { split; [reflexivity|]. intros c [<-|[<-|[]]]; vm_compute; auto. }
      split; auto. split; [reflexivity|]. intros c [<-|[<-|[<-|[<-|[]]]]]; vm_compute; tauto. }
    apply version_like_rever in V as (LM & M). destruct (find_rever_le p m t M) as (i & F & I). rewrite <- E in F.
    destruct (find_rever_some _ _ F) as (p' & m' & t' & E' & LP & LM' & M'). pose proof (FST _ _ _ E' (proj2 (version_like_rever _) (conj LM' M'))) as I'.
    assert (i = len p) as -> by lia. clear p' m' t' E' LP LM' M' I' I. subst raw. rewrite sniff_at by auto. replace (12 <? len p) with false by (symmetry; apply N.ltb_ge; auto).
    apply uppercase_forallb in UP as (L4 & UP). apply hex_digits_forallb in HX as (L6 & HX).
    assert (g_ident m = proto /\ g_major m = s! "1" /\ g_minor m = s! "0" /\ g_kind m = s! "JSON" /\ g_size m = h) as (G1 & G2 & G3 & G4 & G5).
    { unfold g_ident, g_major, g_minor, g_kind, g_size, m. split; [now apply take_app_exact|].
      rewrite (drop_app_ge 4), (drop_app_ge 5), (drop_app_ge 6), (drop_app_ge 10) by lia. rewrite L4. change (4 - 4) with 0. change (5 - 4) with 1. change (6 - 4) with 2. change (10 - 4) with 6.
      repeat split; try reflexivity. change (drop 6 (s! "10JSON" ++ h ++ s! "_")) with (h ++ s! "_"). now apply take_app_exact. }
    unfold vinfo_of. rewrite G1, G2, G3, G4, G5, HN. reflexivity.
  - intros H. destruct (sniff_ok _ _ H) as (p & m & t & E & LM & M & F & L & U & P & K & I). unfold vinfo_of in I. injection I as I1 I2 I3 I4 I5.
    destruct (rever_parts m LM M) as (E' & U1 & X1 & X2 & U2 & X3 & L1 & L2 & L3 & L4 & L5).
    assert (g_major m = s! "1") as Z1 by (apply hex1_digit; auto). assert (g_minor m = s! "0") as Z2 by (apply hex1_digit; auto).
    split; auto. split; auto. exists p, (g_size m), t. rewrite <- I1 in U1, L1. split. { rewrite E at 1. rewrite E' at 1. rewrite <- I1, <- I2, Z1, Z2. reflexivity. }
    split; auto. split; [apply uppercase_forallb; split; auto|]. split; [apply hex_digits_forallb; auto|]. split; auto.
    intros q m' r E2 V. apply version_like_rever in V as (_ & V). destruct (find_rever_le q m' r V) as (i & F' & I). rewrite <- E2, F in F'. injection F' as <-. exact I.
Qed.

(** ** Fields *)
Lemma field_assoc m k x : field_of (VObj m) k x <-> assoc k m = Some x.
Proof.
  split.
  - intros (m1 & m2 & [= ->] & N). now apply assoc_at.
  - intros H. destruct (assoc_split _ _ _ H) as (m1 & m2 & -> & N). exists m1, m2. auto.
Qed.
Lemma field_obj v k x : field_of v k x -> exists m, v = VObj m /\ assoc k m = Some x.
Proof. intros (m1 & m2 & -> & N). eexists. split; [reflexivity|]. now apply assoc_at. Qed.
Lemma index_field v k x : index_str v k = Ok x <-> field_of v k x.
Proof.
  split.
  - destruct v as [| | | | | |m]; try discriminate. cbn [index_str]. destruct (assoc k m) eqn:A; [|discriminate]. intros [= ->]. now apply field_assoc.
  - intros H. apply field_obj in H as (m & -> & A). cbn [index_str]. now rewrite A.
Qed.
Lemma index_lacks v k : index_str v k = Panic <-> lacks v k.
Proof.
  split.
  - intros H x F. apply index_field in F. congruence.
  - intros H. destruct (index_str v k) eqn:E; auto. { apply index_field in E. destruct (H _ E). }
    destruct v as [| | | | | |m]; try discriminate. cbn [index_str] in E. destruct (assoc k m); discriminate.
Qed.
Lemma field_unique v k x y : field_of v k x -> field_of v k y -> x = y.
Proof. intros A B. apply index_field in A, B. congruence. Qed.

(** ** Reading *)
Lemma said_text q m : said_of_qb64 q = Ok m <-> exfil q = Ok m /\ In (m_code m) said_codes.
Proof.
  unfold said_of_qb64, said_new. change (matter_new None None None (Some q) None) with (exfil q). split.
  - intros H. apply bind_ok in H as (m' & E & H). unfold validate in H. destruct (has_code said_codes (m_code m')) eqn:C; [|discriminate]. rewrite bind_Ok in H. injection H as ->.
    split; auto. now apply has_code_in.
  - intros (-> & C). apply has_code_in in C. rewrite bind_Ok. unfold validate. now rewrite C, bind_Ok.
Qed.
Lemma said_panic q : said_of_qb64 q = Panic <-> exfil q = Panic.
Proof.
  unfold said_of_qb64, said_new. change (matter_new None None None (Some q) None) with (exfil q). destruct (exfil q) as [m| |]; [|split; discriminate|split; auto].
  rewrite bind_Ok. unfold validate. destruct (has_code _ _); split; discriminate.
Qed.
Lemma said_len q m : said_of_qb64 q = Ok m -> 44 <= len q.
Proof.
  intros H. apply said_text in H as (E & C). destruct (exfil_inv _ _ E) as (z & rest & L & S & -> & LM). rewrite len_app, LM.
  assert (44 <= mfs m z); [|lia]. unfold mfs. cbn [said_codes] in C.
  destruct C as [C|[C|[C|[C|[C|[C|[C|[C|[C|[]]]]]]]]]]; rewrite <- C in L; vm_compute in L; injection L as <-; vm_compute; discriminate.
Qed.
Lemma raw_ok canon code raw s : populate_from_raw canon code raw = Ok s -> exists proto n t sa, announces raw proto n /\ n <= len raw /\ utf8 (take n raw) = true /\
  value_of_text canon (take n raw) = Ok (d_ked s) /\ field_of (d_ked s) (s! "d") (VStr t) /\ said_of_qb64 t = Ok sa /\ m_code sa = code /\
  s = Sd code (take n raw) (d_ked s) proto (s! "JSON") n (Ver 1 0) sa.
Proof.
  unfold populate_from_raw, inhale. intros H. apply bind_ok in H as ((ked & i) & I & H). apply bind_ok in I as (i' & S & I).
  destruct (version_eqb (vi_version i') current_version) eqn:V; [|discriminate]. cbn [negb] in I. apply version_eqb_eq in V. apply bind_ok in I as (k & L & I). injection I as -> ->.
  destruct (sniff_ok _ _ S) as (p & m & t & _ & _ & _ & _ & _ & _ & _ & K & E). apply serials_json in K. destruct i as [proto kind ver n]. cbn [vi_version vi_kind vi_size vi_ident] in *. subst ver.
  assert (kind = s! "JSON") as ->. { unfold vinfo_of in E. injection E as _ -> _ _ _. exact K. } clear p m t E K.
  apply announces_sniff in S. unfold loads in L. cbn [or_else] in L. rewrite beq_refl in L. apply bind_ok in L as (own & SL & L). apply slice_bytes_ok in SL as (_ & N & ->).
  rewrite N.sub_0_r, drop_0 in *. apply bind_ok in L as (u & U & L). unfold from_utf8 in U. destruct (utf8 (take n raw)) eqn:U8; [|discriminate]. injection U as <-.
  apply bind_ok in H as (own & SL & H). apply slice_bytes_ok in SL as (_ & _ & ->). rewrite N.sub_0_r, drop_0 in *. apply bind_ok in H as (d & D & H). apply index_field in D.
  apply bind_ok in H as (q & Q & H). destruct d; try discriminate. injection Q as ->. apply bind_ok in H as (sa & SA & H). destruct (beq code (m_code sa)) eqn:C; [|discriminate].
  cbn [negb] in H. apply beq_eq in C. injection H as <-. cbn [d_ked]. exists proto, n, q, sa. auto 10.
Qed.
Lemma raw_intro canon code raw ked proto n t sa : announces raw proto n -> n <= len raw -> utf8 (take n raw) = true ->
  value_of_text canon (take n raw) = Ok ked -> field_of ked (s! "d") (VStr t) -> said_of_qb64 t = Ok sa -> m_code sa = code ->
  populate_from_raw canon code raw = Ok (Sd code (take n raw) ked proto (s! "JSON") n (Ver 1 0) sa).
Proof.
  intros A N U V F SA C. apply announces_sniff in A. unfold populate_from_raw, inhale. rewrite A, bind_Ok. cbn [vi_version]. change (version_eqb (Ver 1 0) current_version) with true. cbn [negb].
  unfold loads. cbn [vi_kind vi_size or_else]. rewrite beq_refl. rewrite !slice_bytes_in by lia. rewrite !bind_Ok, N.sub_0_r, drop_0. unfold from_utf8. rewrite U, bind_Ok, V, !bind_Ok.
  cbn [vi_size vi_ident vi_kind vi_version]; rewrite slice_bytes_in by lia. rewrite bind_Ok. apply index_field in F. rewrite F, bind_Ok. cbn [to_string]. rewrite bind_Ok, SA, bind_Ok. rewrite C, beq_refl. cbn [negb].
  rewrite N.sub_0_r, drop_0. reflexivity.
Qed.
Lemma text_obj canon s v k x : value_of_text canon s = Ok v -> field_of v k (VStr x) -> len x <= len s.
Proof. intros V F. apply field_obj in F as (m & -> & A). unfold len. pose proof (text_string canon s m k x V A). lia. Qed.
(** The bytes after the announced size, if text, do not matter. *)
Lemma announces_own raw proto n c : announces raw proto n -> n <= len raw -> 29 <= n -> utf8 (take n raw) = true -> utf8 c = true -> announces (take n raw ++ c) proto n.
Proof.
  intros A L N U C. apply announces_sniff in A. apply announces_sniff. apply sniff_app; auto. rewrite <- (take_drop n raw) in A. apply sniff_back in A; auto. rewrite len_take. lia.
Qed.
Lemma raw_size canon code raw s : populate_from_raw canon code raw = Ok s -> 44 <= d_size s /\ d_size s <= len raw /\ d_raw s = take (d_size s) raw.
Proof.
  intros H. destruct (raw_ok _ _ _ _ H) as (proto & n & t & sa & A & N & U & V & F & SA & C & ->). cbn [d_size d_raw d_ked] in *.
  pose proof (said_len _ _ SA). pose proof (text_obj _ _ _ _ _ V F) as T. rewrite len_take in T. repeat split; auto. lia.
Qed.
