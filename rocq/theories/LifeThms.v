(** Proof of the theorem on the life of an identifier. *)
From Coq Require Import String.
From Coq Require Import NArith ZArith QArith Bool List Lia.
From Verif Require Import Base Tables Matter Indexer Prims Json Tholder Common Saider Diger Sadder Signer Prefixer Pather Short Verify Ingest Events.
From Verif Require Import Spec SpecPrims SpecJson SpecCommon SpecTholder SpecSaider SpecSadder SpecPrefixer SpecSigner SpecFlow SpecLog SpecIngest SpecBuild SpecLife World.
From Verif Require Import BaseFacts MatterFacts MatterText PrimsFacts PrimsThms JsonFacts CommonFacts SadderFacts SaiderFacts SadderThms SaiderThms FieldThms PrefixerThms SignerThms FlowThms ShortThms TholderFacts TholderThms VerifyFacts VerifyThms LogThms IngestThms RoundThms FollowFacts FollowThms.
Import ListNotations.
Open Scope N_scope.

Lemma last_of_snoc keep l x : last_of keep (l ++ [x]) = if keep x then Ok x else last_of keep l.
Proof.
  induction l as [|a l IH]; cbn [app last_of].
  - destruct (keep x); reflexivity.
  - rewrite IH. destruct (keep x); reflexivity.
Qed.
Lemma announced canon hash cr e nk nd nsith iv xt nt : announces_next canon hash cr nk (Some nd) nsith ->
  tholder_with_sith canon (or_else nsith (half 0 nd)) = Ok xt -> t_size xt <= len nd -> threshold_value iv xt = Ok nt ->
  field_of (d_ked e) (s! "n") (texts_value nd) -> field_of (d_ked e) (s! "nt") nt -> forall k, nk = Some k -> names_next canon hash cr e k.
Proof.
  intros A T S V FN FT k ->. destruct A as (nd' & [= <-] & NE & BD & D & CV). exists nd, nt. split; auto. split; auto. split; auto.
  assert (t_thold xt <> VInt 0 /\ (t_weighted xt = true -> SpecTholder.keys (t_thold xt) = len nd)) as (NZ & W).
  { destruct nsith as [v'|]; cbn [or_else] in T; [apply (CV v' xt); auto|]. unfold half, tholder_with_sith in T. rewrite sith_new in T. unfold process_sith in T. cbn [to_i64] in T.
    unfold process_unweighted in T. destruct (_ <? _)%Z; [discriminate|]. destruct (_ <? _)%Z; [discriminate|]. apply bind_ok in T as (x & _ & T). injection T as <-. cbn [t_thold t_weighted]. split; [|discriminate].
    intros E. injection E as E. assert (1 <= len nd) by (destruct nd; [congruence|]; rewrite len_cons; lia). assert (1 <= (len nd + 1) / 2) by (apply N.div_le_lower_bound; lia). lia. }
  assert (SpecTholder.keys (t_thold xt) < 2 ^ 27) as K.
  { pose proof (T : tholder_new canon None None (Some _) = Ok xt) as AC. apply accepted in AC as [(j & [_ (x & _ & ->)])|(cs & TT)]; [reflexivity|]. rewrite W; auto. apply (wt_weighted _ _ TT). }
  exists xt. split; [exact (reread _ _ _ _ _ T K V)|]. auto.
Qed.

Lemma read_facts canon e : serder_with_raw canon (d_raw e) = Ok e -> utf8 (d_raw e) = true /\ exists n, sniff (d_raw e) = Ok (Vi (s! "KERI") (s! "JSON") (Ver 1 0) n).
Proof.
  unfold serder_with_raw, serder_new. rewrite new_raw. intros H. destruct (populate_from_raw _ _ _) as [x| |] eqn:P; try discriminate. rewrite bind_Ok in H. destruct (negb _) eqn:N; [discriminate|]. injection H as ->.
  destruct (raw_ok _ _ _ _ P) as (proto & n & t & sa & A & L & U & V & F & SA & CO & E).
  assert (d_raw e = take n (d_raw e) /\ d_ident e = proto) as (E1 & E2) by (split; rewrite E at 1; reflexivity). rewrite E2 in N. apply negb_false_iff, beq_eq in N. subst proto.
  split; [now rewrite E1|]. exists n. now apply announces_sniff.
Qed.
Lemma take_in canon hash cr mo gt sc age seen fuel deep verify l e sigs pre said ilk text :
  serder_with_raw canon (d_raw e) = Ok e -> sad_said e = Ok said -> serder_pre e = Ok pre -> text_at (d_ked e) (s! "t") = Ok ilk -> In ilk [s! "icp"; s! "rot"; s! "ixn"] -> verify <> Some false ->
  gt (GQuadlets [GSigs sigs]) = Ok text -> verify_key_event canon hash cr mo fuel (view canon l) e [GSigs sigs] deep [said] = Ok (false, [said]) ->
  ingest_loop canon hash cr mo gt sc age seen fuel deep verify l [] [MPayload (d_raw e); MGroup (GQuadlets [GSigs sigs])] = (insert_key_event l pre (d_raw e ++ text), Ok tt).
Proof.
  intros R S P T I NV G V. destruct (read_facts _ _ R) as (U & n & SN). cbn [ingest_loop]. unfold ingest_one. rewrite SN, bind_Ok. cbn [vi_ident]. change (beq (s! "KERI") (s! "KERI")) with true. cbv iota zeta.
  rewrite R, bind_Ok, S, bind_Ok, bind_Ok, T, bind_Ok. apply has_code_In in I. rewrite I. unfold there. assert (or_else verify true = true) as -> by (destruct verify as [[|]|]; auto; congruence). cbn [has_code existsb negb andb].
  rewrite V, bind_Ok. cbn [fst negb snd]. unfold from_utf8. rewrite U, bind_Ok, P, bind_Ok, G, bind_Ok. reflexivity.
Qed.

(** The state of a ledger that follows the life of an identifier. *)
Record follows (canon : bytes -> option bytes) (hash : bytes -> bytes -> bytes) (cr : crypto) (l : ledger) (pre : bytes) (n : N) (dig : bytes) (k : keyset) (nk : option keyset) : Prop := {
  f_prefix : exists p, prefixer_with_qb64 hash pre = Ok p;
  f_first : 1 <= n;
  f_count : len (l_kel l pre) = n;
  f_offset : k_offset k = 0;
  f_last : exists pe ilk ee keys, logged canon (view canon l) pre (n - 1) pe dig /\ of_type (d_ked pe) ilk /\ established canon (view canon l) pre (n - 1) ee /\ (In ilk establishing -> ee = pe) /\
    ks_verfers_qb64 cr k = Ok keys /\ sets_keys canon ee keys /\ forall k', nk = Some k' -> names_next canon hash cr ee k' }.
Lemma at_last (l : list bytes) x n : n = len l -> at_sn (l ++ [x]) n = Ok x.
Proof. intros ->. unfold at_sn, len. rewrite Nat2N.id, nth_error_app2, Nat.sub_diag by lia. reflexivity. Qed.
Lemma type_of v t : text_at v (s! "t") = Ok t -> of_type v t.
Proof. intros H. now apply type_text. Qed.
Lemma follows_set canon hash cr l pre n e text k nk keys ilk said : (exists p, prefixer_with_qb64 hash pre = Ok p) -> len (l_kel l pre) = n -> k_offset k = 0 -> textual (fun _ => Ok text) ->
  serder_with_raw canon (d_raw e) = Ok e -> sad_said e = Ok said -> text_at (d_ked e) (s! "t") = Ok ilk -> In ilk establishing -> ks_verfers_qb64 cr k = Ok keys -> sets_keys canon e keys ->
  (forall k', nk = Some k' -> names_next canon hash cr e k') -> follows canon hash cr (insert_key_event l pre (d_raw e ++ text)) pre (n + 1) said k nk.
Proof.
  intros PX LN O TX R S T I KS SK NN. assert (serder_with_raw canon (d_raw e ++ text) = Ok e) as RD by (apply (read_on canon (d_raw e)); auto; apply (TX GOther); auto).
  assert (l_kel (insert_key_event l pre (d_raw e ++ text)) pre = l_kel l pre ++ [d_raw e ++ text]) as LK by (cbn; unfold added; now rewrite beq_refl).
  split; auto; [lia|rewrite LK, len_app, LN; reflexivity|]. exists e, ilk, e, keys. replace (n + 1 - 1) with n by lia. split; [|split; [now apply type_of|split; [|split; auto]]].
  - exists (d_raw e ++ text). cbn [view get_key_event]. rewrite LK. split; auto. now apply at_last.
  - exists (d_raw e ++ text). split; auto. cbn [view get_latest_establishment_event_as_of_sn]. rewrite LK. rewrite firstn_all2 by (rewrite app_length; cbn; unfold len in LN; lia). rewrite last_of_snoc.
    unfold establishes. rewrite RD. assert (serder_est e = Ok true) as ->; [|reflexivity]. apply est_field. exists ilk. split; [now apply type_of|]. tauto.
Qed.
Lemma follows_kept canon hash cr l pre n dig e text k nk ilk said : follows canon hash cr l pre n dig k nk -> textual (fun _ => Ok text) ->
  serder_with_raw canon (d_raw e) = Ok e -> sad_said e = Ok said -> text_at (d_ked e) (s! "t") = Ok ilk -> ~ In ilk establishing ->
  follows canon hash cr (insert_key_event l pre (d_raw e ++ text)) pre (n + 1) said k nk.
Proof.
  intros [PX F LN O (pe & il & ee & keys & LG & TY & (tx & GL & ES) & _ & KS & SK & NN)] TX R S T I. assert (serder_with_raw canon (d_raw e ++ text) = Ok e) as RD by (apply (read_on canon (d_raw e)); auto; apply (TX GOther); auto).
  assert (l_kel (insert_key_event l pre (d_raw e ++ text)) pre = l_kel l pre ++ [d_raw e ++ text]) as LK by (cbn; unfold added; now rewrite beq_refl).
  split; auto; [lia|rewrite LK, len_app, LN; reflexivity|]. exists e, ilk, ee, keys. replace (n + 1 - 1) with n by lia. split; [|split; [now apply type_of|split; [|split; [contradiction|auto]]]].
  - exists (d_raw e ++ text). cbn [view get_key_event]. rewrite LK. split; auto. now apply at_last.
  - exists tx. split; auto. cbn [view get_latest_establishment_event_as_of_sn] in *. rewrite LK. rewrite firstn_all2 by (rewrite app_length; cbn; unfold len in LN; lia). rewrite last_of_snoc.
    unfold establishes at 1. rewrite RD. assert (serder_est e = Ok false) as ->.
    { destruct (proj2 (est_field e false)); auto. exists ilk. split; [now apply type_of|]. split; [discriminate|contradiction]. }
    rewrite firstn_all2 in GL by (unfold len in LN; lia). exact GL.
Qed.

(** Deciding, for the example, that a value is plain data. *)
Fixpoint data_check (v : value) : bool :=
  match v with
  | VNull | VBool _ => true
  | VInt z => (- 2 ^ 63 <=? z)%Z && (z <? 2 ^ 63)%Z
  | VFloat _ => false
  | VStr s => utf8 s
  | VArr l => forallb data_check l
  | VObj m => all_different (map fst m) && forallb (fun p => utf8 (fst p) && data_check (snd p)) m
  end.
Fixpoint nests_check (n : nat) (v : value) : bool :=
  match v with
  | VArr l => match n with O => false | S n => forallb (nests_check n) l end
  | VObj m => match n with O => false | S n => forallb (fun p => nests_check n (snd p)) m end
  | _ => true
  end.
Lemma data_checked : forall v, data_check v = true -> data v.
Proof.
  fix IH 1. intros [| | | | |l|m]; cbn [data_check]; intros H; [constructor|constructor|constructor|discriminate H|constructor; exact H|constructor|constructor].
  - apply andb_prop in H as (A & B). lia.
  - induction l as [|x l IL]; constructor; cbn [forallb] in H; apply andb_prop in H as (A & B); auto.
  - apply andb_prop in H as (A & _). now apply different.
  - apply andb_prop in H as (_ & H). rewrite forallb_forall in H. apply Forall_forall. intros k I. apply in_map_iff in I as ((k' & x) & <- & I). apply H in I. now apply andb_prop in I.
  - apply andb_prop in H as (_ & H). induction m as [|(k & x) m IM]; constructor; cbn [forallb fst snd] in H; apply andb_prop in H as (A & B); auto. apply IH. now apply andb_prop in A.
Qed.
Lemma nests_checked : forall v n, nests_check n v = true -> nests n v.
Proof.
  fix IH 1. intros [| | | | |l|m] n H; cbn [nests_check] in H; try constructor; destruct n as [|n]; try discriminate; constructor.
  - induction l as [|x l IL]; constructor; cbn [forallb] in H; apply andb_prop in H as (A & B); auto.
  - induction m as [|(k & x) m IM]; constructor; cbn [forallb fst snd] in H; apply andb_prop in H as (A & B); auto.
Qed.
Definition assembled canon e : Prop := exists vs m, serder_with_ked canon (VObj ((s! "v", VStr vs) :: m)) None None = Ok e.
Lemma back canon e : assembled canon e -> data (d_ked e) -> nests 127 (d_ked e) -> len (d_raw e) < 2 ^ 32 -> serder_with_raw canon (d_raw e) = Ok e.
Proof.
  intros (vs & m & H) D NE L. destruct (resized _ _ _ _ H) as (proto & n & t & V & K & _). cbv zeta in K. rewrite K in D, NE.
  assert (data (VStr vs)) as DV by (constructor; destruct (version_string_plain _ _ _ _ _ V) as (_ & A); now apply utf8_ascii).
  destruct (C54_l serder_new canon None None None [] m vs [] None None None e) as (G & _); auto.
  - cbn. auto.
  - intros a b c E VL. destruct (like_char _ VL) as (LV & _). apply (f_equal len) in E. rewrite !len_app, LV in E. change (len (to_json (VObj []))) with 2 in E. lia.
  - cbn [app]. inversion D as [| | | | |m' ND U FD]; subst. cbn [map fst snd] in *. inversion FD; subst. constructor; cbn [map fst snd]; auto.
  - cbn [app]. inversion NE as [| | | | | |n' m' FN]; subst. cbn [map snd] in *. inversion FN; subst. repeat constructor; auto.
  - rewrite app_nil_r in G. exact G.
Qed.
Lemma saidified canon hash vs m r e : sized_hash hash -> saidify hash (VObj ((s! "v", VStr vs) :: m)) None None None [] = Ok r -> serder_with_ked canon (snd r) None None = Ok e -> assembled canon e.
Proof. intros SH S H. destruct (made_said _ _ _ _ _ _ SH S H) as (vs' & o & _ & E & _). rewrite E in H. exists vs', o. exact H. Qed.
Lemma incept_made canon hash keys sith ndigs nsith toad wits cnfg data ver kind intive e : 
  incept canon hash keys sith ndigs nsith toad wits cnfg data ver kind (Some (s! "E")) intive None = Ok e -> assembled canon e.
Proof.
  intros H. unfold incept in H. cbv zeta in H. bok H vs V. bok H snr SN. bok H th TH. bok H nu NU. destruct (N.ltb_spec (or_else nu 1) 1); [discriminate|].
  destruct (N.ltb_spec (len keys) (t_size th)); [discriminate|]. bok H xt XT. destruct (N.ltb_spec (len (or_else ndigs [])) (t_size xt)); [discriminate|].
  destruct (negb (all_different _)) in H; [discriminate|]. bok H toader TO. bok H kt KT. bok H nt NT. bok H bt BT. bok H snh SNH. rewrite bind_Ok in H.
  bok H p P. apply bind_ok in P as (p' & PK & P). cbn [is_none negb andb] in P. injection P as ->. unfold prefixer_with_ked in PK. bok H t T. bok H ked1 K1. injection K1 as <-. 
  assert (m_code p = s! "E") as CP. { destruct (C62_asked_l _ _ _ _ _ PK) as (A & _). now apply A. }
  assert (digestive p = true) as DG by (unfold digestive; rewrite CP; vm_compute; reflexivity). rewrite DG in H. bok H ked2 K2. injection K2 as <-. cbn [insert] in H. eexists _, _. exact H.
Qed.
Lemma rotate_made canon hash pre keys dig ilk sn sith ndigs nsith toad wits cuts adds data ver kind intive e : sized_hash hash ->
  rotate canon hash pre keys dig ilk sn sith ndigs nsith toad wits cuts adds data ver kind intive = Ok e -> assembled canon e.
Proof.
  intros SH H. unfold rotate in H. cbv zeta in H. bok H vs V. destruct (has_code _ (or_else ilk _)) eqn:IL; [|discriminate]. cbn [negb] in H. bok H snr SN. bok H n NN. destruct (N.ltb_spec n 1); [discriminate|].
  bok H th TH. bok H nu NU. destruct (N.ltb_spec (or_else nu 1) 1); [discriminate|]. destruct (N.ltb_spec (len keys) (t_size th)); [discriminate|].
  bok H xt NTH. bok H xu NNU. destruct (N.ltb_spec (or_else xu 1) 1); [discriminate|]. destruct (N.ltb_spec (len (or_else ndigs [])) (t_size xt)); [discriminate|].
  destruct (_ || _) in H; [discriminate|]. destruct (_ || _) in H; [discriminate|]. bok H newits NW. bok H toader TO. bok H kt KT. bok H nt NT. bok H bt BT. bok H snh SNH. bok H r SS.
  exact (saidified _ _ _ _ _ _ SH SS H).
Qed.
Lemma interact_made canon hash pre dig sn data ver kind e : sized_hash hash -> interact canon hash pre dig sn data ver kind = Ok e -> assembled canon e.
Proof.
  intros SH H. unfold interact in H. cbv zeta in H. bok H vs V. bok H snr SN. bok H n NN. destruct (N.ltb_spec n 1); [discriminate|]. bok H snh SH'. bok H r SS. exact (saidified _ _ _ _ _ _ SH SS H).
Qed.
Lemma life_made canon hash cr pre n dig k nk evs : sized_hash hash -> life canon hash cr pre n dig k nk evs -> forall e s, In (e, s) evs -> assembled canon e.
Proof.
  intros SH LF. induction LF; intros e' s' I.
  - destruct I as [[= <- _]|[]]. eapply incept_made; eauto.
  - apply in_app_or in I as [I|[[= <- _]|[]]]; eauto. eapply rotate_made; eauto.
  - apply in_app_or in I as [I|[[= <- _]|[]]]; eauto. eapply interact_made; eauto.
Qed.

Lemma C141_follows (canon : bytes -> option bytes) (hash : bytes -> bytes -> bytes) (cr : crypto) (messages_of : bytes -> R (list message)) (group_text : group -> R bytes)
    (schema_check : bytes -> bytes -> R bool) (age : bytes -> R Z) (seen_said : ledger -> bytes -> bool) (fuel : nat) (deep verify : option bool) (l : ledger)
    (pre : bytes) (n : N) (dig : bytes) (k : keyset) (nk : option keyset) (evs : list (sadder * list indexer)) :
  correct cr -> sized_hash hash -> textual group_text -> life canon hash cr pre n dig k nk evs -> n <= 2 ^ 32 ->
  (forall e sigs, In (e, sigs) evs -> serder_with_raw canon (d_raw e) = Ok e /\ exists t, group_text (GQuadlets [GSigs sigs]) = Ok t) ->
  l_kel l pre = [] -> deep <> Some true -> verify <> Some false ->
  exists l', fed canon hash cr messages_of group_text schema_check age seen_said (S fuel) deep verify l evs l' /\ follows canon hash cr l' pre n dig k nk /\
    Forall2 (fun ev text => exists t, group_text (GQuadlets [GSigs (snd ev)]) = Ok t /\ text = d_raw (fst ev) ++ t) evs (l_kel l' pre) /\
    (forall other, other <> pre -> l_kel l' other = l_kel l other) /\ l_tel l' = l_tel l /\ l_acdc l' = l_acdc l.
Proof.
  intros CR SH TX LF.
  assert (forall l1 pre e text other, other <> pre -> l_kel (insert_key_event l1 pre (d_raw e ++ text)) other = l_kel l1 other) as OT.
  { intros l1 pre0 e text other NE. cbn. unfold added. destruct (beq other pre0) eqn:B; auto. apply beq_eq in B. contradiction. }
  assert (forall l1 pre e text, l_kel (insert_key_event l1 pre (d_raw e ++ text)) pre = l_kel l1 pre ++ [d_raw e ++ text]) as SM by (intros; cbn; unfold added; now rewrite beq_refl).
  assert (forall g t, group_text g = Ok t -> textual (fun _ => Ok t)) as TT by (intros g t G g' t' [= <-]; exact (TX _ _ G)).
  induction LF as [k nk keys sith ndigs nsith toad wits cnfg data ver kind intive rng e sigs pre O KS CV AN H SG PR|pre n dig k0 k nk evs keys ilk sith ndigs nsith toad wits cuts adds data ver kind intive rng e sigs said LF IH O KS CV AN H NI SG SD|pre n dig k nk evs data ver kind rng e sigs said LF IH H SG SD]; intros B RD E0 D V.
  - destruct (RD e (map fst sigs)) as (R & t & G); [now left|].
    destruct (C138_l canon hash cr messages_of k keys sith ndigs nsith toad wits cnfg data ver kind intive rng e sigs CR SH O KS CV H SG) as (pre' & FI & SD & SK & VE).
    assert (serder_pre e = Ok pre') as PR' by now apply pre_field. rewrite PR in PR'. injection PR' as <-.
    destruct (incept_shape _ _ _ _ _ _ _ _ _ _ _ _ _ _ SH H) as (vs & pre' & p & th & nu & xt & toader & kt & nt & bt & _ & _ & _ & _ & XT & XS & _ & _ & NT & _ & K & _ & XP & _ & SD' & _).
    rewrite SD in SD'. injection SD' as <-.
    assert (text_at (d_ked e) (s! "t") = Ok (s! "icp")) as TI by (unfold text_at; rewrite K; reflexivity).
    exists (insert_key_event l pre (d_raw e ++ t)). split; [|split; [|split; [|split; [auto|split; reflexivity]]]].
    + apply (fed_more _ _ _ _ _ _ _ _ _ _ _ l [] l e (map fst sigs)); [constructor|]. apply (take_in canon hash cr messages_of group_text schema_check age seen_said (S fuel) deep verify l e (map fst sigs) pre pre (s! "icp") t); auto; [now left|].
      apply VE. cbn. now rewrite E0.
    + apply (follows_set canon hash cr l pre 0 e t k nk keys (s! "icp") pre); auto; [exists p; unfold prefixer_with_qb64, prefixer_new; exact XP|now rewrite E0|exact (TT _ _ G)|now left|].
      intros k' ->. destruct ndigs as [nd|]; [|destruct AN as (? & AN & _); discriminate]. cbn [or_else] in *. eapply announced; eauto; fld K.
    + rewrite SM, E0. cbn [app]. constructor; [|constructor]. eauto.
  - destruct IH as (l1 & F & FO & T & OO & TL & AL); auto; [lia|intros; apply RD; apply in_or_app; auto|]. destruct (RD e (map fst sigs)) as (R & t & G); [apply in_or_app; right; now left|].
    pose proof FO as [(p & PX) F1 CT _ (pe & il & ee & keys0 & LG & TY & ES & SM' & _ & _ & NN)].
    assert (n < 2 ^ 32) as BN by lia. assert (asked_for n = n) as AF by (apply N.mod_small; exact BN).
    assert (announcing canon (view canon l1) pre n ee) as AC.
    { exists pe, dig, il. rewrite AF. split; auto. split; auto. destruct (has_code establishing il) eqn:HC; [apply has_code_In in HC; left; split; auto; symmetry; auto|right; split; auto]. intros I. apply has_code_In in I. congruence. }
    destruct (C140_l canon hash cr messages_of k keys pre dig ilk n sith ndigs nsith toad wits cuts adds data ver kind intive rng e sigs p (view canon l1) pe ee fuel deep [said] CR SH O KS CV H NI SG PX BN) as (SK & VE); auto; [cbn; now rewrite CT|].
    destruct (rotate_shape _ _ _ _ _ _ _ _ _ _ _ _ _ _ _ _ _ _ _ SH H) as (vs & snr & snh & t' & th & nu & xt & xu & toader & newits & kt & nt & bt & _ & _ & _ & _ & _ & _ & _ & XT & _ & _ & XS & _ & _ & _ & NT & _ & IL & K & _).
    assert (or_else ilk (s! "rot") = s! "rot") as IR. { destruct ilk as [i|]; [|reflexivity]. cbn [or_else] in *. destruct IL as [<-|[<-|[]]]; congruence. } rewrite IR in K.
    assert (text_at (d_ked e) (s! "t") = Ok (s! "rot")) as TI by (unfold text_at; rewrite K; reflexivity).
    assert (serder_pre e = Ok pre) as PR by (unfold serder_pre; rewrite K; reflexivity).
    exists (insert_key_event l1 pre (d_raw e ++ t)). split; [|split; [|split; [|split; [|split; [exact TL|exact AL]]]]].
    + apply (fed_more _ _ _ _ _ _ _ _ _ _ _ l evs l1 e (map fst sigs)); auto. apply (take_in canon hash cr messages_of group_text schema_check age seen_said (S fuel) deep verify l1 e (map fst sigs) pre said (s! "rot") t); auto. right. now left.
    + apply (follows_set canon hash cr l1 pre n e t k nk keys (s! "rot") said); auto; [eauto|exact (TT _ _ G)|right; now left|].
      intros k' ->. destruct ndigs as [nd|]; [|destruct AN as (? & AN & _); discriminate]. cbn [or_else] in *. eapply announced; eauto; fld K.
    + rewrite SM. apply Forall2_app; auto. constructor; [|constructor]. eauto.
    + intros other NE. rewrite OT; auto.
  - destruct IH as (l1 & F & FO & T & OO & TL & AL); auto; [lia|intros; apply RD; apply in_or_app; auto|]. destruct (RD e (map fst sigs)) as (R & t & G); [apply in_or_app; right; now left|].
    pose proof FO as [(p & PX) F1 CT O (pe & il & ee & keys0 & LG & TY & ES & SM' & KS & SK & _)].
    assert (n < 2 ^ 32) as BN by lia.
    pose proof (C139_l canon hash cr messages_of k keys0 pre dig n data ver kind rng e sigs p (view canon l1) pe ee fuel deep [said] CR SH O KS H SG PX BN ltac:(cbn; now rewrite CT) LG ES SK D) as VE.
    destruct (interact_shape _ _ _ _ _ _ _ _ _ SH H) as (vs & snr & snh & t' & _ & _ & _ & K & _).
    assert (text_at (d_ked e) (s! "t") = Ok (s! "ixn")) as TI by (unfold text_at; rewrite K; reflexivity).
    assert (serder_pre e = Ok pre) as PR by (unfold serder_pre; rewrite K; reflexivity).
    exists (insert_key_event l1 pre (d_raw e ++ t)). split; [|split; [|split; [|split; [|split; [exact TL|exact AL]]]]].
    + apply (fed_more _ _ _ _ _ _ _ _ _ _ _ l evs l1 e (map fst sigs)); auto. apply (take_in canon hash cr messages_of group_text schema_check age seen_said (S fuel) deep verify l1 e (map fst sigs) pre said (s! "ixn") t); auto. right. right. now left.
    + apply (follows_kept canon hash cr l1 pre n dig e t k nk (s! "ixn") said); auto; [exact (TT _ _ G)|]. cbn. intuition discriminate.
    + rewrite SM. apply Forall2_app; auto. constructor; [|constructor]. eauto.
    + intros other NE. rewrite OT; auto.
Qed.

Lemma C141_main (canon : bytes -> option bytes) (hash : bytes -> bytes -> bytes) (cr : crypto) (messages_of : bytes -> R (list message)) (group_text : group -> R bytes)
    (schema_check : bytes -> bytes -> R bool) (age : bytes -> R Z) (seen_said : ledger -> bytes -> bool) (fuel : nat) (deep verify : option bool) (l : ledger)
    (pre : bytes) (n : N) (dig : bytes) (k : keyset) (nk : option keyset) (evs : list (sadder * list indexer)) :
  correct cr -> sized_hash hash -> textual group_text -> life canon hash cr pre n dig k nk evs -> n <= 2 ^ 32 ->
  (forall e sigs, In (e, sigs) evs -> serder_with_raw canon (d_raw e) = Ok e /\ exists t, group_text (GQuadlets [GSigs sigs]) = Ok t) ->
  l_kel l pre = [] -> deep <> Some true -> verify <> Some false ->
  exists l', fed canon hash cr messages_of group_text schema_check age seen_said (S fuel) deep verify l evs l' /\
    Forall2 (fun ev text => exists t, group_text (GQuadlets [GSigs (snd ev)]) = Ok t /\ text = d_raw (fst ev) ++ t) evs (l_kel l' pre) /\ len (l_kel l' pre) = n /\
    forall other, other <> pre -> l_kel l' other = l_kel l other.
Proof. intros CR SH TX LF B RD E D V. destruct (C141_follows canon hash cr messages_of group_text schema_check age seen_said fuel deep verify l pre n dig k nk evs CR SH TX LF B RD E D V) as (l' & F & [_ _ C _ _] & T & O & _). exists l'. auto. Qed.

(*# C141_life_accepted
   The whole life of an identifier: its controller incepts it (self-addressing, not delegated), then rotates and interacts in any order and as often as they like, each time with
   the number of the next event and the identifier of the last, signing with the whole current key set, each key set announced by its digests before it is used, thresholds
   being absent or nonzero with a weight for each key. Then any ledger without events of that identifier takes in every message, one after the other, without an error, and
   in the end holds for that identifier exactly these events with their signatures, and for others what it held before. The events are to have no floats, to nest at most 127
   deep and to be shorter than 2^32 bytes, and the numbers to stay below 2^32.
##
Example C141_case : correct toy /\ sized_hash mix /\ textual sigs_text /\ life no_floats mix toy pre0 3 (got [] (sad_said event2)) keys1 (Some keys2) [(event0, sigs0); (event1, sigs1); (event2, sigs2)] /\
  (forall e sigs, In (e, sigs) [(event0, sigs0); (event1, sigs1); (event2, sigs2)] -> data (d_ked e) /\ nests 127 (d_ked e) /\ len (d_raw e) < 2 ^ 32 /\ exists t, sigs_text (GQuadlets [GSigs sigs]) = Ok t).
Proof.
  split; [exact toy_correct|]. split; [exact mix_sized|]. split; [exact sigs_textual|]. split.
  - assert (life no_floats mix toy pre0 1 pre0 keys0 (Some keys1) [(event0, map fst (got [] (ks_sign mix toy (fun _ => []) keys0 (d_raw event0) None)))]) as L0.
    { eapply (life_begun no_floats mix toy keys0 (Some keys1) (got [] (ks_verfers_qb64 toy keys0)) (Some (VStr (s! "2"))) (Some (got [] (ks_digers_qb64 mix toy keys1))) (Some (VStr (s! "2"))) None None None None None None None (fun _ => []) event0).
      - reflexivity.
      - vm_compute. reflexivity.
      - intros x t [= <-] T. vm_compute in T. injection T as <-. split; discriminate.
      - eexists. split; [reflexivity|]. split; [vm_compute; discriminate|]. split; [vm_compute; reflexivity|]. split; [vm_compute; reflexivity|]. intros x t [= <-] T. vm_compute in T. injection T as <-. split; discriminate.
      - vm_compute. reflexivity.
      - vm_compute. reflexivity.
      - vm_compute. reflexivity. }
    assert (life no_floats mix toy pre0 2 (got [] (sad_said event1)) keys1 (Some keys2) [(event0, sigs0); (event1, sigs1)]) as L1.
    { refine (life_rotated no_floats mix toy pre0 1 pre0 keys0 keys1 (Some keys2) [(event0, sigs0)] (got [] (ks_verfers_qb64 toy keys1)) None None (Some (got [] (ks_digers_qb64 mix toy keys2))) None None None None None None None None None (fun _ => []) event1 (got [] (ks_sign mix toy (fun _ => []) keys1 (d_raw event1) None)) (got [] (sad_said event1)) _ _ _ _ _ _ _ _ _).
      - exact L0.
      - reflexivity.
      - vm_compute. reflexivity.
      - intros x t [=].
      - eexists. split; [reflexivity|]. split; [vm_compute; discriminate|]. split; [vm_compute; reflexivity|]. split; [vm_compute; reflexivity|]. intros x t [=].
      - vm_compute. reflexivity.
      - discriminate.
      - vm_compute. reflexivity.
      - vm_compute. reflexivity. }
    refine (life_used no_floats mix toy pre0 2 (got [] (sad_said event1)) keys1 (Some keys2) [(event0, sigs0); (event1, sigs1)] None None None (fun _ => []) event2 (got [] (ks_sign mix toy (fun _ => []) keys1 (d_raw event2) None)) (got [] (sad_said event2)) _ _ _ _).
    + exact L1.
    + vm_compute. reflexivity.
    + vm_compute. reflexivity.
    + vm_compute. reflexivity.
  - intros e sigs I. assert (data_check (d_ked e) = true /\ nests_check 127 (d_ked e) = true /\ len (d_raw e) <? 2 ^ 32 = true /\ is_ok (sigs_text (GQuadlets [GSigs sigs])) = true) as (A & B & C & D).
    { destruct I as [[= <- <-]|[[= <- <-]|[[= <- <-]|[]]]]; (split; [vm_compute; reflexivity|split; [vm_compute; reflexivity|split; vm_compute; reflexivity]]). }
    split; [now apply data_checked|]. split; [now apply nests_checked|]. split; [now apply N.ltb_lt|]. destruct (sigs_text _) as [t| |]; try discriminate. eauto.
Qed.
#*)
Lemma C141_l (canon : bytes -> option bytes) (hash : bytes -> bytes -> bytes) (cr : crypto) (messages_of : bytes -> R (list message)) (group_text : group -> R bytes)
    (schema_check : bytes -> bytes -> R bool) (age : bytes -> R Z) (seen_said : ledger -> bytes -> bool) (fuel : nat) (deep verify : option bool) (l : ledger)
    (pre : bytes) (n : N) (dig : bytes) (k : keyset) (nk : option keyset) (evs : list (sadder * list indexer)) :
  correct cr -> sized_hash hash -> textual group_text -> life canon hash cr pre n dig k nk evs -> n <= 2 ^ 32 ->
  (forall e sigs, In (e, sigs) evs -> data (d_ked e) /\ nests 127 (d_ked e) /\ len (d_raw e) < 2 ^ 32 /\ exists t, group_text (GQuadlets [GSigs sigs]) = Ok t) ->
  l_kel l pre = [] -> deep <> Some true -> verify <> Some false ->
  exists l', fed canon hash cr messages_of group_text schema_check age seen_said (S fuel) deep verify l evs l' /\
    Forall2 (fun ev text => exists t, group_text (GQuadlets [GSigs (snd ev)]) = Ok t /\ text = d_raw (fst ev) ++ t) evs (l_kel l' pre) /\ len (l_kel l' pre) = n /\
    forall other, other <> pre -> l_kel l' other = l_kel l other.
Proof.
  intros CR SH TX LF B RD. eapply C141_main; eauto. intros e sigs I. destruct (RD e sigs I) as (D & NE & L & G). split; auto. apply back; auto. exact (life_made _ _ _ _ _ _ _ _ _ SH LF e sigs I).
Qed.
