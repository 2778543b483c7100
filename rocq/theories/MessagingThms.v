(** Properties C76, C77, C96 and C97: messages with attachments and receipts. *)
From Coq Require Import String.
From Coq Require Import NArith ZArith Lia Bool List.
From Verif Require Import Base BaseFacts B64 B64Facts Util Tables Matter MatterFacts MatterThms Indexer IndexerFacts IndexerMore SpecIndexer IndexerThms Counter CounterFacts CounterThms
  Prims PrimsFacts PrimsThms Json JsonFacts Common CommonFacts CommonThms SpecJson SpecPrims SpecCommon SpecSaider SpecSadder Saider SaiderFacts Sadder SadderFacts SadderThms Messaging Spec SpecMessaging.
Import ListNotations.
Open Scope N_scope.

(** ** One signature *)
Definition norm (x : indexer) : indexer := Ix (i_code x) (i_raw x) (i_index x) (if existsb (beq (i_code x)) [s! "A"; s! "C"; s! "E"] then i_index x else i_ondex x).
Lemma same_norm x v : same_signature (x, v) (norm x).
Proof. unfold same_signature. cbn. repeat split. Qed.
Lemma siger_in_sig c : In c siger_codes -> exists n d e, In (c, (n, d, e)) sig_codes.
Proof. intros H. cbn in H. repeat (destruct H as [<-|H]; [do 3 eexists; cbn; tauto|]). destruct H. Qed.
Lemma made_facts x v : made (x, v) -> In (i_code x) siger_codes /\ (current_sig (i_code x) = true -> i_ondex x = 0).
Proof.
  intros (vf & ix & od & code & raw & qb64b & qb64 & qb2 & H). unfold siger_new in H. apply bind_ok in H as (x' & X & H). apply bind_ok in H as (u & V & H).
  injection H as -> _. apply validate_ok in V as (V & _). split; auto. unfold indexer_new in X. intros C. assert (forall z, lookup indexer_table (i_code x) = Some z -> iond_ok x z -> i_ondex x = 0) as OK.
  { intros z _. unfold iond_ok. rewrite C. destruct (ios z =? 0); auto. }
  destruct raw as [raw|].
  - destruct code as [code|]; [|discriminate]. assert (i_code x = code) as EC.
    { clear - X. unfold indexer_of_code_raw in X. destruct code as [|c0 c]; [discriminate|]. repeat (apply bind_ok in X as (? & _ & X)). 
      repeat match type of X with (if ?b then _ else _) = _ => destruct b; try discriminate | (let* _ := _ in _) = _ => apply bind_ok in X as (? & _ & X) end. now injection X as <-. }
    rewrite EC in *. destruct (siger_in_sig _ V) as (n & d & e & I). apply (sig_build_ok _ _ _ _ _ _ _ _ I) in X as (_ & _ & A & _ & ->). cbn [i_ondex]. destruct od as [o|]; [|now rewrite C].
    rewrite (A o eq_refl) in C. discriminate.
  - assert (forall s, iexfil s = Ok x -> i_ondex x = 0) as TX by (intros s E; apply iexfil_inv in E as (z & r & Z & _ & O & _); eauto).
    destruct qb64b as [b|]; [unfold iexfil_b in X; apply bind_ok in X as (s & _ & X); eauto|]. destruct qb64 as [s|]; [eauto|].
    destruct qb2 as [b|]; [|discriminate]. apply ibexfil_inv in X as (z & Z & _ & O & _). eauto.
Qed.
Lemma siger_size c z : In c siger_codes -> lookup indexer_table c = Some z -> ils z = 0 /\ ivar z = false /\ (ios z = 0 -> current_sig c = false -> existsb (beq c) [s! "A"; s! "C"; s! "E"] = true) /\
  (existsb (beq c) [s! "A"; s! "C"; s! "E"] = true -> ios z = 0 /\ current_sig c = false).
Proof.
  intros H. cbn in H. repeat (destruct H as [<-|H]; [intros Z; vm_compute in Z; injection Z as <-; vm_compute; repeat split; intros; congruence|]). destruct H.
Qed.
Lemma siger_text x v t : made (x, v) -> iinfil x = Ok t -> ascii t = true /\ ifull_size (norm x) = Ok (len t) /\ forall rest, utf8 rest = true -> iexfil (t ++ rest) = Ok (norm x).
Proof.
  intros M T. destruct (made_facts _ _ M) as (I & C). destruct (iinfil_inv _ _ T) as (z & Z & W). destruct (siger_size _ _ I Z) as (L & VR & A & B).
  pose proof (iinfil_wf _ _ Z W) as T'. rewrite T in T'. injection T' as ->.
  assert (iboth (norm x) z = iboth x z) as EB.
  { unfold iboth, norm. cbn [i_code i_index i_ondex]. destruct (existsb (beq (i_code x)) [s! "A"; s! "C"; s! "E"]); [|reflexivity]. destruct (B eq_refl) as (-> & _). reflexivity. }
  assert (itext (norm x) z = itext x z) as ET by (unfold itext, itext_l; now rewrite EB).
  assert (iraw_ok (norm x) z) as W'.
  { destruct W as ((W1 & W2) & W3). split; [split|]; [exact W1| |exact W3]. unfold norm. cbn [i_ondex]. destruct (existsb (beq (i_code x)) [s! "A"; s! "C"; s! "E"]); auto. destruct (B eq_refl) as (-> & _). lia. }
  split; [now apply itext_ascii|]. split.
  - assert (i_index (norm x) < 262144) as SM by (apply (index_small _ z); [apply W'|]; pose proof (if_os _ _ (ilookup_facts _ _ Z)); lia).
    rewrite (ifull_size_wf (norm x) z Z SM). f_equal. rewrite <- ET, (len_itext (norm x) z Z W'). reflexivity.
  - intros rest U. rewrite <- ET. apply iexfil_itext; auto. unfold iond_ok. change (i_code (norm x)) with (i_code x). change (i_index (norm x)) with (i_index x). unfold norm. cbn [i_ondex].
    destruct (ios z =? 0) eqn:E.
    + destruct (current_sig (i_code x)) eqn:CS.
      * destruct (existsb (beq (i_code x)) [s! "A"; s! "C"; s! "E"]); [|auto]. destruct (B eq_refl) as (_ & X). discriminate.
      * rewrite (A ltac:(lia) eq_refl). reflexivity.
    + intros CS. destruct (existsb (beq (i_code x)) [s! "A"; s! "C"; s! "E"]); [|auto]. destruct (B eq_refl) as (X & _). lia.
Qed.
Lemma siger_np x v : made (x, v) -> iinfil x <> Panic.
Proof.
  intros M. destruct (made_facts _ _ M) as (I & _). unfold iinfil. destruct (isizage_of (i_code x)) as [z| |] eqn:Hz; [|discriminate|now apply isizage_of_np in Hz].
  rewrite bind_Ok. apply isizage_of_ok in Hz. destruct (siger_size _ _ I Hz) as (L & VR & _). pose proof (if_os _ _ (ilookup_facts _ _ Hz)) as (O1 & O2 & O3 & O4 & O5).
  cbv zeta. rewrite u32_sub_in, bind_Ok by lia. fold (ims z). unfold ivar in VR. rewrite VR, bind_Ok. rewrite pow64_small, bind_Ok by lia.
  destruct (64 ^ ims z - 1 <? i_index x); [discriminate|].
  assert ((if 0 <? ios z then let* q := pow64_u32 (ios z) in if q - 1 <? i_ondex x then Err EInvalidVarIndex else Ok tt else Ok tt) <> Panic) as NP.
  { destruct (0 <? ios z); [|discriminate]. rewrite pow64_small, bind_Ok by lia. destruct (64 ^ ios z - 1 <? i_ondex x); discriminate. }
  destruct (if 0 <? ios z then _ else Ok tt) as [u| |]; [|discriminate|contradiction]. rewrite bind_Ok.
  destruct (negb (len (i_code x ++ uint_to_b64 (i_index x) (ims z) ++ uint_to_b64 (i_ondex x) (ios z)) =? ihs z + iss z)); [discriminate|].
  rewrite L, u32_sub_in, bind_Ok by lia. set (ps := (3 - len (i_raw x) mod 3) mod 3). destruct (negb ((ihs z + iss z) mod 4 =? ps - 0)); [discriminate|].
  rewrite from_str_encode, bind_Ok.
  - destruct (negb _); discriminate.
  - rewrite len_encode, len_app, len_zeros. assert (ps <= 2) by (unfold ps; pose proof (N.mod_upper_bound (3 - len (i_raw x) mod 3) 3); lia).
    destruct (N.eq_dec ps 0) as [->|]; [cbn; lia|]. assert (1 <= (ps + len (i_raw x) + 2) / 3) by (apply N.div_le_lower_bound; lia). lia.
Qed.

(** ** Groups *)
Lemma texts_read l : forall ts rest, Forall made l -> siger_texts l = Ok ts -> utf8 rest = true ->
  ascii ts = true /\ read_signatures (length l) (ts ++ rest) = Some (map (fun p => norm (fst p)) l, rest).
Proof.
  induction l as [|(x & v) l IH]; intros ts rest M T U; cbn [siger_texts] in T.
  - injection T as <-. split; reflexivity.
  - inversion M as [|p q M1 M2]; subst. apply bind_ok in T as (t & T1 & T). apply bind_ok in T as (ts' & T2 & T). injection T as <-.
    destruct (IH _ _ M2 T2 U) as (A & R). destruct (siger_text _ _ _ M1 T1) as (A1 & F & E). split; [rewrite ascii_app, A1, A; reflexivity|].
    cbn [length read_signatures]. rewrite <- app_assoc, E by (rewrite utf8_ascii_app by auto; auto). rewrite F, drop_app_exact, R by reflexivity. reflexivity.
Qed.
Lemma texts_ok l : Forall made l -> (exists ts, siger_texts l = Ok ts) <-> Forall printable l.
Proof.
  induction l as [|(x & v) l IH]; intros M; cbn [siger_texts].
  - split; [constructor|eauto].
  - inversion M as [|p q M1 M2]; subst. specialize (IH M2). split.
    + intros (ts & T). apply bind_ok in T as (t & T1 & T). apply bind_ok in T as (ts' & T2 & T). constructor; [exists t; exact T1|]. apply IH. eauto.
    + intros F. inversion F as [|p q (t & T) F2]; subst. cbn [fst] in T. apply IH in F2 as (ts & TS). exists (t ++ ts). now rewrite T, bind_Ok, TS.
Qed.
Lemma texts_np l : Forall made l -> siger_texts l <> Panic.
Proof.
  induction l as [|(x & v) l IH]; intros M; cbn [siger_texts]; [discriminate|]. inversion M as [|p q M1 M2]; subst. pose proof (siger_np _ _ M1).
  destruct (iinfil x); [|discriminate|contradiction]. rewrite bind_Ok. specialize (IH M2). destruct (siger_texts l); [|discriminate|contradiction]. discriminate.
Qed.
Definition attach_codes : list bytes := [s! "-A"; s! "-B"].
Lemma attach_count code n : In code attach_codes -> counter_of_code_count code n = if 4096 <=? n then Err EInvalidVarIndex else Ok (Ct code n).
Proof. intros I. cbn in I. destruct I as [<-|[<-|[]]]; (erewrite cconstruct; [|reflexivity]); reflexivity. Qed.
Lemma attach_wf code n : In code attach_codes -> n < 4096 -> exists z, cwf (Ct code n) z /\ hs z + ss z = 4.
Proof. intros I L. cbn in I. destruct I as [<-|[<-|[]]]; (eexists; split; [split; [reflexivity|exact L]|reflexivity]). Qed.
Lemma group_read code l t : In code attach_codes -> Forall made l -> len l < 2 ^ 32 -> siger_group code l = Ok t ->
  ascii t = true /\ (forall rest, utf8 rest = true -> read_group (t ++ rest) = Some (code, map (fun p => norm (fst p)) l, rest)).
Proof.
  intros I M L H. unfold siger_group in H. rewrite (attach_count _ _ I) in H. assert (as_u32 (len l) = len l) as EL by (unfold as_u32; apply N.mod_small; exact L). rewrite EL in H.
  destruct (4096 <=? len l) eqn:B; [discriminate|]. rewrite bind_Ok in H. destruct (attach_wf code (len l) I ltac:(lia)) as (z & W & S).
  rewrite (cinfil_wf _ _ W), bind_Ok in H. apply bind_ok in H as (ts & T & H). injection H as <-.
  assert (ascii (ctext (Ct code (len l)) z) = true) as AC by (apply is_b64s_ascii; now apply ctext_b64).
  destruct (texts_read l ts [] M T eq_refl) as (A & _). split; [now rewrite ascii_app, AC, A|].
  intros rest U. destruct (texts_read l ts rest M T U) as (_ & R). unfold read_group. rewrite <- app_assoc. rewrite (cexfil_ctext _ _ _ W) by (rewrite utf8_ascii_app; auto).
  cbn [c_code c_count]. assert (cfull_size (Ct code (len l)) = Ok 4) as ->.
  { unfold cfull_size. cbn [c_code]. cbn in I. destruct I as [<-|[<-|[]]]; reflexivity. }
  rewrite drop_app_exact by (now rewrite (len_ctext _ _ W)). unfold len. rewrite Nat2N.id, R. reflexivity.
Qed.
Lemma group_ok code l : In code attach_codes -> Forall made l -> len l < 2 ^ 32 -> ((exists t, siger_group code l = Ok t) <-> len l < 4096 /\ Forall printable l) /\ siger_group code l <> Panic.
Proof.
  intros I M L. unfold siger_group. rewrite (attach_count _ _ I). assert (as_u32 (len l) = len l) as -> by (unfold as_u32; apply N.mod_small; exact L).
  destruct (4096 <=? len l) eqn:B; [split; [split; [intros (t & X); discriminate|lia]|discriminate]|]. rewrite bind_Ok. destruct (attach_wf code (len l) I ltac:(lia)) as (z & W & S).
  rewrite (cinfil_wf _ _ W), bind_Ok. pose proof (texts_np l M) as NP. rewrite <- (texts_ok l M). destruct (siger_texts l) as [ts| |]; [|cbn [bind]|contradiction].
  - rewrite bind_Ok. split; [split; eauto|discriminate]. intros _. split; [lia|eauto].
  - split; [split; [intros (t & X); discriminate|intros (_ & t & X); discriminate]|discriminate].
Qed.

(** ** Messages *)
Lemma read_nil_group : forall gs, groups gs [] -> gs = [].
Proof. intros [|(c & xs) gs]; [reflexivity|]. intros (r & R & _). discriminate R. Qed.
Lemma from_utf8_eq s : from_utf8 s = if utf8 s then Ok s else Err EForeign.
Proof. reflexivity. Qed.
Lemma attached code l w rest gs : In code attach_codes -> (forall l', l = Some l' -> Forall made l' /\ len l' < 2 ^ 32) ->
  match l with Some l => siger_group code l | None => Ok [] end = Ok w -> ascii rest = true -> groups gs rest -> forall ps, same_groups ps gs ->
  ascii w = true /\ exists gs', groups gs' (w ++ rest) /\ same_groups (given code l ++ ps) gs'.
Proof.
  intros I M H A G ps S. destruct l as [l|]; [|injection H as <-; split; [reflexivity|]; exists gs; split; auto]. destruct (M l eq_refl) as (M1 & M2).
  destruct (group_read _ _ _ I M1 M2 H) as (A1 & R). split; auto. exists ((code, map (fun p => norm (fst p)) l) :: gs). split.
  - cbn [groups]. exists rest. split; auto. apply R. now apply utf8_ascii.
  - cbn [given app]. constructor; auto. cbn [fst snd]. split; auto. clear. induction l as [|(x & v) l IH]; constructor; auto. apply same_norm.
Qed.
(*# C76_attachments_partial
   A message with attached signatures, of a controller or of witnesses, is the bytes of the event followed by one group for each list given; reading it gives the event
   (if it was read from bytes), and for each group its code, the exact number of signatures and the signatures in order: same code, material and index, and same other
   index where the code has room for it. Lists are shorter than 2^32. Full statement: same other index always, and lists of any length; see C76_other_index_refuted and
   C76_count_refuted.
##
Example C76_case : exists p q s t, siger_new None (Some 3) (Some 4) (Some (s! "2A")) (Some (repeat x07 64)) None None None = Ok p /\
  siger_new None (Some 1) None (Some (s! "B")) (Some (repeat x09 64)) None None None = Ok q /\
  serder_new (fun _ => None) None (Some (s! "{""v"":""KERI10JSON00004c_"",""d"":""EAAAAAAAAAAAAAAAAAAAAAAAAAAAAAAAAAAAAAAAAAAA""}")) None None None = Ok s /\
  messagize s (Some [p; p]) None (Some [q]) None = Ok t /\ len t = 76 + 4 + 2 * 92 + 4 + 88.
Proof.
  eexists. eexists. eexists. eexists. split; [vm_compute; reflexivity|]. split; [vm_compute; reflexivity|]. split; [vm_compute; reflexivity|].
  split; [vm_compute; reflexivity|]. vm_compute. reflexivity.
Qed.
#*)
Lemma C76_l (s : sadder) (sigers wigers : option (list (indexer * matter))) (cigars : option (list (matter * matter))) (t : bytes) :
  (forall code l, In (code, l) (given (s! "-A") sigers ++ given (s! "-B") wigers) -> Forall made l /\ len l < 2 ^ 32) ->
  messagize s sigers None wigers cigars = Ok t ->
  exists a gs, t = d_raw s ++ a /\ groups gs a /\ same_groups (given (s! "-A") sigers ++ given (s! "-B") wigers) gs /\
    (forall new canon code raw kind ked sad, In new constructors -> new canon code (Some raw) kind ked sad = Ok s -> new canon code (Some t) None None None = Ok s).
Proof.
  intros M H. unfold messagize in H. apply bind_ok in H as (msg & U & H). rewrite from_utf8_eq in U. destruct (utf8 (d_raw s)) eqn:UT; [|discriminate]. injection U as <-.
  destruct (is_none sigers && is_none wigers && is_none cigars); [discriminate|]. apply bind_ok in H as (atc & AT & H). apply bind_ok in H as (watc & WT & H). injection H as <-.
  assert (match sigers with Some l => siger_group (s! "-A") l | None => Ok [] end = Ok atc) as AT'.
  { destruct sigers; [|exact AT]. rewrite bind_Ok in AT. apply bind_ok in AT as (g & G & AT). injection AT as <-. exact G. }
  assert (forall l', wigers = Some l' -> Forall made l' /\ len l' < 2 ^ 32) as MW by (intros l' ->; apply (M (s! "-B")); apply in_or_app; right; now left).
  assert (forall l', sigers = Some l' -> Forall made l' /\ len l' < 2 ^ 32) as MS by (intros l' ->; apply (M (s! "-A")); apply in_or_app; left; now left).
  destruct (attached (s! "-B") wigers watc [] [] ltac:(cbn; tauto) MW WT eq_refl eq_refl [] (Forall2_nil _)) as (AW & gw & GW & SW). rewrite app_nil_r in GW, SW.
  destruct (attached (s! "-A") sigers atc watc gw ltac:(cbn; tauto) MS AT' AW GW _ SW) as (AA & gs & GS & SS).
  exists (atc ++ watc), gs. split; [reflexivity|]. split; auto. split; auto.
  intros new canon code raw kind ked sad I N. destruct (C87_l new canon code kind None raw (atc ++ watc) ked None sad None s I N) as (_ & _ & _ & _ & R). apply R.
  rewrite utf8_ascii_app by auto. now apply utf8_ascii.
Qed.
(*# C76_messages_accepted
   A message without seal is made exactly if the event is text, at least one list is given, no list of indexed signatures is longer than 4095, and each signature can be
   printed; in the other cases the call fails with an error.
##
Example C76_accepted_case : exists p, siger_new None (Some 3) (Some 4) (Some (s! "2A")) (Some (repeat x07 64)) None None None = Ok p /\ printable p.
Proof. eexists. split; [vm_compute; reflexivity|]. eexists. vm_compute. reflexivity. Qed.
#*)
Lemma C76_accepted_l (s : sadder) (sigers wigers : option (list (indexer * matter))) (cigars : option (list (matter * matter))) :
  (forall code l, In (code, l) (given (s! "-A") sigers ++ given (s! "-B") wigers) -> Forall made l /\ len l < 2 ^ 32) ->
  ((exists t, messagize s sigers None wigers cigars = Ok t) <->
   utf8 (d_raw s) = true /\ ~ (sigers = None /\ wigers = None /\ cigars = None) /\
   forall code l, In (code, l) (given (s! "-A") sigers ++ given (s! "-B") wigers) -> len l <= 4095 /\ Forall printable l) /\
  messagize s sigers None wigers cigars <> Panic.
Proof.
  intros M. unfold messagize. rewrite from_utf8_eq. destruct (utf8 (d_raw s)); [rewrite bind_Ok|cbn [bind]; split; [split; [intros (t & X); discriminate|intros (X & _); discriminate]|discriminate]].
  destruct (is_none sigers && is_none wigers && is_none cigars) eqn:E.
  { destruct sigers, wigers, cigars; try discriminate E. split; [split; [intros (t & X); discriminate|tauto]|discriminate]. }
  assert (forall code l, In code attach_codes -> (forall l', l = Some l' -> Forall made l' /\ len l' < 2 ^ 32) ->
    match l with Some l => siger_group code l | None => Ok [] end <> Panic /\
    ((exists t, match l with Some l => siger_group code l | None => Ok [] end = Ok t) <-> forall c l', In (c, l') (given code l) -> len l' <= 4095 /\ Forall printable l')) as G.
  { intros code l I ML. destruct l as [l|]; cbn [given]; [|split; [discriminate|]; split; [intros _ c l' []|eauto]]. destruct (ML l eq_refl) as (M1 & M2). destruct (group_ok code l I M1 M2) as (A & B).
    split; auto. rewrite A. split.
    - intros (X & Y) c l' [Z|[]]. injection Z as _ <-. split; [lia|auto].
    - intros X. destruct (X code l (or_introl eq_refl)). split; [lia|auto]. }
  destruct (G (s! "-A") sigers ltac:(cbn; tauto)) as (A1 & A2); [intros l' ->; apply (M (s! "-A")); apply in_or_app; left; now left|].
  destruct (G (s! "-B") wigers ltac:(cbn; tauto)) as (B1 & B2); [intros l' ->; apply (M (s! "-B")); apply in_or_app; right; now left|].
  assert (match sigers with Some sigers => let* h := Ok [] in let* g := siger_group (s! "-A") sigers in Ok (h ++ g) | None => Ok [] end =
    match sigers with Some l => siger_group (s! "-A") l | None => Ok [] end) as ->.
  { destruct sigers; [|reflexivity]. rewrite bind_Ok. now destruct (siger_group (s! "-A") l). }
  assert (~ (sigers = None /\ wigers = None /\ cigars = None)) as NE by (intros (-> & -> & ->); discriminate E).
  assert ((forall code l, In (code, l) (given (s! "-A") sigers ++ given (s! "-B") wigers) -> len l <= 4095 /\ Forall printable l) <->
    (exists t, match sigers with Some l => siger_group (s! "-A") l | None => Ok [] end = Ok t) /\ (exists t, match wigers with Some l => siger_group (s! "-B") l | None => Ok [] end = Ok t)) as ->.
  { rewrite A2, B2. split; [intros X; split; intros c l I; apply (X c l), in_or_app; auto|]. intros (X & Y) c l I. apply in_app_or in I as [I|I]; eauto. }
  destruct (match sigers with Some l => siger_group (s! "-A") l | None => Ok [] end) as [a| |]; [|split; [split; [intros (t & X); discriminate|intros (_ & _ & (t & X) & _); discriminate]|discriminate]|contradiction].
  rewrite bind_Ok. destruct (match wigers with Some l => siger_group (s! "-B") l | None => Ok [] end) as [b| |]; [|split; [split; [intros (t & X); discriminate|intros (_ & _ & _ & (t & X)); discriminate]|discriminate]|contradiction].
  rewrite bind_Ok. split; [|discriminate]. split; eauto 10.
Qed.
(*# C76_other_index_refuted
   False as stated: of a signature whose code has no room for the other index, that index is lost without an error.
#*)
Lemma C76_no_l : exists p s t r y, siger_new None (Some 3) (Some 5) (Some (s! "A")) (Some (repeat x07 64)) None None None = Ok p /\ i_ondex (fst p) = 5 /\
  messagize s (Some [p]) None None None = Ok t /\ read_group (drop (len (d_raw s)) t) = Some (s! "-A", [y], r) /\ i_ondex y = 3.
Proof.
  eexists. exists (Sd [] [] VNull [] [] 0 current_version (Mt [] 0 [])). eexists. eexists. eexists. split; [vm_compute; reflexivity|]. split; [vm_compute; reflexivity|].
  split; [vm_compute; reflexivity|]. split; [vm_compute; reflexivity|]. vm_compute. reflexivity.
Qed.
Lemma texts_repeat x v t n : iinfil x = Ok t -> exists ts, siger_texts (repeat (x, v) n) = Ok ts /\ (n <> 0%nat -> t <> [] -> ts <> []).
Proof.
  intros T. induction n as [|n (ts & IH & _)]; cbn [repeat siger_texts]; [eexists; split; [reflexivity|congruence]|]. rewrite T, bind_Ok, IH, bind_Ok. eexists. split; [reflexivity|].
  intros _ N X. now apply app_eq_nil in X as (X & _).
Qed.
(*# C76_count_refuted
   False as stated: the count is taken modulo 2^32, so that a list of 2^32 signatures is announced as empty.
#*)
Lemma C76_count_l : exists s l t r, Forall made l /\ len l = 2 ^ 32 /\ messagize s (Some l) None None None = Ok t /\ read_group (drop (len (d_raw s)) t) = Some (s! "-A", [], r) /\ r <> [].
Proof.
  destruct (siger_new None (Some 3) None (Some (s! "A")) (Some (repeat x07 64)) None None None) as [(x & v)| |] eqn:E; [|vm_compute in E; discriminate E|vm_compute in E; discriminate E].
  assert (exists t, iinfil x = Ok t /\ t <> []) as (t & T & NE) by (vm_compute in E; injection E as <- _; eexists; split; [vm_compute; reflexivity|discriminate]).
  assert (made (x, v)) as M by (repeat eexists; exact E). clear E.
  assert (exists n, N.of_nat n = 2 ^ 32) as (n & L) by (exists (N.to_nat (2 ^ 32)); apply N2Nat.id).
  destruct (texts_repeat x v t n T) as (ts & TS & NZ). assert (ts <> []) as NTS by (apply NZ; auto; intros ->; discriminate L).
  assert (len (repeat (x, v) n) = 2 ^ 32) as LN by (unfold len; rewrite repeat_length; exact L). assert (Forall made (repeat (x, v) n)) as FM by (apply Forall_forall; intros p P; apply repeat_spec in P; now subst).
  clear NZ L. revert TS LN FM. generalize (repeat (x, v) n). intros l TS LN FM.
  exists (Sd [] [] VNull [] [] 0 current_version (Mt [] 0 [])), l, (s! "-AAA" ++ ts), ts. split; auto. split; auto.
  assert (siger_group (s! "-A") l = Ok (s! "-AAA" ++ ts)) as G by (unfold siger_group; rewrite LN, TS; vm_compute; reflexivity).
  split; [|split; auto].
  - unfold messagize. cbn [d_raw from_utf8 bind is_none andb]. rewrite from_utf8_eq. cbn [utf8]. rewrite bind_Ok, G, bind_Ok, bind_Ok, app_nil_r. reflexivity.
  - destruct (texts_read l ts [] FM TS eq_refl) as (A & _). cbn [d_raw]. change (drop (len (@nil byte)) (s! "-AAA" ++ ts)) with (s! "-AAA" ++ ts). unfold read_group.
    destruct (attach_wf (s! "-A") 0 ltac:(cbn; tauto) ltac:(reflexivity)) as (z & W & S). pose proof (cinfil_wf _ _ W) as C. vm_compute in C. injection C as C.
    change (s! "-AAA") with [x2d; x41; x41; x41]. rewrite C. rewrite (cexfil_ctext _ _ _ W) by (now apply utf8_ascii). cbn [c_count c_code]. change (cfull_size (Ct (s! "-A") 0)) with (Ok 4).
    cbv iota. rewrite drop_app_exact by (now rewrite <- C). reflexivity.
Qed.

(** ** Seals *)
Lemma seal_sn_ok z q : seal_sn z = Ok q -> exists m n, exfil q = Ok m /\ infil m = Ok q /\ m_code m = s! "0A" /\ seqner_sn m = Ok n /\ hex_reading (sl_s z) n /\ n < 2 ^ 128 /\ ascii q = true.
Proof.
  unfold seal_sn. intros H. apply bind_ok in H as (m & M & H). assert (sl_s z <> []) as NE by (intros X; rewrite X in M; vm_compute in M; discriminate M).
  apply (proj2 (C36b_l _ m NE)) in M as (n & R & L & M). destruct (C35_round_l n L) as (m' & t & b & A & B & C & D & E & _). rewrite M in A. injection A as <-. rewrite H in C. injection C as <-.
  exists m, n. unfold seqner_new in E. cbn [is_none andb bind or_else] in E. apply bind_ok in E as (m'' & E & V). apply bind_ok in V as (u & V & W). injection W as <-. apply validate_ok in V as ([V|[]] & _).
  unfold matter_new in E. repeat split; auto.
  destruct (seqner_new_spec n ltac:(unfold u128_max; change (2 ^ 128) with (340282366920938463463374607431768211455 + 1) in L; lia)) as (E1 & E2 & _). assert (m'' = Mt (s! "0A") 0 (be_bytes 16 n)) as EM by congruence. rewrite <- EM in E2. clear EM E1.
  destruct (wf_forms _ E2) as (zz & Hz & W & I & BB). rewrite H in I. injection I as ->. now apply mtext_ascii.
Qed.
Lemma seal_emitted (s : sadder) (sigers : list (indexer * matter)) (z : seal) (wigers : option (list (indexer * matter))) (cigars : option (list (matter * matter))) (t : bytes) (pi pd : matter) :
  (forall code l, In (code, l) (given (s! "-A") (Some sigers) ++ given (s! "-B") wigers) -> Forall made l /\ len l < 2 ^ 32) ->
  messagize s (Some sigers) (Some z) wigers cigars = Ok t ->
  utf8 (sl_i z) = true -> exfil (sl_i z) = Ok pi -> utf8 (sl_d z) = true -> exfil (sl_d z) = Ok pd ->
  exists h a b gs, t = d_raw s ++ h ++ sl_i z ++ a ++ b /\ len h = 4 /\ exfil (sl_i z ++ a ++ b) = Ok pi /\ groups gs b /\
    same_groups (given (s! "-A") (Some sigers) ++ given (s! "-B") wigers) gs /\
    (sl_last z = true -> cexfil (h ++ sl_i z ++ a ++ b) = Ok (Ct (s! "-H") 1) /\ a = []) /\
    (sl_last z = false -> cexfil (h ++ sl_i z ++ a ++ b) = Ok (Ct (s! "-F") 1) /\
      exists q m n, a = q ++ sl_d z /\ exfil (q ++ sl_d z ++ b) = Ok m /\ infil m = Ok q /\ m_code m = s! "0A" /\ seqner_sn m = Ok n /\ hex_reading (sl_s z) n /\
        exfil (sl_d z ++ b) = Ok pd).
Proof.
  intros M H UI EI UD ED. unfold messagize in H. apply bind_ok in H as (msg & U & H). rewrite from_utf8_eq in U. destruct (utf8 (d_raw s)) eqn:UT; [|discriminate]. injection U as <-.
  cbn [is_none andb] in H. apply bind_ok in H as (atc & AT & H). apply bind_ok in H as (watc & WT & H). injection H as <-.
  apply bind_ok in AT as (h & HH & AT). apply bind_ok in AT as (g & AT' & AT). injection AT as <-.
  assert (forall l', wigers = Some l' -> Forall made l' /\ len l' < 2 ^ 32) as MW by (intros l' ->; apply (M (s! "-B")); apply in_or_app; right; now left).
  assert (forall l', Some sigers = Some l' -> Forall made l' /\ len l' < 2 ^ 32) as MS by (intros l' X; injection X as <-; apply (M (s! "-A")); apply in_or_app; left; now left).
  destruct (attached (s! "-B") wigers watc [] [] ltac:(cbn; tauto) MW WT eq_refl eq_refl [] (Forall2_nil _)) as (AW & gw & GW & SW). rewrite app_nil_r in GW, SW.
  destruct (attached (s! "-A") (Some sigers) g watc gw ltac:(cbn; tauto) MS AT' AW GW _ SW) as (AA & gs & GS & SS).
  assert (utf8 (g ++ watc) = true) as UG by (rewrite utf8_ascii_app by auto; now apply utf8_ascii).
  unfold seal_header in HH. destruct (sl_last z).
  - apply bind_ok in HH as (c & C & HH). vm_compute in C. injection C as <-. apply bind_ok in HH as (hd & C & HH). injection HH as <-. destruct (cinfil_inv _ _ C) as (zz & W & E).
    assert (len hd = 4) as L by (vm_compute in C; injection C as <-; reflexivity).
    exists hd, [], (g ++ watc), gs. rewrite <- !app_assoc. cbn [app]. split; auto. split; auto. split; [now apply exfil_app|]. split; auto. split; auto. split; [|discriminate]. intros _. split; auto.
    rewrite E. apply (cexfil_ctext _ _ _ W). now rewrite utf8_app.
  - apply bind_ok in HH as (c & C & HH). vm_compute in C. injection C as <-. apply bind_ok in HH as (hd & C & HH). apply bind_ok in HH as (q & Q & HH). injection HH as <-. destruct (cinfil_inv _ _ C) as (zz & W & E).
    assert (len hd = 4) as L by (vm_compute in C; injection C as <-; reflexivity).
    destruct (seal_sn_ok _ _ Q) as (m & n & Q1 & Q2 & Q3 & Q4 & Q5 & Q6 & Q7).
    assert (utf8 (sl_d z ++ g ++ watc) = true) as U1 by (now rewrite utf8_app).
    assert (utf8 (q ++ sl_d z ++ g ++ watc) = true) as U2 by (now rewrite utf8_ascii_app).
    exists hd, (q ++ sl_d z), (g ++ watc), gs. rewrite <- !app_assoc. split; auto. split; auto. split; [now apply exfil_app|]. split; auto. split; auto. split; [discriminate|]. intros _. split.
    + rewrite E. apply (cexfil_ctext _ _ _ W). now rewrite utf8_app.
    + exists q, m, n. split; auto. split; [now apply exfil_app|]. repeat (split; auto). now apply exfil_app.
Qed.
(*# C96_seal_partial
   With a seal and signatures of the controller, the event is followed by a counter announcing one group, the identifier of the seal, its sequence number and digest
   (unless the seal was made for the last event, which it is not when nothing is said about it), and then the signatures. If identifier and digest are texts of primitives, the whole is read back. The sequence number is the
   number written in hexadecimal in the seal. Full statement: any seal is in the message; see C96_seal_refuted.
##
Example C96_case : exists p t, siger_new None (Some 1) None (Some (s! "B")) (Some (repeat x09 64)) None None None = Ok p /\
  messagize (Sd [] [] VNull [] [] 0 current_version (Mt [] 0 [])) (Some [p]) (Some (seal_new (s! "MAAB") (s! "1f") (s! "MAAC") None)) None None = Ok t /\
  take 36 t = s! "-FABMAAB0AAAAAAAAAAAAAAAAAAAAAAfMAAC".
Proof. eexists. eexists. split; [vm_compute; reflexivity|]. split; [vm_compute; reflexivity|]. vm_compute. reflexivity. Qed.
#*)
Lemma C96_l (s : sadder) (sigers : list (indexer * matter)) (i sn d : bytes) (last : option bool) (wigers : option (list (indexer * matter))) (cigars : option (list (matter * matter))) (t : bytes) (pi pd : matter) :
  (forall code l, In (code, l) (given (s! "-A") (Some sigers) ++ given (s! "-B") wigers) -> Forall made l /\ len l < 2 ^ 32) ->
  messagize s (Some sigers) (Some (seal_new i sn d last)) wigers cigars = Ok t ->
  utf8 i = true -> exfil i = Ok pi -> utf8 d = true -> exfil d = Ok pd ->
  exists h a b gs, t = d_raw s ++ h ++ i ++ a ++ b /\ len h = 4 /\ exfil (i ++ a ++ b) = Ok pi /\ groups gs b /\
    same_groups (given (s! "-A") (Some sigers) ++ given (s! "-B") wigers) gs /\
    (last = Some true -> cexfil (h ++ i ++ a ++ b) = Ok (Ct (s! "-H") 1) /\ a = []) /\
    (last = Some false \/ last = None -> cexfil (h ++ i ++ a ++ b) = Ok (Ct (s! "-F") 1) /\
      exists q m n, a = q ++ d /\ exfil (q ++ d ++ b) = Ok m /\ infil m = Ok q /\ m_code m = s! "0A" /\ seqner_sn m = Ok n /\ hex_reading sn n /\
        exfil (d ++ b) = Ok pd).
Proof.
  intros M H UI EI UD ED. destruct (seal_emitted s sigers (seal_new i sn d last) wigers cigars t pi pd M H UI EI UD ED) as (h & a & b & gs & A1 & A2 & A3 & A4 & A5 & A6 & A7).
  cbn [sl_i sl_s sl_d sl_last seal_new] in *. exists h, a, b, gs. repeat apply conj; auto.
  - intros ->. apply A6. reflexivity.
  - intros [->| ->]; apply A7; reflexivity.
Qed.
(*# C96_seal_refuted
   False as stated: without signatures of the controller, the seal is dropped.
#*)
Lemma C96_no_l (s : sadder) (z : seal) (wigers : option (list (indexer * matter))) (cigars : option (list (matter * matter))) :
  messagize s None (Some z) wigers cigars = messagize s None None wigers cigars /\ exists p t, made p /\ messagize (Sd [] [] VNull [] [] 0 current_version (Mt [] 0 [])) None (Some z) (Some [p]) None = Ok t.
Proof.
  split; [reflexivity|]. eexists. eexists. split; [exists None, (Some 1), None, (Some (s! "B")), (Some (repeat x09 64)), None, None, None; vm_compute; reflexivity|]. vm_compute. reflexivity.
Qed.

(** ** All signatures are emitted *)
(*# C77_attached_refuted
   False as stated: signatures that are not indexed are dropped without an error; given alone, the message is the bare event.
#*)
Lemma C77_no_l (s : sadder) (sigers wigers : option (list (indexer * matter))) (seal : option seal) (cigars : list (matter * matter)) :
  messagize s sigers seal wigers (Some cigars) = messagize s sigers seal wigers (Some []) /\ (utf8 (d_raw s) = true -> messagize s None seal None (Some cigars) = Ok (d_raw s)) /\
  exists c, cigar_new None (Some (s! "0B")) (Some (repeat x09 64)) None None None = Ok c.
Proof.
  split; [|split].
  - unfold messagize. destruct sigers, wigers; reflexivity.
  - intros U. unfold messagize. rewrite from_utf8_eq, U. cbn [bind is_none andb]. now rewrite !app_nil_r.
  - eexists. vm_compute. reflexivity.
Qed.
Lemma in_texts l : forall ts p, siger_texts l = Ok ts -> In p l -> exists u, iinfil (fst p) = Ok u /\ exists a b, ts = a ++ u ++ b.
Proof.
  induction l as [|(x & v) l IH]; intros ts p T I; [destruct I|]. cbn [siger_texts] in T. apply bind_ok in T as (t & T1 & T). apply bind_ok in T as (ts' & T2 & T). injection T as <-.
  destruct I as [<-|I]; [exists t; split; auto; exists [], ts'; reflexivity|]. destruct (IH _ _ T2 I) as (u & U & a & b & ->). exists u. split; auto. exists (t ++ a), b. now rewrite <- app_assoc.
Qed.
(*# C77_attached_partial
   The text of every indexed signature passed is in the message after the event, or the call fails. Full statement: of the others, too; see C77_attached_refuted.
##
Example C77_case : exists p q t, siger_new None (Some 1) None (Some (s! "B")) (Some (repeat x09 64)) None None None = Ok p /\ siger_new None (Some 2) None (Some (s! "A")) (Some (repeat x08 64)) None None None = Ok q /\
  messagize (Sd [] [] VNull [] [] 0 current_version (Mt [] 0 [])) (Some [q; p]) None (Some [p]) None = Ok t /\ In q ([q; p] ++ [p]).
Proof. eexists. eexists. eexists. split; [vm_compute; reflexivity|]. split; [vm_compute; reflexivity|]. split; [vm_compute; reflexivity|]. now left. Qed.
#*)
Lemma C77_l (s : sadder) (sigers wigers : option (list (indexer * matter))) (seal : option seal) (cigars : option (list (matter * matter))) (t : bytes) (p : indexer * matter) :
  messagize s sigers seal wigers cigars = Ok t -> (exists l, (sigers = Some l \/ wigers = Some l) /\ In p l) ->
  exists u a b, iinfil (fst p) = Ok u /\ t = d_raw s ++ a ++ u ++ b.
Proof.
  intros H (l & LL & I). unfold messagize in H. apply bind_ok in H as (msg & U & H). rewrite from_utf8_eq in U. destruct (utf8 (d_raw s)) eqn:UT; [|discriminate]. injection U as <-.
  destruct (is_none sigers && is_none wigers && is_none cigars); [discriminate|]. apply bind_ok in H as (atc & AT & H). apply bind_ok in H as (watc & WT & H). injection H as <-.
  assert (forall code w, siger_group code l = Ok w -> exists u, iinfil (fst p) = Ok u /\ exists a b, w = a ++ u ++ b) as G.
  { intros code w W. unfold siger_group in W. apply bind_ok in W as (c & _ & W). apply bind_ok in W as (h & _ & W). apply bind_ok in W as (ts & T & W). injection W as <-.
    destruct (in_texts _ _ _ T I) as (u & X & a & b & ->). exists u. split; auto. exists (h ++ a), b. now rewrite <- app_assoc. }
  destruct LL as [->| ->].
  - apply bind_ok in AT as (h & _ & AT). apply bind_ok in AT as (g & GG & AT). injection AT as <-. destruct (G _ _ GG) as (u & X & a & b & ->). exists u, (h ++ a), (b ++ watc). split; auto. now rewrite <- !app_assoc.
  - destruct (G _ _ WT) as (u & X & a & b & ->). exists u, (atc ++ a), b. split; auto. now rewrite <- !app_assoc.
Qed.

(** ** Receipts *)

Lemma receipt_sized_at vs m a b : (a =? 1) = true -> (b =? 0) = true -> data (VObj ((s! "v", VStr vs) :: m)) -> len (to_json (VObj ((s! "v", VStr vs) :: m))) < 2 ^ 32 ->
  version_string vs (s! "KERI") a b 0 -> sizeify (VObj ((s! "v", VStr vs) :: m)) None =
  if len (to_json (VObj ((s! "v", VStr vs) :: m))) <? 2 ^ 24 then Ok (sized_of [] m (s! "KERI")) else Err EValue.
Proof. intros A B D L V. rewrite (sized_first _ _ _ _ _ _ D L V), A, B. reflexivity. Qed.
Lemma receipt_sized vs m : data (VObj ((s! "v", VStr vs) :: m)) -> len (to_json (VObj ((s! "v", VStr vs) :: m))) < 2 ^ 32 ->
  version_string vs (s! "KERI") 1 0 0 -> sizeify (VObj ((s! "v", VStr vs) :: m)) None =
  if len (to_json (VObj ((s! "v", VStr vs) :: m))) <? 2 ^ 24 then Ok (sized_of [] m (s! "KERI")) else Err EValue.
Proof. exact (receipt_sized_at vs m 1 0 eq_refl eq_refl). Qed.
Lemma receipt_data vs said pre h : utf8 vs = true -> utf8 said = true -> utf8 pre = true -> utf8 h = true -> data (receipt_of vs said pre h).
Proof.
  intros A B C D. apply data_obj.
  - cbn [map fst]. repeat (constructor; [cbn [In]; intros X; repeat (destruct X as [X|X]; [discriminate X|]); exact X|]). constructor.
  - repeat (constructor; [reflexivity|]). constructor.
  - cbn [map snd]. repeat (constructor; [now constructor|]). constructor.
Qed.
Lemma lower_hex_utf8 h : lower_hex h -> utf8 h = true.
Proof.
  intros (_ & H & _). apply utf8_ascii. unfold ascii. apply forallb_forall. intros c I. apply H in I. assert (forallb is_ascii hex_alphabet = true) as T by reflexivity. now apply (proj1 (forallb_forall _ _) T).
Qed.
Lemma version_one ver i : v_major ver <= 255 -> v_minor ver <= 255 -> forall vs, versify None (Some ver) (Some (s! "JSON")) (Some 0) = Ok vs -> deversify vs = Ok i -> vi_version i = ver.
Proof. intros A B vs V D. destruct ver as [a b]. change (versify (Some (s! "KERI")) (Some (Ver a b)) (Some (s! "JSON")) (Some 0) = Ok vs) in V. rewrite (C51c_l _ _ _ _ _ _ _ A B (eq_refl : 0 < 2 ^ 32) V D). reflexivity. Qed.
Lemma versify_json ver : exists vs, versify None (Some ver) (Some (s! "JSON")) (Some 0) = Ok vs.
Proof. unfold versify. cbn [or_else]. change (negb (has_code idents (s! "KERI"))) with false. change (negb (has_code serials (s! "JSON"))) with false. cbv iota. eauto. Qed.
Lemma sizeify_other vs m ver : v_major ver <= 255 -> v_minor ver <= 255 -> ver <> Ver 1 0 -> versify None (Some ver) (Some (s! "JSON")) (Some 0) = Ok vs ->
  exists e, sizeify (VObj ((s! "v", VStr vs) :: m)) None = Err e.
Proof.
  intros A B N V. unfold sizeify. cbn [to_map bind]. change (contains_key (s! "v") ((s! "v", VStr vs) :: m)) with true. cbn [negb]. change (index_str (VObj ((s! "v", VStr vs) :: m)) (s! "v")) with (Ok (VStr vs)).
  rewrite bind_Ok. cbn [to_string]. rewrite bind_Ok. pose proof (deversify_np vs). destruct (deversify vs) as [i|e|] eqn:D; [|exists e; reflexivity|contradiction]. rewrite bind_Ok.
  pose proof (version_one _ _ A B _ V D) as E. unfold version_eqb. destruct ((v_major (vi_version i) =? v_major current_version) && (v_minor (vi_version i) =? v_minor current_version)) eqn:Q; [|eexists; reflexivity].
  exfalso. apply N. rewrite <- E. destruct (vi_version i) as [a b]. cbn in Q. f_equal; lia.
Qed.
(*# C97_receipt
   A receipt is made exactly if the version (if given) is 1.0, the kind JSON, the text begins with a digest of the default code and the text of the receipt is below 2^24
   bytes. Its data are then exactly those given with the sequence number in hexadecimal, its accessors give them back, and so does reading its bytes, whatever follows.
   It panics exactly if, the rest being right, the digest text does when parsed.
##
Example C97_case : exists s, receipt (fun _ => None) (s! "BAAA") 31 (s! "EAAAAAAAAAAAAAAAAAAAAAAAAAAAAAAAAAAAAAAAAAAA") None None = Ok s /\
  d_raw s = s! "{""v"":""KERI10JSON00006a_"",""t"":""rct"",""d"":""EAAAAAAAAAAAAAAAAAAAAAAAAAAAAAAAAAAAAAAAAAAA"",""i"":""BAAA"",""s"":""1f""}".
Proof. eexists. split; [vm_compute; reflexivity|]. vm_compute. reflexivity. Qed.
#*)
Lemma C97_l (canon : bytes -> option bytes) (pre : bytes) (sn : N) (said : bytes) (ver : option version) (kind : option bytes) :
  utf8 pre = true -> utf8 said = true -> sn < 2 ^ 128 -> (forall v, ver = Some v -> v_major v <= 255 /\ v_minor v <= 255) ->
  exists h, lower_hex h /\ hex_number h = sn /\
  (len (to_json (receipt_of (s! "KERI10JSON000000_") said pre h)) < 2 ^ 32 ->
   let fits := (ver = None \/ ver = Some (Ver 1 0)) /\ (kind = None \/ kind = Some (s! "JSON")) /\ len (to_json (receipt_of (s! "KERI10JSON000000_") said pre h)) < 2 ^ 24 in
   ((exists s, receipt canon pre sn said ver kind = Ok s) <-> fits /\ exists d, exfil said = Ok d /\ m_code d = s! "E") /\
   (receipt canon pre sn said ver kind = Panic <-> fits /\ exfil said = Panic) /\
   (forall s, receipt canon pre sn said ver kind = Ok s ->
     (exists vs, d_ked s = receipt_of vs said pre h /\ version_string vs (s! "KERI") 1 0 (len (d_raw s))) /\ d_raw s = to_json (d_ked s) /\
     serder_sn s = Ok sn /\ serder_pre s = Ok pre /\ serder_est s = Ok false /\ exfil said = Ok (d_saider s) /\
     forall c, utf8 c = true -> serder_new canon None (Some (d_raw s ++ c)) None None None = Ok s)).
Proof.
  intros UP US LS VV. destruct (C36_l sn LS) as (h & m & q & LH & HN & N1 & N2 & N3 & _). destruct (C34_l sn LS) as (m' & t0 & b0 & M' & NN & _). rewrite N1 in M'. injection M' as <-. exists h. split; auto. split; auto. intros L32 fits.
  pose proof (lower_hex_utf8 _ LH) as UH.
  set (ver' := or_else ver current_version). assert (v_major ver' <= 255 /\ v_minor ver' <= 255) as (V1 & V2) by (unfold ver'; destruct ver as [v|]; [now apply VV|cbn; lia]).
  assert (ver' = Ver 1 0 <-> ver = None \/ ver = Some (Ver 1 0)) as EV.
  { unfold ver'. destruct ver as [v|]; cbn [or_else]; [|split; auto]. split; [intros ->; auto|]. intros [X|X]; [discriminate|now injection X]. }
  set (kind' := or_else kind (s! "JSON")). assert (kind' = s! "JSON" <-> kind = None \/ kind = Some (s! "JSON")) as EK.
  { unfold kind'. destruct kind as [k|]; cbn [or_else]; [|split; auto]. split; [intros ->; auto|]. intros [X|X]; [discriminate|now injection X]. }
  assert (forall vs, versify None (Some ver') (Some kind') (Some 0) = Ok vs -> receipt canon pre sn said ver kind = serder_new canon None None None (Some (receipt_of vs said pre h)) None) as RC.
  { intros vs V. unfold receipt. fold ver' kind'. rewrite V, bind_Ok, N1, bind_Ok, N2, bind_Ok. reflexivity. }
  assert (kind' <> s! "JSON" -> exists e, receipt canon pre sn said ver kind = Err e) as K1.
  { intros NK. unfold receipt. fold ver' kind'. unfold versify. cbn [or_else]. change (negb (has_code idents (s! "KERI"))) with false. cbv iota. unfold has_code, serials. cbn [existsb].
    destruct (beq kind' (s! "JSON")) eqn:B; [apply beq_eq in B; contradiction|]. eexists. reflexivity. }
  assert (kind' = s! "JSON" -> ver' <> Ver 1 0 -> exists e, receipt canon pre sn said ver kind = Err e) as K2.
  { intros EK' NV. rewrite EK' in RC. destruct (versify_json ver') as (vs & V).
    rewrite (RC vs V). destruct (sizeify_other vs [(s! "t", VStr (s! "rct")); (s! "d", VStr said); (s! "i", VStr pre); (s! "s", VStr h)] ver' V1 V2 NV V) as (e & Z). exists e.
    unfold serder_new. rewrite new_ked. unfold populate_from_ked, receipt_of. rewrite Z. reflexivity. }
  assert (kind' = s! "JSON" -> ver' = Ver 1 0 -> receipt canon pre sn said ver kind = serder_new canon None None None (Some (receipt_of (s! "KERI10JSON000000_") said pre h)) None) as K3.
  { intros EK' EV'. rewrite EK', EV' in RC. apply RC. vm_compute. reflexivity. }
  set (rest := [(s! "t", VStr (s! "rct")); (s! "d", VStr said); (s! "i", VStr pre); (s! "s", VStr h)]).
  assert (receipt_of (s! "KERI10JSON000000_") said pre h = VObj ((s! "v", VStr (s! "KERI10JSON000000_")) :: rest)) as ER by reflexivity.
  assert (data (VObj ((s! "v", VStr (s! "KERI10JSON000000_")) :: rest))) as DT by (rewrite <- ER; apply receipt_data; auto).
  assert (version_string (s! "KERI10JSON000000_") (s! "KERI") 1 0 0) as VS.
  { destruct (C51a_l (s! "KERI") 1 0 0 None) as (vs & A & _ & B & _); [auto|lia|lia|reflexivity|auto|]. vm_compute in A. injection A as <-. exact B. }
  pose proof (receipt_sized _ _ DT ltac:(rewrite <- ER; exact L32) VS) as Z. rewrite <- ER in Z.
  assert (forall d, exfil said = Ok d -> m_code d <> s! "E" -> exists e, serder_new canon None None None (Some (receipt_of (s! "KERI10JSON000000_") said pre h)) None = Err e) as K4.
  { intros d ED NC. unfold serder_new. rewrite new_ked. unfold populate_from_ked. rewrite Z. destruct (len (to_json (receipt_of (s! "KERI10JSON000000_") said pre h)) <? 2 ^ 24); [|eexists; reflexivity].
    rewrite bind_Ok. assert (field_of (z_ked (sized_of [] rest (s! "KERI"))) (s! "d") (VStr said)) as FD by (unfold sized_of; cbn [z_ked app]; apply field_assoc; reflexivity).
    apply index_field in FD. rewrite FD, bind_Ok. cbn [to_string]. rewrite bind_Ok. destruct (said_of_qb64 said) as [d'|e|] eqn:S.
    - rewrite bind_Ok. apply said_text in S as (S & _). rewrite ED in S. injection S as <-. cbn [or_else]. destruct (beq (s! "E") (m_code d)) eqn:B; [apply beq_eq in B; congruence|]. eexists. reflexivity.
    - exists e. reflexivity.
    - apply said_panic in S. congruence. }
  assert (forall s, serder_new canon None None None (Some (receipt_of (s! "KERI10JSON000000_") said pre h)) None = Ok s -> len (to_json (receipt_of (s! "KERI10JSON000000_") said pre h)) < 2 ^ 24) as K5.
  { intros s S. unfold serder_new in S. rewrite new_ked in S. unfold populate_from_ked in S. rewrite Z in S. destruct (len (to_json (receipt_of (s! "KERI10JSON000000_") said pre h)) <? 2 ^ 24) eqn:Q; [now apply N.ltb_lt|discriminate S]. }
  assert (forall s, serder_new canon None None None (Some (receipt_of (s! "KERI10JSON000000_") said pre h)) None = Ok s -> exfil said = Ok (d_saider s) /\ m_code (d_saider s) = s! "E") as K6.
  { intros s S. unfold serder_new in S. rewrite new_ked in S. apply bind_ok in S as (s' & P & S). destruct (negb (beq (d_ident s') (s! "KERI"))); [discriminate S|]. assert (s' = s) as -> by congruence. clear S.
    destruct (ked_ok _ _ _ _ P) as (z & t & sa & Z' & F & SA & C & E). rewrite Z' in Z.
    assert (z = sized_of [] rest (s! "KERI")) as EZ by (destruct (len (to_json (receipt_of (s! "KERI10JSON000000_") said pre h)) <? 2 ^ 24); [congruence|discriminate Z]).
    rewrite EZ in F. unfold sized_of in F. cbn [z_ked app] in F. apply field_assoc in F. change (Some (VStr said) = Some (VStr t)) in F. assert (t = said) as -> by congruence.
    assert (d_saider s = sa) as -> by (now rewrite E). apply said_text in SA as (SA & _). auto. }
  assert (kind' = s! "JSON" /\ ver' = Ver 1 0 \/ ~ (kind' = s! "JSON" /\ ver' = Ver 1 0) /\ exists e, receipt canon pre sn said ver kind = Err e) as [(EK' & EV')|(NF & e & BAD)].
  { destruct (beq kind' (s! "JSON")) eqn:BK; [apply beq_eq in BK|right; split; [intros (X & _); rewrite X in BK; discriminate BK|apply K1; intros X; rewrite X in BK; discriminate BK]].
    destruct (N.eq_dec (v_major ver') 1); [destruct (N.eq_dec (v_minor ver') 0)|]; [left; split; auto; destruct ver'; cbn in *; congruence| |];
    right; (split; [intros (_ & X)|apply K2; auto; intros X]; rewrite X in *; cbn in *; congruence). }
  2: { rewrite BAD. assert (~ fits) as NFI by (unfold fits; rewrite <- EV, <- EK; tauto). split; [split; [intros (s & X); discriminate|tauto]|]. split; [split; [discriminate|tauto]|]. discriminate. }
  rewrite (K3 EK' EV'). clear K1 K2 K3 RC. assert (fits <-> len (to_json (receipt_of (s! "KERI10JSON000000_") said pre h)) < 2 ^ 24) as EF by (unfold fits; rewrite <- EV, <- EK; tauto).
  rewrite !EF. clear fits EF EV EK. split; [|split].
  - split.
    + intros (s & S). split; [eauto|]. exists (d_saider s). auto.
    + intros (L24 & d & ED & CD). rewrite ER in L24. destruct (C54_built_l canon None _ said _ _ rest d DT VS L24) as (s & vs' & S & _); auto.
      * apply field_assoc. reflexivity.
      * rewrite CD. now left.
      * exists s. rewrite ER. auto.
  - unfold serder_new. rewrite new_ked. unfold populate_from_ked. rewrite Z.
    destruct (len (to_json (receipt_of (s! "KERI10JSON000000_") said pre h)) <? 2 ^ 24) eqn:Q; [|split; [discriminate|]; intros (X & _); apply N.ltb_lt in X; rewrite X in Q; discriminate Q].
    apply N.ltb_lt in Q. rewrite bind_Ok. assert (field_of (z_ked (sized_of [] rest (s! "KERI"))) (s! "d") (VStr said)) as FD by (unfold sized_of; cbn [z_ked app]; apply field_assoc; reflexivity).
    apply index_field in FD. rewrite FD, bind_Ok. cbn [to_string]. rewrite bind_Ok. destruct (said_of_qb64 said) as [d'|e|] eqn:S.
    + apply said_text in S as (S & _). rewrite bind_Ok, S. split; [|intros (_ & X); discriminate X]. cbn [or_else]. destruct (negb _); [discriminate|]. rewrite bind_Ok. destruct (negb _); discriminate.
    + cbn [bind]. split; [discriminate|]. intros (_ & X). apply said_panic in X. congruence.
    + apply said_panic in S. split; auto.
  - intros s S. destruct (K6 _ S) as (ED & CD). pose proof (K5 _ S) as L24. rewrite ER in L24, S.
    destruct (C54_built_l canon None _ said _ _ rest _ DT VS L24 ltac:(apply field_assoc; reflexivity) ED CD ltac:(rewrite CD; now left)) as (s' & vs' & S' & _ & KE & VR & _).
    rewrite (S' eq_refl) in S. injection S as <-. specialize (S' eq_refl).
    assert (len (d_raw s') < 2 ^ 32) as LR.
    { destruct VR as (_ & a & b & hh & _ & _ & _ & HD & _ & _ & HV). apply hex_digits_forallb in HD as (HL & HF). rewrite <- HV. eapply N.lt_trans; [exact (hex6_le _ HL HF)|reflexivity]. }
    pose proof (C54_l serder_new canon None None None [] rest (s! "KERI10JSON000000_") [] None None None s' ltac:(cbn; auto) (fun H => H) ltac:(apply no_version_find; vm_compute; reflexivity) DT) as RT.
    split; [exists vs'; split; auto|]. 
    assert (nests 127 (VObj ([] ++ (s! "v", VStr (s! "KERI10JSON000000_")) :: rest))) as NS by (constructor; cbn [map snd rest app]; repeat (constructor; [constructor|]); constructor).
    specialize (RT NS S' LR eq_refl) as (RT & RJ & RL). split; auto.
    split; [unfold serder_sn, serder_sner; rewrite KE; change (index_str (VObj ((s! "v", VStr vs') :: rest)) (s! "s")) with (Ok (VStr h)); rewrite bind_Ok; cbn [to_string]; rewrite bind_Ok, N3, bind_Ok; exact NN|].
    split; [unfold serder_pre; rewrite KE; reflexivity|]. split; [unfold serder_est; rewrite KE; reflexivity|]. split; auto.
    intros c UC. apply (C54_l serder_new canon None None None [] rest (s! "KERI10JSON000000_") c None None None s' ltac:(cbn; auto) (fun H => H) ltac:(apply no_version_find; vm_compute; reflexivity) DT NS S' LR UC).
Qed.
