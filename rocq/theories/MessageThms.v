(** Exact statements about messages with attachments: C76, C77, C96. *)
From Coq Require Import String.
From Coq Require Import NArith ZArith Lia Bool List.
From Verif Require Import Base BaseFacts B64 B64Facts Util UtilFacts Tables Matter MatterFacts MatterThms Indexer IndexerFacts IndexerMore SpecIndexer IndexerThms Counter CounterFacts CounterThms
  Prims PrimsFacts PrimsThms Json JsonFacts Common CommonFacts SpecPrims SpecSadder Sadder Messaging Spec SpecMessaging MessagingThms SpecMessage.
Import ListNotations.
Open Scope N_scope.

Lemma texts_shown l ts : siger_texts l = Ok ts <-> shown l ts.
Proof.
  revert ts. induction l as [|(x, v) l IH]; intros ts; cbn [siger_texts].
  - split; [intros [= <-]; exists []; split; [constructor|reflexivity]|]. intros (us & F & ->). inversion F; subst. reflexivity.
  - split.
    + intros H. apply bind_ok in H as (t & T & H). apply bind_ok in H as (us & U & H). injection H as <-. apply IH in U as (ls & F & ->). exists (t :: ls). split; [constructor; auto|reflexivity].
    + intros (us & F & ->). inversion F as [|? u ? ls U F']; subst. cbn [fst] in U. rewrite U, bind_Ok. rewrite (proj2 (IH (concat ls))) by (exists ls; auto). reflexivity.
Qed.
Lemma texts_stumble l : siger_texts l = Panic <-> stumbles l.
Proof.
  induction l as [|(x, v) l IH]; cbn [siger_texts].
  - split; [discriminate|]. intros (a & p & b & ts & E & _). destruct a; discriminate.
  - destruct (iinfil x) as [t|e|] eqn:X; cbn [bind].
    + assert ((let* ts := siger_texts l in Ok (t ++ ts)) = Panic <-> siger_texts l = Panic) as -> by (destruct (siger_texts l); cbn [bind]; split; congruence). rewrite IH. split.
      * intros (a & p & b & ts & -> & (us & F & ->) & P). exists ((x, v) :: a), p, b, (concat (t :: us)). split; auto. split; auto. exists (t :: us). split; auto.
      * intros (a & p & b & ts & E & (us & F & ->) & P). destruct a as [|q a]; injection E as E1 E2.
        -- subst p. cbn [fst] in P. congruence.
        -- subst. inversion F as [|? u ? ls U F']; subst. exists a, p, b, (concat ls). split; auto. split; auto. exists ls. auto.
    + split; [discriminate|]. intros (a & p & b & ts & E & (us & F & _) & P). destruct a as [|q a]; injection E as E1 E2; subst; [cbn [fst] in P; congruence|]. inversion F as [|? u ? ls U F']; subst. cbn [fst] in U. congruence.
    + split; auto. intros _. exists [], (x, v), l, []. split; auto. split; auto. exists []. split; [constructor|reflexivity].
Qed.
Lemma group_exact code l : In code attach_codes -> (forall g, siger_group code l = Ok g <-> group_text code l g) /\ (siger_group code l = Panic <-> announced_number l < 4096 /\ stumbles l).
Proof.
  intros I. unfold siger_group. rewrite (attach_count _ _ I). change (as_u32 (len l)) with (announced_number l). destruct (4096 <=? announced_number l) eqn:B; cbn [bind].
  - split; [|split; [discriminate|lia]]. intros g. split; [discriminate|]. intros (cs & ts & L & E & _). rewrite number_b64val in E. apply b64val_lt in E. rewrite L in E. change (64 ^ 2) with 4096 in E. lia.
  - destruct (attach_wf code (announced_number l) I ltac:(lia)) as (z & W & S). rewrite (cinfil_wf _ _ W), bind_Ok. assert (ss z = 2) as SZ.
    { destruct W as (W & _). cbn [c_code] in W. cbn in I. destruct I as [<-|[<-|[]]]; vm_compute in W; injection W as <-; reflexivity. }
    unfold ctext. rewrite SZ. cbn [c_code c_count]. change (N.to_nat 2) with 2%nat. split.
    + intros g. split.
      * intros H. apply bind_ok in H as (ts & T & H). injection H as <-. exists (b64_digits 2 (announced_number l)), ts. split; [now rewrite len_b64_digits|]. split.
        -- rewrite number_b64val, b64val_digits. f_equal. apply N.mod_small. change (64 ^ N.of_nat 2) with 4096. lia.
        -- split; [now apply texts_shown|]. now rewrite <- app_assoc.
      * intros (cs & ts & L & E & T & ->). apply texts_shown in T. rewrite T, bind_Ok. rewrite number_b64val in E. assert (length cs = 2%nat) as L2 by (unfold len in L; lia). pose proof (b64_digits_val _ _ E) as D. rewrite L2 in D. rewrite D, <- app_assoc. reflexivity.
    + rewrite <- texts_stumble. assert (announced_number l < 4096) by lia. destruct (siger_texts l); cbn [bind]; split; (congruence || tauto || (intros (_ & X); congruence)).
Qed.
Lemma seal_sn_exact z q : seal_sn z = Ok q <-> exists n m, hex_reading (sl_s z) n /\ n < 2 ^ 128 /\ seqner_new (Some n) None None None None None None = Ok m /\ infil m = Ok q.
Proof.
  unfold seal_sn. assert (sl_s z = [] \/ sl_s z <> []) as [E|NE] by (destruct (sl_s z); [now left|right; discriminate]).
  - rewrite E. split; [intros H; vm_compute in H; discriminate|]. intros (n & m & H & _). exfalso. destruct H as (sg & d & H & _ & D & _). symmetry in H. apply app_eq_nil in H as (_ & ->). congruence.
  - split.
    + intros H. apply bind_ok in H as (m & M & H). apply (proj2 (C36b_l _ m NE)) in M as (n & R & L & M). exists n, m. auto.
    + intros (n & m & R & L & M & Q). rewrite (proj2 (proj2 (C36b_l _ m NE))) by eauto. exact Q.
Qed.
Lemma seal_sn_np z : seal_sn z <> Panic.
Proof.
  unfold seal_sn. unfold seqner_new. cbn [is_none andb or_else]. destruct (u128_from_hex (sl_s z)) as [n| |] eqn:U.
  - assert (n <= u128_max) as L by (unfold u128_from_hex in U; destruct (match sl_s z with x2b :: r => r | _ => sl_s z end); [discriminate|]; destruct (hex_val _ _) as [k|]; [|discriminate]; destruct (k <=? u128_max) eqn:K; [injection U as <-; lia|discriminate]).
    destruct (seqner_new_spec n L) as (E & W & _). unfold seqner_new in E. cbn [is_none andb or_else] in E. rewrite !bind_Ok in E. rewrite !bind_Ok. rewrite E, bind_Ok. destruct (wf_forms _ W) as (zz & _ & _ & I & _). rewrite I. discriminate.
  - discriminate.
  - exfalso. revert U. unfold u128_from_hex. destruct (match sl_s z with x2b :: r => r | _ => sl_s z end); [discriminate|]. destruct (hex_val _ _) as [k|]; [|discriminate]. destruct (k <=? u128_max); discriminate.
Qed.
Lemma header_exact z : (forall h, seal_header z = Ok h <-> header_text z h) /\ seal_header z <> Panic.
Proof.
  assert (counter_of_code_count (s! "-H") 1 = Ok (Ct (s! "-H") 1)) as H1 by (vm_compute; reflexivity). assert (cinfil (Ct (s! "-H") 1) = Ok (s! "-HAB")) as H2 by (vm_compute; reflexivity).
  assert (counter_of_code_count (s! "-F") 1 = Ok (Ct (s! "-F") 1)) as F1 by (vm_compute; reflexivity). assert (cinfil (Ct (s! "-F") 1) = Ok (s! "-FAB")) as F2 by (vm_compute; reflexivity).
  unfold seal_header, header_text. rewrite H1, F1, !bind_Ok, H2, F2, !bind_Ok. pose proof (seal_sn_np z) as NP. destruct (sl_last z).
  - split; [|discriminate]. intros h. split; [intros [= <-]; reflexivity|intros ->; reflexivity].
  - split; [|destruct (seal_sn z); [discriminate|discriminate|contradiction]]. intros h. split.
    + intros H. apply bind_ok in H as (q & Q & H). injection H as <-. apply seal_sn_exact in Q as (n & m & A & B & C & D). exists n, m, q. auto 6.
    + intros (n & m & q & A & B & C & D & ->). rewrite (proj2 (seal_sn_exact z q)) by eauto 6. reflexivity.
Qed.

(*# C76_messages_exactly
   The outcome of making a message, for events, signatures and seals in any state: exactly when there is a message and what it is, and exactly when making it panics, which
   is when a signature that cannot be printed is reached. A list is announced by its length in 32 bits, which must fit two characters. The signatures that are not indexed
   are only looked at for whether there are any, and the seal only if there are signatures of the controller.
##
Example C76_exactly_case : exists p, made p /\ shown [p] (s! "ABAA" ++ repeat x41 84) /\ group_text (s! "-A") [p] (s! "-AABABAA" ++ repeat x41 84) /\
  messagize (Sd [] (s! "{}") VNull [] [] 0 current_version (Mt [] 0 [])) (Some [p]) None None None = Ok (s! "{}-AABABAA" ++ repeat x41 84) /\
  stumbles [p; (Ix (s! "1z") [] 5 6, Mt [] 0 [])] /\ messagize (Sd [] (s! "{}") VNull [] [] 0 current_version (Mt [] 0 [])) None None (Some [p; (Ix (s! "1z") [] 5 6, Mt [] 0 [])]) None = Panic.
Proof.
  eexists. split; [exists None, (Some 1), None, (Some (s! "A")), (Some (repeat x00 64)), None, None, None; vm_compute; reflexivity|].
  split; [exists [s! "ABAA" ++ repeat x41 84]; split; [constructor; [vm_compute; reflexivity|constructor]|vm_compute; reflexivity]|].
  split; [exists (s! "AB"), (s! "ABAA" ++ repeat x41 84); split; [reflexivity|]; split; [reflexivity|]; split; [|reflexivity];
    exists [s! "ABAA" ++ repeat x41 84]; split; [constructor; [vm_compute; reflexivity|constructor]|vm_compute; reflexivity]|].
  split; [vm_compute; reflexivity|]. split; [|vm_compute; reflexivity].
  eexists [_], (Ix (s! "1z") [] 5 6, Mt [] 0 []), [], (s! "ABAA" ++ repeat x41 84). split; [reflexivity|]. split; [|vm_compute; reflexivity].
  exists [s! "ABAA" ++ repeat x41 84]; split; [constructor; [vm_compute; reflexivity|constructor]|vm_compute; reflexivity].
Qed.
#*)
Lemma C76_exactly_l (s : sadder) (sigers wigers : option (list (indexer * matter))) (z : option seal) (cigars : option (list (matter * matter))) :
  (forall t, messagize s sigers z wigers cigars = Ok t <->
    utf8 (d_raw s) = true /\ ~ (sigers = None /\ wigers = None /\ cigars = None) /\ exists a b, controller_text sigers z a /\ witness_text wigers b /\ t = d_raw s ++ a ++ b) /\
  (messagize s sigers z wigers cigars = Panic <->
    utf8 (d_raw s) = true /\
    ((exists l, sigers = Some l /\ (forall y, z = Some y -> exists h, header_text y h) /\ announced_number l < 4096 /\ stumbles l) \/
     ((exists a, controller_text sigers z a) /\ exists l, wigers = Some l /\ announced_number l < 4096 /\ stumbles l))).
Proof.
  unfold messagize. rewrite from_utf8_eq. destruct (utf8 (d_raw s)) eqn:U; cbn [bind]; [|split; [intros t|]; (split; [discriminate|intros (X & _); discriminate])].
  assert ((forall a, match sigers with Some l => let* h := match z with Some y => seal_header y | None => Ok [] end in let* g := siger_group (s! "-A") l in Ok (h ++ g) | None => Ok [] end = Ok a <-> controller_text sigers z a) /\
    (match sigers with Some l => let* h := match z with Some y => seal_header y | None => Ok [] end in let* g := siger_group (s! "-A") l in Ok (h ++ g) | None => Ok [] end = Panic <->
      exists l, sigers = Some l /\ (forall y, z = Some y -> exists h, header_text y h) /\ announced_number l < 4096 /\ stumbles l)) as (A1 & A2).
  { destruct sigers as [l|]; cbn [controller_text]; [|split; [intros a; split; congruence|split; [discriminate|intros (l & X & _); discriminate]]].
    destruct (group_exact (s! "-A") l ltac:(cbn; tauto)) as (G1 & G2). destruct z as [y|].
    - destruct (header_exact y) as (H1 & H2). destruct (seal_header y) as [h|e|] eqn:E; [|cbn [bind]|contradiction].
      + rewrite bind_Ok. split.
        * intros a. split.
          -- intros X. apply bind_ok in X as (g & G & X). injection X as <-. exists h, g. split; [now apply H1|]. split; [now apply G1|reflexivity].
          -- intros (h' & g & X & Y & ->). apply H1 in X. injection X as <-. apply G1 in Y. rewrite Y. reflexivity.
        * assert ((let* g := siger_group (s! "-A") l in Ok (h ++ g)) = Panic <-> siger_group (s! "-A") l = Panic) as -> by (destruct (siger_group (s! "-A") l); cbn [bind]; split; congruence).
          rewrite G2. split; [intros (X & Y); exists l; split; auto; split; auto; intros y' [= <-]; exists h; now apply H1|intros (l' & [= <-] & _ & X); exact X].
      + split; [intros a; split; [discriminate|intros (h & g & X & _); apply H1 in X; discriminate]|]. split; [discriminate|]. intros (l' & _ & X & _). destruct (X y eq_refl) as (h & Y). apply H1 in Y. discriminate.
    - rewrite bind_Ok. split.
      + intros a. split.
        * intros X. apply bind_ok in X as (g & G & X). injection X as <-. exists [], g. split; auto. split; [now apply G1|reflexivity].
        * intros (h' & g & -> & Y & ->). apply G1 in Y. rewrite Y. reflexivity.
      + assert ((let* g := siger_group (s! "-A") l in Ok ([] ++ g)) = Panic <-> siger_group (s! "-A") l = Panic) as -> by (destruct (siger_group (s! "-A") l); cbn [bind]; split; congruence).
        rewrite G2. split; [intros (X & Y); exists l; split; auto; split; auto; intros y' Y'; discriminate|intros (l' & [= <-] & _ & X); exact X]. }
  assert ((forall b, match wigers with Some l => siger_group (s! "-B") l | None => Ok [] end = Ok b <-> witness_text wigers b) /\
    (match wigers with Some l => siger_group (s! "-B") l | None => Ok [] end = Panic <-> exists l, wigers = Some l /\ announced_number l < 4096 /\ stumbles l)) as (B1 & B2).
  { destruct wigers as [l|]; cbn [witness_text]; [|split; [intros a; split; congruence|split; [discriminate|intros (l & X & _); discriminate]]].
    destruct (group_exact (s! "-B") l ltac:(cbn; tauto)) as (G1 & G2). split; [exact G1|]. rewrite G2. split; [intros X; exists l; auto|intros (l' & [= <-] & X); exact X]. }
  destruct (is_none sigers && is_none wigers && is_none cigars) eqn:P.
  - assert (sigers = None /\ wigers = None /\ cigars = None) as (-> & -> & ->) by (destruct sigers, wigers, cigars; try discriminate; auto). split; [intros t; split; [discriminate|intros (_ & X & _); exfalso; now apply X]|].
    split; [discriminate|]. intros (_ & [(l & X & _)|(_ & l & X & _)]); discriminate.
  - assert (~ (sigers = None /\ wigers = None /\ cigars = None)) as NN by (intros (-> & -> & ->); discriminate). clear P. revert A1 A2 B1 B2.
    generalize (match sigers with Some l => let* h := match z with Some y => seal_header y | None => Ok [] end in let* g := siger_group (s! "-A") l in Ok (h ++ g) | None => Ok [] end). intros ra A1 A2.
    generalize (match wigers with Some l => siger_group (s! "-B") l | None => Ok [] end). intros rb B1 B2. split.
    + intros t. split.
      * intros X. apply bind_ok in X as (a & A & X). apply bind_ok in X as (b & B & X). injection X as <-. split; auto. split; auto. exists a, b. split; [now apply A1|]. split; [now apply B1|reflexivity].
      * intros (_ & _ & a & b & A & B & ->). apply A1 in A. apply B1 in B. rewrite A, B. reflexivity.
    + rewrite <- A2. rewrite <- B2. destruct ra as [a|e|]; cbn [bind].
      * assert (exists a, controller_text sigers z a) as C by (exists a; now apply A1). destruct rb; cbn [bind]; split; try congruence; [intros (_ & [X|(_ & X)]); congruence..|]. intros _. split; auto.
      * split; [discriminate|]. intros (_ & [X|((a & C) & _)]); [discriminate|]. apply A1 in C. discriminate.
      * split; auto.
Qed.
