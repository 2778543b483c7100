(** Exact statements about sizing, reading and building events: C52, C55, C57. *)
From Coq Require Import String.
From Coq Require Import NArith ZArith Lia Bool List.
From Verif Require Import Base BaseFacts Tables Matter MatterFacts MatterText MatterMore MatterThms Prims PrimsFacts PrimsThms Json JsonFacts JsonThms Common CommonFacts CommonThms
  Saider SaiderFacts SaiderThms Diger Tholder Sadder SadderFacts SadderThms Spec SpecPrims SpecJson SpecCommon SpecSaider SpecSadder SpecAccept.
Import ListNotations.
Open Scope N_scope.

(** ** Sizing *)
Lemma first_find t fore old back : first_version t fore old back <-> t = fore ++ old ++ back /\ len old = 17 /\ find_rever t = Some (len fore).
Proof.
  split.
  - intros (E & V & F). apply version_like_rever in V as (L & V). split; auto. split; auto. destruct (find_rever_le fore old back V) as (i & I & LI). rewrite <- E in I. rewrite I. f_equal.
    destruct (find_rever_some _ _ I) as (p & m & r & E' & LP & LM & RM). specialize (F p m r E'). assert (version_like m) as VM by (apply version_like_rever; auto). specialize (F VM). lia.
  - intros (E & L & F). split; auto. destruct (find_rever_some _ _ F) as (p & m & r & E' & LP & LM & RM). assert (old = m) as ->.
    { rewrite E in E'. apply app_eq_len in E' as (_ & E'); [|auto]. apply app_eq_len in E' as (E' & _); [auto|lia]. }
    split; [now apply version_like_rever|]. intros q m' r' E2 V. apply version_like_rever in V as (_ & V). destruct (find_rever_le q m' r' V) as (i & I & LI). rewrite <- E2, F in I. injection I as <-. lia.
Qed.
Lemma sizeify_any m1 vs m2 kind proto n : ~ In (s! "v") (map fst m1) -> version_string vs proto 1 0 n ->
  sizeify (VObj (m1 ++ (s! "v", VStr vs) :: m2)) kind =
  let raw := to_json (VObj (m1 ++ (s! "v", VStr vs) :: m2)) in
  if negb (knd kind) then Err EValue
  else if negb (utf8 raw) then Err EForeign
  else match find_rever raw with
       | None => Err EValue
       | Some i =>
         if 12 <? i then Err EValue
         else if as_u32 (len raw) <? 2 ^ 24 then Ok (Sz (take i raw ++ vtext proto (as_u32 (len raw)) ++ drop (i + 17) raw) proto (s! "JSON") (VObj (m1 ++ (s! "v", VStr (vtext proto (as_u32 (len raw)))) :: m2)) (Ver 1 0)) else Err EValue
       end.
Proof.
  intros N V. unfold sizeify. cbn [to_map]. rewrite bind_Ok. unfold contains_key. rewrite assoc_at by auto. cbn [negb].
  cbn [index_str]. rewrite assoc_at by auto. rewrite bind_Ok. cbn [to_string]. rewrite bind_Ok.
  assert (deversify vs = Ok (Vi proto (s! "JSON") (Ver 1 0) n)) as -> by (apply deversify_ok; split; auto). rewrite bind_Ok.
  cbn [vi_version vi_kind vi_ident]. change (version_eqb (Ver 1 0) current_version) with true. cbn [negb]. fold (knd kind). destruct (knd kind) eqn:K; [|reflexivity]. cbn [negb].
  rewrite (knd_json _ K). unfold dumps. cbn [or_else]. rewrite beq_refl. rewrite bind_Ok. cbv zeta.
  set (raw := to_json (VObj (m1 ++ (s! "v", VStr vs) :: m2))). unfold from_utf8. destruct (utf8 raw); [|reflexivity]. cbn [negb]. rewrite bind_Ok.
  destruct (find_rever raw) as [i|] eqn:F; [|reflexivity]. pose proof (find_rever_len _ _ F) as L. destruct (12 <? i); [reflexivity|].
  rewrite slice_bytes_in by lia. rewrite bind_Ok. rewrite from_bytes_in by lia. rewrite bind_Ok. rewrite N.sub_0_r, drop_0.
  assert (In proto idents) as IP by (apply idents_or; apply V). rewrite versify_eq by auto. rewrite bind_Ok. fold (vtext proto (as_u32 (len raw))).
  pose proof (vtext_len proto (as_u32 (len raw)) IP (as_u32_le _)) as LE. set (VT := vtext proto (as_u32 (len raw))) in *.
  rewrite !len_app, len_take, len_drop. replace (N.min i (len raw) + (len VT + (len raw - (i + 17))) =? len raw) with (len VT =? 17) by (destruct (len VT =? 17) eqn:X; lia).
  rewrite LE. destruct (as_u32 _ <? 2 ^ 24); [|reflexivity]. cbn [negb set_str]. rewrite bind_Ok. rewrite insert_at by auto. reflexivity.
Qed.
Lemma splice (raw p m t : bytes) : raw = p ++ m ++ t -> len m = 17 -> take (len p) raw = p /\ drop (len p + 17) raw = t.
Proof. intros -> L. split; [now apply take_app_exact|]. rewrite app_assoc. apply drop_app_exact. rewrite len_app. lia. Qed.
(*# C52_sizing_exactly
   The outcome of sizing any data: exactly when they are sized, and to what. The first text in their JSON that looks like a version string, wherever it is, is overwritten
   in the raw bytes, while in the data the field v is replaced; the size is that of the JSON modulo 2^32. In every other case sizing is an error; it never panics.
##
Example C52_exactly_case : exists z, sizeify (VObj [(s! "d", VStr (s! "KERI10JSON000000_")); (s! "v", VStr (s! "KERI10JSON000000_"))]) None = Ok z /\
  first_version (to_json (VObj [(s! "d", VStr (s! "KERI10JSON000000_")); (s! "v", VStr (s! "KERI10JSON000000_"))])) (s! "{""d"":""") (s! "KERI10JSON000000_") (s! """,""v"":""KERI10JSON000000_""}").
Proof. eexists. split; [vm_compute; reflexivity|]. apply first_find. repeat split. Qed.
#*)
Lemma C52_exactly_l (ked : value) (kind : option bytes) : (forall z, sizeify ked kind = Ok z <-> sizes_to ked kind z) /\ sizeify ked kind <> Panic.
Proof.
  split; [|apply sizeify_np]. intros z. split.
  - intros H. destruct (sizeify_shape _ _ _ H) as (m1 & vs & m2 & proto & n & -> & NI & V). rewrite (sizeify_any _ _ _ _ _ _ NI V) in H. cbv zeta in H.
    unfold sizes_to. remember (to_json (VObj (m1 ++ (s! "v", VStr vs) :: m2))) as raw eqn:RW.
    destruct (knd kind) eqn:K; [|discriminate]. cbn [negb] in H. destruct (utf8 _) eqn:U; [|discriminate]. cbn [negb] in H. destruct (find_rever _) as [i|] eqn:F; [|discriminate].
    destruct (12 <? i) eqn:I; [discriminate|]. destruct (as_u32 _ <? 2 ^ 24) eqn:S; [|discriminate]. injection H as <-.
    pose proof (find_rever_some _ _ F) as (p & m & t & E & LP & LM & RM). assert (In proto idents) as IP by (apply idents_or; apply V).
    exists m1, vs, m2, proto, n, (vtext proto (as_u32 (len raw))), p, m, t. split; auto. split; auto. split; auto.
    split. { unfold knd in K. apply has_code_in in K. destruct K as [K|[]]. destruct kind as [k|]; [right; cbn [or_else] in K; congruence|now left]. }
    split; auto. split; [apply first_find; rewrite LP; auto|]. split; [lia|]. split; [apply vtext_string; [auto|now apply N.ltb_lt]|].
    subst i. destruct (splice _ _ _ _ E LM) as (-> & ->). reflexivity.
  - intros (m1 & vs & m2 & proto & n & vs' & fore & old & back & -> & NI & V & K & U & F & L & V' & ->). rewrite (sizeify_any _ _ _ _ _ _ NI V). cbv zeta.
    assert (knd kind = true) as -> by (destruct K as [-> | ->]; reflexivity). rewrite U. cbn [negb]. apply first_find in F as (E & LO & F). rewrite F. replace (12 <? len fore) with false by lia.
    pose proof (version_string_bounds _ _ _ _ _ V') as (_ & _ & B). change (len (to_json (VObj (m1 ++ (s! "v", VStr vs) :: m2))) mod 2 ^ 32) with (as_u32 (len (to_json (VObj (m1 ++ (s! "v", VStr vs) :: m2))))) in *.
    apply N.ltb_lt in B. rewrite B. apply N.ltb_lt in B. assert (In proto idents) as IP by (apply idents_or; apply V). pose proof (vtext_string proto _ IP B) as VT. rewrite <- (version_string_unique _ _ _ _ _ _ V' VT).
    destruct (splice _ _ _ _ E LO) as (-> & ->). reflexivity.
Qed.

(** ** Constructors *)
Lemma gate new only : In (new, only) protocols -> exists ok : bytes -> bool, (forall proto, ok proto = true <-> agrees only proto) /\
  forall canon code raw kind ked sad, (forall s, new canon code raw kind ked sad = Ok s <-> sadder_new canon code raw kind ked sad = Ok s /\ ok (d_ident s) = true) /\
    (new canon code raw kind ked sad = Panic <-> sadder_new canon code raw kind ked sad = Panic).
Proof.
  intros [E|[E|[E|[]]]]; injection E as <- <-.
  - exists (fun _ => true). split; [intros; split; auto; intros _ p [=]|]. intros. split; [intros; split; [auto|intros (X & _); exact X]|tauto].
  - exists (fun p => beq p (s! "KERI")). split.
    { intros proto. split; [intros B p [= <-]; now apply beq_eq|intros A; rewrite (A _ eq_refl); apply beq_refl]. }
    intros. unfold serder_new. change (sadder_new canon (Some (or_else code (s! "E"))) raw kind ked sad) with (sadder_new canon code raw kind ked sad).
    destruct (sadder_new canon code raw kind ked sad) as [s| |]; cbn [bind]; [|split; [intros; split; [discriminate|intros ([=] & _)]|split; discriminate]|split; [intros; split; [discriminate|intros ([=] & _)]|tauto]].
    destruct (beq (d_ident s) (s! "KERI")) eqn:B; cbn [negb]; (split; [intros s'; split; [|intros ([= <-] & X)]|split; discriminate]); try congruence; try discriminate. intros [= <-]. auto.
  - exists (fun p => beq p (s! "ACDC")). split.
    { intros proto. split; [intros B p [= <-]; now apply beq_eq|intros A; rewrite (A _ eq_refl); apply beq_refl]. }
    intros. unfold creder_new. change (sadder_new canon (Some (or_else code (s! "E"))) raw kind ked sad) with (sadder_new canon code raw kind ked sad).
    destruct (sadder_new canon code raw kind ked sad) as [s| |]; cbn [bind]; [|split; [intros; split; [discriminate|intros ([=] & _)]|split; discriminate]|split; [intros; split; [discriminate|intros ([=] & _)]|tauto]].
    destruct (beq (d_ident s) (s! "ACDC")) eqn:B; cbn [negb]; (split; [intros s'; split; [|intros ([= <-] & X)]|split; discriminate]); try congruence; try discriminate. intros [= <-]. auto.
Qed.
Lemma said_digest c : In c said_codes <-> In c (map fst digest_sizes).
Proof. split; intros I; cbn in I |- *; intuition. Qed.
Lemma named v code d : names_digest v code d <-> exists t, field_of v (s! "d") (VStr t) /\ said_of_qb64 t = Ok d /\ m_code d = or_else code (s! "E").
Proof.
  unfold names_digest. split.
  - intros (t & F & E & C & I). exists t. split; auto. split; [apply said_text; rewrite said_digest; auto|exact C].
  - intros (t & F & S & C). apply said_text in S as (E & I). rewrite said_digest in I. exists t. auto.
Qed.
(*# C57_reading_exactly
   Exactly which bytes each constructor accepts, and the event made of them: the bytes announce the protocol and a number of bytes, those are there, are text and parse as
   JSON data that the loader can represent, and the field d of the data holds the text of a digest of the code asked for. Nothing else is checked.
##
Example C57_reading_case : exists s, serder_new (fun _ => None) None (Some (s! "{""v"":""KERI10JSON00004c_"",""d"":""EAAAAAAAAAAAAAAAAAAAAAAAAAAAAAAAAAAAAAAAAAAA""}-AAB")) None None None = Ok s /\
  names_digest (d_ked s) None (Mt (s! "E") 0 (zeros 32)) /\ creder_new (fun _ => None) None (Some (d_raw s)) None None None = Err EValue.
Proof.
  eexists. split; [vm_compute; reflexivity|]. split; [|vm_compute; reflexivity]. eexists. split; [eexists [_], []; split; [reflexivity|intros [X|[]]; discriminate]|].
  split; [vm_compute; reflexivity|]. split; [reflexivity|now left].
Qed.
#*)
Lemma C57_reading_l (new : constructor) (only : option bytes) (canon : bytes -> option bytes) (code kind : option bytes) (raw : bytes) (ked : option value) (sad : option sadder) (s : sadder) :
  In (new, only) protocols ->
  (new canon code (Some raw) kind ked sad = Ok s <->
   exists proto n v d, announces raw proto n /\ agrees only proto /\ n <= len raw /\ utf8 (take n raw) = true /\ value_of_text canon (take n raw) = Ok v /\ names_digest v code d /\
     s = Sd (m_code d) (take n raw) v proto (s! "JSON") n (Ver 1 0) d).
Proof.
  intros I. destruct (gate _ _ I) as (ok & A & G). destruct (G canon code (Some raw) kind ked sad) as (-> & _). rewrite new_raw. split.
  - intros (H & O). destruct (raw_ok _ _ _ _ H) as (proto & n & t & sa & AN & N & U & V & F & SA & CO & E). exists proto, n, (d_ked s), sa. split; auto. split; [apply A; rewrite E in O; exact O|].
    split; auto. split; auto. split; auto. split; [apply named; eauto|]. rewrite CO. exact E.
  - intros (proto & n & v & d & AN & AG & N & U & V & D & ->). apply named in D as (t & F & SA & CO). rewrite (raw_intro canon _ raw v proto n t d) by auto. cbn [d_ident]. split; [now rewrite CO|now apply A].
Qed.
(*# C57_building_exactly
   Exactly which data each constructor accepts, and the event made of them: the data are sized (see C52_sizing_exactly), are of the right protocol, and the field d holds the
   text of a digest of the code asked for. It panics exactly if the data are sized but there is no field d, or its text makes parsing panic. Without bytes and data
   the given event is returned if it is of the right protocol.
##
Example C57_building_case : exists s, creder_new (fun _ => None) None None None (Some (VObj [(s! "v", VStr (s! "ACDC10JSON000000_")); (s! "d", VStr (s! "EAAAAAAAAAAAAAAAAAAAAAAAAAAAAAAAAAAAAAAAAAAA"))])) None = Ok s /\
  creder_new (fun _ => None) None None None (Some (VObj [(s! "v", VStr (s! "ACDC10JSON000000_"))])) None = Panic /\ digest_breaks (VObj [(s! "v", VStr (s! "ACDC10JSON000000_"))]) /\
  sadder_new (fun _ => None) None None None None (Some s) = Ok s /\ serder_new (fun _ => None) None None None None (Some s) = Err EValidation.
Proof.
  eexists. split; [vm_compute; reflexivity|]. split; [vm_compute; reflexivity|]. split; [|split; vm_compute; reflexivity]. left. intros x (m1 & m2 & E & _).
  destruct m1 as [|p [|q m1]]; try discriminate E. 
Qed.
#*)
Lemma C57_building_l (new : constructor) (only : option bytes) (canon : bytes -> option bytes) (code kind : option bytes) (ked : value) (sad : option sadder) :
  In (new, only) protocols ->
  (forall s, new canon code None kind (Some ked) sad = Ok s <->
     exists z d, sizeify ked kind = Ok z /\ agrees only (z_ident z) /\ names_digest ked code d /\ s = Sd (m_code d) (z_raw z) (z_ked z) (z_ident z) (s! "JSON") (len (z_raw z) mod 2 ^ 32) (Ver 1 0) d) /\
  (new canon code None kind (Some ked) sad = Panic <-> (exists z, sizeify ked kind = Ok z) /\ digest_breaks ked) /\
  (forall s, new canon code None kind None sad = Ok s <-> sad = Some s /\ agrees only (d_ident s)) /\ new canon code None kind None sad <> Panic.
Proof.
  intros I. destruct (gate _ _ I) as (ok & A & G). split; [|split; [|split]].
  - intros s. destruct (G canon code None kind (Some ked) sad) as (-> & _). rewrite new_ked. split.
    + intros (H & O). destruct (ked_ok _ _ _ _ H) as (z & t & sa & Z & F & SA & CO & E). exists z, sa. split; auto. split; [apply A; rewrite E in O; exact O|].
      apply C52_exactly_l in Z as (m1 & vs & m2 & proto & n & vs' & fo & old & ba & -> & NI & V & K & U & FV & L & V' & ->). cbn [z_ked z_raw z_ident z_kind z_version] in *.
      split; [|rewrite CO; exact E]. apply named. exists t. split; auto. apply field_assoc in F. apply field_assoc. rewrite assoc_app in F |- *. exact F.
    + intros (z & d & Z & AG & D & ->). cbn [d_ident]. split; [|now apply A]. unfold populate_from_ked. rewrite Z, bind_Ok. apply named in D as (t & F & SA & CO).
      apply C52_exactly_l in Z as (m1 & vs & m2 & proto & n & vs' & fo & old & ba & -> & NI & V & K & U & FV & L & V' & ->). cbn [z_ked z_raw z_ident z_kind z_version] in *.
      assert (index_str (VObj (m1 ++ (s! "v", VStr vs') :: m2)) (s! "d") = Ok (VStr t)) as ->.
      { apply index_field. apply field_assoc in F. apply field_assoc. rewrite assoc_app in F |- *. exact F. }
      rewrite bind_Ok. cbn [to_string]. rewrite bind_Ok, SA, bind_Ok, CO, beq_refl. reflexivity.
  - destruct (G canon code None kind (Some ked) sad) as (_ & ->). rewrite new_ked. unfold populate_from_ked. destruct (sizeify ked kind) as [z| |] eqn:Z; [|split; [discriminate|intros ((z & X) & _); discriminate]|now apply sizeify_np in Z].
    rewrite bind_Ok. assert (index_str (z_ked z) (s! "d") = index_str ked (s! "d")) as ->.
    { apply C52_exactly_l in Z as (m1 & vs & m2 & proto & n & vs' & fo & old & ba & -> & NI & V & K & U & FV & L & V' & ->). cbn [z_ked index_str]. rewrite !assoc_app. reflexivity. }
    unfold digest_breaks. destruct (index_str ked (s! "d")) as [x| |] eqn:D.
    + pose proof (proj1 (index_field _ _ _) D) as F. rewrite bind_Ok. destruct x as [| | | |t| |]; cbn [to_string bind];
        try (split; [discriminate|intros (_ & [X|(u & X & _)]); [apply index_lacks in X; congruence|apply index_field in X; congruence]]).
      split.
      * intros H. split; [eauto|]. right. exists t. split; auto. apply said_panic. destruct (said_of_qb64 t) as [sa| |]; [|discriminate|reflexivity]. cbn [bind] in H. destruct (negb _); discriminate.
      * intros (_ & [X|(u & X & P)]); [apply index_lacks in X; congruence|]. apply index_field in X. rewrite D in X. injection X as <-. apply said_panic in P. now rewrite P.
    + exfalso. unfold index_str in D. destruct ked; try discriminate. destruct (assoc _ _); discriminate.
    + split; [|reflexivity]. intros _. split; [eauto|]. left. now apply index_lacks.
  - intros s. destruct (G canon code None kind None sad) as (-> & _). unfold sadder_new. rewrite A. destruct sad as [s'|]; split; (intros (X & Y)); try discriminate; injection X as ->; auto.
  - destruct (G canon code None kind None sad) as (_ & P). rewrite P. unfold sadder_new. destruct sad; discriminate.
Qed.
