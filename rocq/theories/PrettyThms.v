(** Proofs about JSON texts in any layout and the readable form of events. *)
From Coq Require Import String.
From Coq Require Import NArith ZArith Bool List Lia ZifyBool ZifyNat ZifyN.
From Verif Require Import Base BaseFacts Util Matter Prims Json JsonFacts JsonThms Common CommonFacts Sadder Pretty SpecJson SpecPretty.
Import ListNotations.
Open Scope N_scope.

Scheme text_of_mut := Minimality for text_of Sort Prop
with elements_mut := Minimality for elements Sort Prop
with fields_mut := Minimality for fields Sort Prop.
Combined Scheme layout_ind from text_of_mut, elements_mut, fields_mut.

Lemma depth_nests v : forall n, (depth v <= n)%nat -> nests n v.
Proof.
  induction v as [|b|z|t|s|l IH|m IH] using value_ind'; intros n H; try constructor.
  - destruct n as [|n]; [cbn in H; lia|]. constructor. rewrite Forall_forall in *. intros x I. apply IH; auto. pose proof (depth_arr l x I). lia.
  - destruct n as [|n]; [cbn in H; lia|]. constructor. rewrite Forall_map. rewrite Forall_forall in *. intros x I. apply IH; auto. pose proof (depth_obj m x I). lia.
Qed.

(** ** White space *)
Lemma blank_ws w : blank w -> forall s, skip_ws (w ++ s) = skip_ws s.
Proof.
  induction w as [|c w IH]; intros H s; auto. cbn [app skip_ws]. assert (is_ws c = true) as ->.
  { assert (In c [x20; x09; x0a; x0d]) as I by (apply H; now left). cbn in I. intuition (subst; reflexivity). }
  apply IH. intros c' I. apply H. now right.
Qed.
Lemma skip_ws_idem s : skip_ws (skip_ws s) = skip_ws s.
Proof. induction s as [|c s IH]; auto. cbn [skip_ws]. destruct (is_ws c) eqn:E; auto. now apply skip_ws_nows. Qed.
Lemma blank_stop w c s : blank w -> stop (c :: s) -> stop (w ++ c :: s).
Proof.
  intros H S. destruct w as [|d w]; auto. cbn [app]. assert (In d [x20; x09; x0a; x0d]) as I by (apply H; now left).
  apply stop_cons; cbn in I; intuition (subst; try reflexivity; discriminate).
Qed.
Lemma blank_stop_nil w : blank w -> stop w.
Proof. intros H. destruct w as [|d w]; [exact I|]. assert (In d [x20; x09; x0a; x0d]) as J by (apply H; now left). apply stop_cons; cbn in J; intuition (subst; try reflexivity; discriminate). Qed.
Lemma blank_nil : blank []. Proof. intros c []. Qed.

Section Canon.
Variable canon : bytes -> option bytes.

Lemma pval_ws f d s : pval canon f d (skip_ws s) = pval canon f d s.
Proof. destruct f; auto. rewrite !pval_step, skip_ws_idem. reflexivity. Qed.
Lemma parr_ws f d s : parr canon f d (skip_ws s) = parr canon f d s.
Proof. destruct f; auto. rewrite !parr_step, pval_ws. reflexivity. Qed.
Lemma pobj_ws f d a s : pobj canon f d a (skip_ws s) = pobj canon f d a s.
Proof. destruct f; auto. rewrite !pobj_step, skip_ws_idem. reflexivity. Qed.

(** ** Reading any layout *)
Definition reads (v : value) (t : bytes) : Prop := wfv v ->
  (exists c t', t = c :: t' /\ is_ws c = false /\ c <> x5d /\ c <> x7d) /\
  forall f d w rest, blank w -> (2 * length t <= f)%nat -> (1 <= d)%nat -> stop rest ->
  pval canon f d (w ++ t ++ rest) = if (depth v <? d)%nat then Ok (jof v, rest) else Err EForeign.
Definition reads_elements (l : list value) (b : bytes) : Prop := l <> [] /\ (Forall wfv l ->
  (exists w c b', b = w ++ c :: b' /\ blank w /\ is_ws c = false /\ c <> x5d) /\
  forall f d rest, (2 * length b + 1 <= f)%nat -> (1 <= d)%nat ->
  parr canon f d (b ++ x5d :: rest) = if forallb (fun v => depth v <? d)%nat l then Ok (map jof l, rest) else Err EForeign).
Definition reads_fields (m : list (bytes * value)) (b : bytes) : Prop := m <> [] /\ (NoDup (map fst m) -> Forall (fun kv => utf8 (fst kv) = true /\ wfv (snd kv)) m ->
  (exists w b', b = w ++ x22 :: b' /\ blank w) /\
  forall f d acc rest, (2 * length b + 1 <= f)%nat -> (1 <= d)%nat -> (forall k, In k (map fst acc) -> ~ In k (map fst m)) ->
  pobj canon f d acc (b ++ x7d :: rest) = if forallb (fun kv => depth (snd kv) <? d)%nat m then Ok (acc ++ map (fun kv => (fst kv, jof (snd kv))) m, rest) else Err EForeign).

Lemma reads_atom v t : depth v = O -> (t = to_json v) -> reads v t.
Proof.
  intros D -> W. split; [exact (json_first v W)|]. intros f d w rest B L Hd S. rewrite <- pval_ws, blank_ws, pval_ws by auto. rewrite D. replace (0 <? d)%nat with true by lia.
  apply pval_print; auto; unfold jsize; lia.
Qed.
Lemma max_lt {A} (g : A -> nat) l d : (1 <= d)%nat -> (fold_right (fun x n => Nat.max (g x) n) O l <? d)%nat = forallb (fun x => g x <? d)%nat l.
Proof. intros H. induction l as [|x l IH]; cbn [fold_right forallb]; [lia|]. rewrite <- IH. lia. Qed.

Ltac lits := change (s! "[") with [x5b] in *; change (s! "]") with [x5d] in *; change (s! "{") with [x7b] in *; change (s! "}") with [x7d] in *;
  change (s! ",") with [x2c] in *; change (s! ":") with [x3a] in *.
Lemma layout_reads : (forall v t, text_of v t -> reads v t) /\ (forall l b, elements l b -> reads_elements l b) /\ (forall m b, fields m b -> reads_fields m b).
Proof.
  apply layout_ind.
  - now apply reads_atom.
  - now apply reads_atom.
  - now apply reads_atom.
  - intros z. now apply reads_atom.
  - intros s. now apply reads_atom.
  - intros w B W. split; [do 2 eexists; split; [reflexivity|]; repeat split; discriminate|]. intros f d w' rest B' L Hd S.
    lits. destruct f as [|f]; [cbn in L; lia|]. rewrite pval_step, blank_ws by auto. cbn [app]. rewrite skip_ws_nows by reflexivity. rewrite <- app_assoc. cbn [app].
    match goal with |- ?x = _ => change x with (match d with S (S _ as d) => match eat x5d (skip_ws (w ++ x5d :: rest)) with Some r' => Ok (JArr [], r')
      | None => let* t := parr canon f d (skip_ws (w ++ x5d :: rest)) in Ok (JArr (fst t), snd t) end | _ => Err EForeign end) end.
    rewrite blank_ws by auto. destruct d as [|[|d]]; reflexivity.
  - intros l b _ (NE & E) W. split; [do 2 eexists; split; [reflexivity|]; repeat split; discriminate|]. apply wfv_arr in W. destruct (E W) as ((w0 & c & b' & Eb & B0 & C1 & C2) & R). clear E.
    intros f d w' rest B' L Hd S. lits. destruct f as [|f]; [cbn in L; lia|]. rewrite pval_step, blank_ws by auto. cbn [app]. rewrite skip_ws_nows by reflexivity. rewrite <- app_assoc. cbn [app].
    match goal with |- ?x = _ => change x with (match d with S (S _ as d) => match eat x5d (skip_ws (b ++ x5d :: rest)) with Some r' => Ok (JArr [], r')
      | None => let* t := parr canon f d (skip_ws (b ++ x5d :: rest)) in Ok (JArr (fst t), snd t) end | _ => Err EForeign end) end.
    assert (eat x5d (skip_ws (b ++ x5d :: rest)) = None) as ->.
    { rewrite Eb, <- app_assoc, blank_ws by auto. cbn [app]. rewrite skip_ws_nows by auto. cbn [eat]. destruct (Byte.eqb c x5d) eqn:Q; auto. apply byte_eqb_eq in Q. congruence. }
    destruct d as [|[|d]]; [lia| |].
    + destruct l; [congruence|]. cbn [depth]. replace (_ <? 1)%nat with false by lia. reflexivity.
    + rewrite parr_ws, R; [|cbn [app] in L; rewrite ?app_length in L; cbn [length] in L; rewrite ?app_length in L; cbn [length] in L; lia|lia].
      cbn [depth]. change (Datatypes.S ?a <? Datatypes.S ?b)%nat with (a <? b)%nat. rewrite max_lt by lia. destruct (forallb _ l); reflexivity.
  - intros w B W. split; [do 2 eexists; split; [reflexivity|]; repeat split; discriminate|]. intros f d w' rest B' L Hd S.
    lits. destruct f as [|f]; [cbn in L; lia|]. rewrite pval_step, blank_ws by auto. cbn [app]. rewrite skip_ws_nows by reflexivity. rewrite <- app_assoc. cbn [app].
    match goal with |- ?x = _ => change x with (match d with S (S _ as d) => match eat x7d (skip_ws (w ++ x7d :: rest)) with Some r' => Ok (JObj [], r')
      | None => let* t := pobj canon f d [] (skip_ws (w ++ x7d :: rest)) in Ok (JObj (fst t), snd t) end | _ => Err EForeign end) end.
    rewrite blank_ws by auto. destruct d as [|[|d]]; reflexivity.
  - intros m b _ (NE & E) W. split; [do 2 eexists; split; [reflexivity|]; repeat split; discriminate|]. apply wfv_obj in W as (ND & W). destruct (E ND W) as ((w0 & b' & Eb & B0) & R). clear E.
    intros f d w' rest B' L Hd S. lits. destruct f as [|f]; [cbn in L; lia|]. rewrite pval_step, blank_ws by auto. cbn [app]. rewrite skip_ws_nows by reflexivity. rewrite <- app_assoc. cbn [app].
    match goal with |- ?x = _ => change x with (match d with S (S _ as d) => match eat x7d (skip_ws (b ++ x7d :: rest)) with Some r' => Ok (JObj [], r')
      | None => let* t := pobj canon f d [] (skip_ws (b ++ x7d :: rest)) in Ok (JObj (fst t), snd t) end | _ => Err EForeign end) end.
    assert (eat x7d (skip_ws (b ++ x7d :: rest)) = None) as ->.
    { rewrite Eb, <- app_assoc, blank_ws by auto. cbn [app]. rewrite skip_ws_nows by reflexivity. reflexivity. }
    destruct d as [|[|d]]; [lia| |].
    + destruct m; [congruence|]. cbn [depth]. replace (_ <? 1)%nat with false by lia. reflexivity.
    + rewrite pobj_ws, R; [|cbn [app] in L; rewrite ?app_length in L; cbn [length] in L; rewrite ?app_length in L; cbn [length] in L; lia|lia|intros k []].
      cbn [depth]. change (Datatypes.S ?a <? Datatypes.S ?b)%nat with (a <? b)%nat. rewrite (max_lt (fun kv => depth (snd kv))) by lia. destruct (forallb _ m); reflexivity.
  - intros v t w1 w2 _ T B1 B2. split; [discriminate|]. intros W. inversion W as [|? ? Wv _]; subst. destruct (T Wv) as ((c & t' & Et & C1 & C2 & _) & R). split.
    + exists w1, c, (t' ++ w2). rewrite Et. cbn [app]. auto.
    + intros f d rest L Hd. lits. rewrite !app_length in L. destruct f as [|f]; [lia|]. lits; rewrite parr_step, <- !app_assoc, R; [|auto|lia|lia|apply blank_stop; auto; apply stop_cons; [reflexivity|discriminate..]].
      cbn [forallb]. rewrite andb_true_r. destruct (depth v <? d)%nat; [|reflexivity]. rewrite bind_Ok. cbn [snd fst]. rewrite blank_ws by auto. reflexivity.
  - intros v t w1 w2 l b _ T B1 B2 _ (NE & E). split; [discriminate|]. intros W. inversion W as [|? ? Wv Wl]; subst. destruct (T Wv) as ((c & t' & Et & C1 & C2 & _) & R). destruct (E Wl) as (_ & Rb). split.
    + exists w1, c, (t' ++ w2 ++ s! "," ++ b). rewrite Et. cbn [app]. auto.
    + intros f d rest L Hd. lits. rewrite !app_length in L. cbn [length] in L. destruct f as [|f]; [lia|].
      lits; rewrite parr_step, <- !app_assoc. cbn [app]. rewrite R; [|auto|lia|lia|apply blank_stop; auto; apply stop_cons; [reflexivity|discriminate..]].
      cbn [forallb]. destruct (depth v <? d)%nat; [|reflexivity]. rewrite bind_Ok. cbn [snd fst]. rewrite blank_ws by auto. rewrite skip_ws_nows by reflexivity. cbn [andb].
      match goal with |- context [eat x5d (x2c :: ?q)] => change (eat x5d (x2c :: q)) with (@None bytes); change (eat x2c (x2c :: q)) with (Some q) end. cbv beta iota.
      rewrite Rb by lia. destruct (forallb _ l); reflexivity.
  - intros k v t w1 w2 w3 w4 _ T B1 B2 B3 B4. split; [discriminate|]. intros ND W. inversion W as [|? ? (Wk & Wv) _]; subst. cbn [fst snd] in *. destruct (T Wv) as (_ & R). split.
    + exists w1. eexists. split; [reflexivity|auto].
    + intros f d acc rest L Hd A. lits. unfold json_string in L. rewrite ?app_length in L. cbn [length] in L. rewrite ?app_length in L. cbn [length] in L. destruct f as [|f]; [lia|]. lits; rewrite pobj_step, <- !app_assoc, blank_ws by auto.
      unfold json_string. cbn [app]. rewrite skip_ws_nows by reflexivity.
      match goal with |- context [eat x22 (x22 :: ?q)] => change (eat x22 (x22 :: q)) with (Some q) end. cbv beta iota. rewrite <- !app_assoc. cbn [app].
      rewrite pstring_escape by auto. rewrite bind_Ok. cbn [fst snd]. rewrite blank_ws, skip_ws_nows by (auto; reflexivity).
      match goal with |- context [eat x3a (x3a :: ?q)] => change (eat x3a (x3a :: q)) with (Some q) end. cbv beta iota.
      rewrite R; [|auto|lia|lia|apply blank_stop; auto; apply stop_cons; [reflexivity|discriminate..]].
      cbn [forallb]. rewrite andb_true_r. cbn [snd]. destruct (depth v <? d)%nat; [|reflexivity]. rewrite bind_Ok. cbn [snd fst]. rewrite blank_ws by auto. rewrite skip_ws_nows by reflexivity.
      change (eat x7d (x7d :: rest)) with (Some rest). cbv beta iota. rewrite insert_new; [reflexivity|]. intros I. apply (A k I). now left.
  - intros k v t w1 w2 w3 w4 m b _ T B1 B2 B3 B4 _ (NE & E). split; [discriminate|]. intros ND W. inversion W as [|? ? (Wk & Wv) Wm]; subst. inversion ND as [|? ? N1 N2]; subst. cbn [fst snd] in *.
    destruct (T Wv) as (_ & R). destruct (E N2 Wm) as (_ & Rb). split.
    + exists w1. eexists. split; [reflexivity|auto].
    + intros f d acc rest L Hd A. lits. unfold json_string in L. rewrite ?app_length in L. cbn [length] in L. rewrite ?app_length in L. cbn [length] in L. rewrite ?app_length in L. cbn [length] in L. destruct f as [|f]; [lia|]. lits; rewrite pobj_step, <- !app_assoc, blank_ws by auto.
      unfold json_string. cbn [app]. rewrite skip_ws_nows by reflexivity.
      match goal with |- context [eat x22 (x22 :: ?q)] => change (eat x22 (x22 :: q)) with (Some q) end. cbv beta iota. rewrite <- !app_assoc. cbn [app].
      rewrite pstring_escape by auto. rewrite bind_Ok. cbn [fst snd]. rewrite blank_ws, skip_ws_nows by (auto; reflexivity).
      match goal with |- context [eat x3a (x3a :: ?q)] => change (eat x3a (x3a :: q)) with (Some q) end. cbv beta iota.
      rewrite R; [|auto|lia|lia|apply blank_stop; auto; apply stop_cons; [reflexivity|discriminate..]].
      cbn [forallb snd fst map]. destruct (depth v <? d)%nat; [|reflexivity]. rewrite bind_Ok. cbn [snd fst]. rewrite blank_ws by auto. rewrite skip_ws_nows by reflexivity. cbn [andb].
      match goal with |- context [eat x7d (x2c :: ?q)] => change (eat x7d (x2c :: q)) with (@None bytes); change (eat x2c (x2c :: q)) with (Some q) end. cbv beta iota.
      rewrite insert_new by (intros I; apply (A k I); now left).
      rewrite Rb; [|lia|lia|].
      * destruct (forallb _ m); [|reflexivity]. now rewrite <- app_assoc.
      * intros k' Hin. rewrite map_app in Hin. apply in_app_iff in Hin as [Hin|[<-|[]]]; auto. intros Hin'. apply (A k' Hin). now right.
Qed.

Lemma pjson_layout v t w1 w2 : wfv v -> text_of v t -> blank w1 -> blank w2 -> pjson canon (w1 ++ t ++ w2) = if (depth v <? 128)%nat then Ok (jof v) else Err EForeign.
Proof.
  intros W T B1 B2. destruct (proj1 layout_reads _ _ T W) as (_ & R). unfold pjson. rewrite R; [|auto|rewrite !app_length; lia|lia|now apply blank_stop_nil].
  destruct (depth v <? 128)%nat; [|reflexivity]. rewrite bind_Ok. cbn [fst snd]. rewrite <- (app_nil_r w2), blank_ws by auto. reflexivity.
Qed.
End Canon.

(** ** The printers are layouts *)
Lemma map_ne {A B} (f : A -> B) l : l <> [] -> map f l <> []. Proof. destruct l; [congruence|discriminate]. Qed.
Lemma elements_join (f : value -> bytes) w0 w1 l : l <> [] -> blank w0 -> blank w1 -> Forall (fun v => text_of v (f v)) l ->
  elements l (w0 ++ join (s! "," ++ w0) (map f l) ++ w1).
Proof.
  intros NE B0 B1 H. induction H as [|v l Hv Hl IH]; [congruence|]. destruct l as [|u l].
  - cbn [map join]. now constructor.
  - cbn [map]. rewrite join_cons2, <- !app_assoc. specialize (IH ltac:(discriminate)). cbn [map] in IH.
    change (w0 ++ f v ++ s! "," ++ w0 ++ join (s! "," ++ w0) (f u :: map f l) ++ w1) with (w0 ++ f v ++ [] ++ s! "," ++ (w0 ++ join (s! "," ++ w0) (f u :: map f l) ++ w1)).
    constructor; auto using blank_nil.
Qed.
Lemma fields_join (f : value -> bytes) w0 w1 w2 m : m <> [] -> blank w0 -> blank w1 -> blank w2 -> Forall (fun kv => text_of (snd kv) (f (snd kv))) m ->
  fields m (w0 ++ join (s! "," ++ w0) (map (fun kv => json_string (fst kv) ++ s! ":" ++ w2 ++ f (snd kv)) m) ++ w1).
Proof.
  intros NE B0 B1 B2 H. induction H as [|(k, v) m Hv Hl IH]; [congruence|]. cbn [fst snd] in *. destruct m as [|(k2, u) m].
  - cbn [map join fst snd]. rewrite <- !app_assoc. change (json_string k ++ s! ":" ++ w2 ++ f v ++ w1) with (json_string k ++ [] ++ s! ":" ++ w2 ++ f v ++ w1). constructor; auto using blank_nil.
  - cbn [map fst snd]. rewrite join_cons2, <- !app_assoc. specialize (IH ltac:(discriminate)). cbn [map fst snd] in IH. set (b := w0 ++ join _ _ ++ w1) in *.
    match goal with |- fields _ ?x => assert (x = w0 ++ json_string k ++ [] ++ s! ":" ++ w2 ++ f v ++ [] ++ s! "," ++ b) as -> by (unfold b; rewrite <- ?app_assoc; reflexivity) end.
    constructor; auto using blank_nil.
Qed.
Lemma text_of_json v : wfv v -> text_of v (to_json v).
Proof.
  induction v as [|b|z|t|s|l IH|m IH] using value_ind'; intros W.
  - constructor.
  - destruct b; constructor.
  - constructor.
  - destruct W.
  - constructor.
  - apply wfv_arr in W. cbn [to_json]. destruct l as [|x l]; [apply (to_arr0 []); apply blank_nil|]. apply to_arr.
    pose proof (elements_join to_json [] [] (x :: l)) as E. cbn [app] in E. rewrite app_nil_r in E. apply E; auto using blank_nil; [discriminate|]. rewrite Forall_forall in *. auto.
  - apply wfv_obj in W as (_ & W). cbn [to_json]. destruct m as [|x m]; [apply (to_obj0 []); apply blank_nil|]. apply to_obj.
    pose proof (fields_join to_json [] [] [] (x :: m)) as E. cbn [app] in E. rewrite app_nil_r in E. apply E; auto using blank_nil; [discriminate|]. rewrite Forall_forall in *. intros kv I. apply IH; auto. now apply W.
Qed.
Lemma blank_newline n : blank (newline n).
Proof.
  intros c [<-|H]; [cbn; tauto|]. apply in_concat in H as (x & H & I). apply repeat_spec in H. subst x. cbn in I. destruct I as [<-|[<-|[]]]; cbn; tauto.
Qed.
Lemma text_of_pretty v : wfv v -> forall n, text_of v (jpretty n (jof v)).
Proof.
  induction v as [|b|z|t|s|l IH|m IH] using value_ind'; intros W n.
  - constructor.
  - destruct b; constructor.
  - cbn [jof]. destruct (z <? 0)%Z eqn:E; cbn [jpretty].
    + replace (x2d :: dec_text (Z.to_N (- z))) with (int_text z) by (unfold int_text; now rewrite E). constructor.
    + replace (dec_text (Z.to_N z)) with (int_text z) by (unfold int_text; now rewrite E). constructor.
  - destruct W.
  - constructor.
  - apply wfv_arr in W. destruct l as [|x l]; [apply (to_arr0 []); apply blank_nil|]. cbn [jof map]. change (jof x :: map jof l) with (map jof (x :: l)).
    replace (jpretty n (JArr (map jof (x :: l)))) with (s! "[" ++ (newline (S n) ++ join (s! "," ++ newline (S n)) (map (fun v => jpretty (S n) (jof v)) (x :: l)) ++ newline n) ++ s! "]").
    2:{ cbn [jpretty map]. rewrite <- !app_assoc. rewrite map_map. reflexivity. }
    apply to_arr. apply elements_join; auto using blank_newline; [discriminate|]. rewrite Forall_forall in *. intros v I. apply IH; auto.
  - apply wfv_obj in W as (_ & W). destruct m as [|x m]; [apply (to_obj0 []); apply blank_nil|].
    replace (jpretty n (jof (VObj (x :: m)))) with (s! "{" ++ (newline (S n) ++ join (s! "," ++ newline (S n)) (map (fun kv => json_string (fst kv) ++ s! ":" ++ s! " " ++ jpretty (S n) (jof (snd kv))) (x :: m)) ++ newline n) ++ s! "}").
    2:{ cbn [jof map jpretty]. rewrite <- !app_assoc. rewrite map_map. reflexivity. }
    apply to_obj. apply (fields_join (fun v => jpretty (S n) (jof v))); auto using blank_newline; [discriminate| |].
    + intros c [<-|[]]. cbn. tauto.
    + rewrite Forall_forall in *. intros kv I. apply IH; auto. now apply W.
Qed.

(** ** Layouts are UTF-8 *)
Lemma blank_utf8 w : blank w -> utf8 w = true.
Proof. intros B. apply utf8_ascii. apply forallb_forall. intros c I. apply B in I. cbn in I. intuition (subst; reflexivity). Qed.
Lemma layout_utf8 : (forall v t, text_of v t -> wfv v -> utf8 t = true) /\ (forall l b, elements l b -> Forall wfv l -> utf8 b = true) /\
  (forall m b, fields m b -> Forall (fun kv => utf8 (fst kv) = true /\ wfv (snd kv)) m -> utf8 b = true).
Proof.
  apply layout_ind; auto.
  - intros z W. now apply utf8_int.
  - intros s W. now apply utf8_json_string.
  - intros w B _. rewrite !utf8_app; auto using blank_utf8.
  - intros l b _ H W. apply wfv_arr in W. rewrite !utf8_app; auto.
  - intros w B _. rewrite !utf8_app; auto using blank_utf8.
  - intros l b _ H W. apply wfv_obj in W as (_ & W). rewrite !utf8_app; auto.
  - intros v t w1 w2 _ H B1 B2 W. inversion W; subst. rewrite !utf8_app; auto using blank_utf8.
  - intros v t w1 w2 l b _ H B1 B2 _ Hb W. inversion W; subst. rewrite !utf8_app; auto using blank_utf8.
  - intros k v t w1 w2 w3 w4 _ H B1 B2 B3 B4 W. inversion W as [|? ? (Wk & Wv) _]; subst. rewrite !utf8_app; auto using blank_utf8, utf8_json_string.
  - intros k v t w1 w2 w3 w4 m b _ H B1 B2 B3 B4 _ Hb W. inversion W as [|? ? (Wk & Wv) Wm]; subst. rewrite !utf8_app; auto using blank_utf8, utf8_json_string.
Qed.

(** ** Cutting *)
Lemma boundary_cons b r i : 0 < i -> boundary (b :: r) i = (i =? len (b :: r)) || match nth_error r (N.to_nat (i - 1)) with Some c => negb (is_cont c) | None => false end.
Proof. intros H. unfold boundary. replace (i =? 0) with false by lia. cbn [orb]. replace (N.to_nat i) with (S (N.to_nat (i - 1))) by lia. reflexivity. Qed.
Lemma boundary_cut_n : forall n t i, (length t <= n)%nat -> utf8 t = true -> i <= len t -> boundary t i = true -> utf8 (take i t) = true.
Proof.
  induction n as [|n IH]; intros t i L U Hi B.
  - destruct t; [|cbn in L; lia]. destruct (take i []) eqn:E; auto. unfold take in E. rewrite firstn_nil in E. discriminate.
  - destruct (N.eq_dec i 0) as [->|I0]; [reflexivity|].
    assert (forall a r, t = a ++ r -> a <> [] -> utf8 a = true -> (forall j, 0 < j < len a -> match nth_error a (N.to_nat j) with Some c => is_cont c = true | None => True end) -> utf8 (take i t) = true) as G.
    { intros a r E NE Ua Ca. assert (utf8 r = true) as Ur by (rewrite E, utf8_app in U; auto).
      assert (0 < len a) as La by (destruct a; [congruence|rewrite len_cons; lia]).
      destruct (N.le_gt_cases (len a) i) as [Hle|Hlt].
      - rewrite E, take_app_ge by auto. rewrite utf8_app by auto. apply IH; auto.
        + rewrite E, app_length in L. unfold len in La. lia.
        + rewrite E, len_app in Hi. lia.
        + unfold boundary in B |- *. rewrite E, len_app in B. destruct (i - len a =? 0) eqn:Q0; auto. cbn [orb]. destruct (i - len a =? len r) eqn:Q1; auto. cbn [orb].
          replace (i =? 0) with false in B by lia. replace (i =? len a + len r) with false in B by lia. cbn [orb] in B.
          rewrite nth_error_app2 in B by (unfold len in Hle; lia). replace (N.to_nat i - length a)%nat with (N.to_nat (i - len a)) in B by (unfold len; lia). exact B.
      - exfalso. specialize (Ca i ltac:(lia)). unfold boundary in B. rewrite E, len_app in B. replace (i =? 0) with false in B by lia. replace (i =? len a + len r) with false in B by lia. cbn [orb] in B.
        rewrite nth_error_app1 in B by (unfold len in Hlt; lia). destruct (nth_error a (N.to_nat i)); [rewrite Ca in B|]; discriminate. }
    assert (forall lo hi c, 128 <= lo -> hi <= 191 -> in_range lo hi c = true -> is_cont c = true) as Cr by (intros lo hi c H1 H2 H; unfold in_range, is_cont in *; lia).
    destruct t as [|b r]; [change (len (@nil byte)) with 0 in Hi; lia|]. cbn [utf8] in U. destruct (b2n b <=? 127) eqn:E.
    { apply (G [b] r); [reflexivity|discriminate|cbn [utf8]; now rewrite E|]. intros j Hj. rewrite len_cons in Hj. change (len (@nil byte)) with 0 in Hj. lia. }
    destruct (in_range 194 223 b) eqn:E2.
    { destruct r as [|c1 r]; [discriminate|]. apply andb_prop in U as (U1 & U). apply (G [b; c1] r); [reflexivity|discriminate|cbn [utf8]; now rewrite E, E2, U1|].
      intros j Hj. rewrite !len_cons in Hj. change (len (@nil byte)) with 0 in Hj. assert (j = 1) as -> by lia. exact U1. }
    destruct (in_range 224 239 b) eqn:E3.
    { destruct r as [|c1 [|c2 r]]; try discriminate. apply andb_prop in U as (U1 & U). pose proof U1 as W. apply andb_prop in W as (W1 & W2).
      apply (G [b; c1; c2] r); [reflexivity|discriminate|cbn [utf8]; now rewrite E, E2, E3, U1|].
      intros j Hj. rewrite !len_cons in Hj. change (len (@nil byte)) with 0 in Hj. assert (j = 1 \/ j = 2) as [-> | ->] by lia; [|exact W2].
      change (is_cont c1 = true). destruct (b2n b =? 224), (b2n b =? 237); first [exact W1|eapply Cr; [| |exact W1]; lia]. }
    destruct (in_range 240 244 b) eqn:E4; [|discriminate].
    destruct r as [|c1 [|c2 [|c3 r]]]; try discriminate. apply andb_prop in U as (U1 & U). pose proof U1 as W. apply andb_prop in W as (W & W3). apply andb_prop in W as (W1 & W2).
    apply (G [b; c1; c2; c3] r); [reflexivity|discriminate|cbn [utf8]; now rewrite E, E2, E3, E4, U1|].
    intros j Hj. rewrite !len_cons in Hj. change (len (@nil byte)) with 0 in Hj. assert (j = 1 \/ j = 2 \/ j = 3) as [-> | [-> | ->]] by lia; [|exact W2|exact W3].
    change (is_cont c1 = true). destruct (b2n b =? 240), (b2n b =? 244); first [exact W1|eapply Cr; [| |exact W1]; lia].
Qed.
Lemma boundary_cut t i : utf8 t = true -> i <= len t -> (boundary t i = true <-> utf8 (take i t) = true).
Proof.
  intros U L. split; [now apply (boundary_cut_n (length t))|]. intros H. pose proof (take_drop i t) as E.
  assert (utf8 (drop i t) = true) as Ud by (rewrite <- E, utf8_app in U; auto). assert (len (take i t) = i) as El by (rewrite len_take; lia).
  rewrite <- E. apply boundary_app; auto; [lia|]. unfold boundary. rewrite El, N.eqb_refl. now rewrite orb_true_r.
Qed.
Lemma cut_iff t n x : n <= len t -> (cut t n x <-> x = take n t /\ utf8 x = true).
Proof.
  intros L. split.
  - intros (r & -> & <- & U). split; auto. now rewrite take_app_exact.
  - intros (-> & U). exists (drop n t). split; [now rewrite take_drop|]. split; [rewrite len_take; lia|auto].
Qed.

(*# C103_any_layout
   A JSON text of a data value with any white space around and between its tokens reads back as that value if the value nests at most 127 deep,
   and is refused if it nests deeper.
##
Definition spaced : bytes := s! " [ 1 ,{ ""a"" :null}]".
Example C103_layout_case : exists w t, spaced = w ++ t ++ [] /\ blank w /\ text_of (VArr [VInt 1; VObj [(s! "a", VNull)]]) t /\ nests 127 (VArr [VInt 1; VObj [(s! "a", VNull)]]).
Proof.
  exists (s! " "), (s! "[ 1 ,{ ""a"" :null}]"). split; [reflexivity|]. assert (blank (s! " ")) as B by (intros c [<-|[]]; cbn; tauto). assert (blank []) as B0 by (intros c []).
  split; [exact B|]. split; [|repeat (constructor; cbn [map snd])].
  apply (to_arr _ (s! " " ++ s! "1" ++ s! " " ++ s! "," ++ [] ++ s! "{ ""a"" :null}" ++ [])). constructor; auto; [apply (to_int 1)|]. constructor; auto.
  apply (to_obj _ (s! " " ++ json_string (s! "a") ++ s! " " ++ s! ":" ++ [] ++ s! "null" ++ [])). constructor; auto. constructor.
Qed.
#*)
Lemma C103_layout_l (canon : bytes -> option bytes) (v : value) (t w1 w2 : bytes) : data v -> text_of v t -> blank w1 -> blank w2 ->
  (nests 127 v -> value_of_text canon (w1 ++ t ++ w2) = Ok v) /\ (~ nests 127 v -> value_of_text canon (w1 ++ t ++ w2) = Err EForeign).
Proof.
  intros D T B1 B2. apply data_wfv in D. unfold value_of_text. rewrite (pjson_layout canon v t) by auto. split; intros N.
  - apply nests_depth in N. replace (depth v <? 128)%nat with true by lia. rewrite bind_Ok. now apply of_json_jof.
  - destruct (depth v <? 128)%nat eqn:E; [|reflexivity]. elim N. apply depth_nests. lia.
Qed.

(*# C103_own_output
   The JSON text the library prints is read back exactly when the value nests at most 127 deep: data that nest deeper can be printed, and put
   into events, but never read.
##
Fixpoint nested (n : nat) : value := match n with O => VInt 0 | S n => VArr [nested n] end.
Example C103_own_case : value_of_text (fun _ => None) (to_json (nested 127)) = Ok (nested 127) /\ value_of_text (fun _ => None) (to_json (nested 128)) = Err EForeign.
Proof. split; vm_compute; reflexivity. Qed.
#*)
Lemma C103_own_l (canon : bytes -> option bytes) (v : value) : data v ->
  (nests 127 v <-> value_of_text canon (to_json v) = Ok v) /\ (~ nests 127 v <-> value_of_text canon (to_json v) = Err EForeign).
Proof.
  intros D. pose proof (C103_layout_l canon v (to_json v) [] [] D (text_of_json v (data_wfv v D)) blank_nil blank_nil) as (A & B). cbn [app] in A, B. rewrite app_nil_r in A, B.
  assert (nests 127 v \/ ~ nests 127 v) as [N|N]. { destruct (Nat.le_gt_cases (depth v) 127); [left; now apply depth_nests|right; intros N; apply nests_depth in N; lia]. }
  - specialize (A N). rewrite A. split; split; auto; [tauto|discriminate].
  - specialize (B N). rewrite B. split; split; auto; [tauto|discriminate].
Qed.

(*# C104_pretty_partial
   The readable form of an event is a JSON text of its data in some layout: uncut (the default limit is 1024 bytes) it reads back as the same
   data. Above the limit it is the front of that text of exactly that many bytes, when that does not split a character. Data that nest
   deeper than 127 give an error.
##
Definition event_with (v : value) : sadder := Sd (s! "E") [] v [] [] 0 (Ver 1 0) (Mt [] 0 []).
Example C104_pretty_case : data (VObj [(s! "v", VStr (s! "x")); (s! "a", VArr [VInt 1; VObj []])]) /\ nests 127 (VObj [(s! "v", VStr (s! "x")); (s! "a", VArr [VInt 1; VObj []])]) /\
  pretty (fun _ => None) (event_with (VObj [(s! "v", VStr (s! "x")); (s! "a", VArr [VInt 1; VObj []])])) None =
  Ok (s! "{" ++ [x0a] ++ s! "  ""v"": ""x""," ++ [x0a] ++ s! "  ""a"": [" ++ [x0a] ++ s! "    1," ++ [x0a] ++ s! "    {}" ++ [x0a] ++ s! "  ]" ++ [x0a] ++ s! "}").
Proof.
  split; [|split; [repeat (constructor; cbn [map snd])|vm_compute; reflexivity]]. apply data_obj.
  - repeat constructor; cbn; intuition discriminate.
  - repeat constructor.
  - repeat (constructor; try (vm_compute; intuition discriminate)).
Qed.
#*)
Lemma C104_pretty_l (canon : bytes -> option bytes) (e : sadder) : data (d_ked e) -> nests 127 (d_ked e) ->
  exists t, text_of (d_ked e) t /\ utf8 t = true /\ value_of_text canon t = Ok (d_ked e) /\
  forall size, let n := match size with Some n => n | None => 1024 end in
  (len t <= n -> pretty canon e size = Ok t) /\
  (n < len t -> forall x, pretty canon e size = Ok x <-> cut t n x) /\
  (n < len t -> (pretty canon e size = Panic <-> forall x, ~ cut t n x)).
Proof.
  intros D N. pose proof (data_wfv _ D) as W. pose proof (text_of_pretty _ W 0) as T. exists (jpretty 0 (jof (d_ked e))). split; [exact T|].
  pose proof (proj1 layout_utf8 _ _ T W) as U. split; [exact U|]. split.
  { pose proof (proj1 (C103_layout_l canon _ _ [] [] D T blank_nil blank_nil) N) as H. cbn [app] in H. now rewrite app_nil_r in H. }
  intros size. cbv zeta. unfold pretty. apply nests_depth in N. rewrite pjson_print, bind_Ok by (auto; lia). cbv zeta. set (t := jpretty 0 (jof (d_ked e))) in *. set (n := match size with Some n => n | None => 1024 end). clearbody t n.
  split.
  - intros L. replace (n <? len t) with false by lia. reflexivity.
  - assert (n < len t -> (if n <? len t then slice_str t 0 n else Ok t) = if utf8 (take n t) then Ok (take n t) else Panic) as G.
    { intros L. replace (n <? len t) with true by lia. unfold slice_str. replace (0 <=? n) with true by lia. replace (n <=? len t) with true by lia.
      change (boundary t 0) with true. cbn [andb]. rewrite N.sub_0_r, drop_0. pose proof (boundary_cut t n U ltac:(lia)) as Q. destruct (boundary t n), (utf8 (take n t)); intuition discriminate. }
    split; intros L.
    + intros x. rewrite (G L), cut_iff by lia. destruct (utf8 (take n t)) eqn:E; split.
      * intros [= <-]. auto.
      * intros (-> & _). reflexivity.
      * discriminate.
      * intros (-> & Q). congruence.
    + rewrite (G L). destruct (utf8 (take n t)) eqn:E; split; try discriminate; auto.
      * intros H. elim (H (take n t)). apply cut_iff; auto. lia.
      * intros _ x C. apply cut_iff in C as (-> & Q); [congruence|lia].
Qed.

(*# C104_pretty_deep
   The readable form of an event whose data nest deeper than 127 is an error, whatever the limit.
##
Example C104_deep_case : exists v, data v /\ ~ nests 127 v.
Proof.
  exists (nested 128). split.
  - assert (forall n, data (nested n)) as G; [|apply G]. induction n; [constructor; split; [discriminate|reflexivity]|]. constructor. auto.
  - assert (forall n, ~ nests n (nested (S n))) as G; [|apply G]. induction n; intros H; cbn [nested] in H; inversion H; subst.
    apply IHn. match goal with H : Forall _ _ |- _ => inversion H; subst end. assumption.
Qed.
#*)
Lemma C104_deep_l (canon : bytes -> option bytes) (e : sadder) (size : option N) : data (d_ked e) -> ~ nests 127 (d_ked e) -> pretty canon e size = Err EForeign.
Proof.
  intros D N. pose proof (data_wfv _ D) as W. unfold pretty. pose proof (pjson_layout canon (d_ked e) (to_json (d_ked e)) [] [] W (text_of_json _ W) blank_nil blank_nil) as P. cbn [app] in P. rewrite app_nil_r in P. rewrite P.
  destruct (depth (d_ked e) <? 128)%nat eqn:E; [|reflexivity]. elim N. apply depth_nests. lia.
Qed.

(*# C104_pretty_refuted
   The readable form panics for some event and limit: a limit that falls inside a character.
##
Example C104_refuted_case : utf8 [xc3; xa9] = true. Proof. reflexivity. Qed.
#*)
Lemma C104_refuted_l : exists e n, data (d_ked e) /\ forall canon, pretty canon e (Some n) = Panic.
Proof.
  exists (Sd (s! "E") [] (VObj [([xc3; xa9], VNull)]) [] [] 0 (Ver 1 0) (Mt [] 0 [])), 6. split.
  - apply data_obj; repeat constructor; cbn; intuition discriminate.
  - intros canon. vm_compute. reflexivity.
Qed.
