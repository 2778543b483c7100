(** Proofs of the properties of paths. *)
From Coq Require Import String.
From Coq Require Import NArith ZArith Lia Bool List.
From Verif Require Import Base BaseFacts B64 B64Facts Tables Matter MatterFacts MatterBin MatterText MatterMore MatterThms Counter CounterThms Prims PrimsFacts PrimsThms
  Json JsonFacts TholderFacts Common SpecSaider CommonFacts Saider SaiderFacts Sadder Pather Spec SpecPrims SpecCounter SpecSadder SadderFacts SpecPather.
Import ListNotations.
Open Scope N_scope.

(** ** Splitting and joining *)
Lemma dash_b64 : is_b64s (s! "-") = true. Proof. reflexivity. Qed.
Lemma join_dashes ps : s! "-" ++ join (s! "-") ps = path_text ps.
Proof.
  unfold path_text. destruct ps as [|p ps]; [reflexivity|]. revert p. induction ps as [|q ps IH]; intros p.
  - cbn [join map concat]. now rewrite !app_nil_r.
  - change (join (s! "-") (p :: q :: ps)) with (p ++ s! "-" ++ join (s! "-") (q :: ps)). rewrite IH. cbn [map concat]. rewrite <- !app_assoc. reflexivity.
Qed.
Lemma path_text_b64 els : Forall (over base64url_alphabet) els -> is_b64s (path_text els) = true.
Proof.
  intros H. unfold path_text. destruct els as [|e els]; [reflexivity|]. revert H. generalize (e :: els). clear. induction l as [|e els IH]; intros H; [reflexivity|].
  inversion H; subst. cbn [map concat]. rewrite !is_b64s_app, IH by auto. apply over_b64 in H2. now rewrite H2.
Qed.
Lemma path_text_dash els : exists r, path_text els = x2d :: r /\ r = match els with [] => [] | e :: l => e ++ concat (map (fun e => s! "-" ++ e) l) end.
Proof. destruct els as [|e l]; eexists; (split; [|reflexivity]); [reflexivity|]. reflexivity. Qed.
Lemma nodash e : ~ In x2d e -> forallb (fun c => negb (Byte.eqb c x2d)) e = true.
Proof. intros H. apply forallb_forall. intros c I. apply negb_true_iff. destruct (Byte.eqb c x2d) eqn:E; auto. apply byte_eqb_eq in E. subst. contradiction. Qed.
Lemma split_text e l : Forall (fun e => ~ In x2d e) (e :: l) -> split_on x2d (e ++ concat (map (fun e => s! "-" ++ e) l)) = e :: l.
Proof.
  revert e. induction l as [|f l IH]; intros e H; inversion H; subst; cbn [map concat].
  - rewrite app_nil_r. apply split_on_none. now apply nodash.
  - rewrite <- app_assoc. change (e ++ s! "-" ++ f ++ concat (map (fun e => s! "-" ++ e) l)) with (e ++ x2d :: (f ++ concat (map (fun e => s! "-" ++ e) l))).
    rewrite split_on_app by now apply nodash. f_equal. auto.
Qed.
(** The pieces of a text contain no separator and joined again give the text. *)
Lemma split_pieces s : exists p ps, split_on x2d s = p :: ps /\ Forall (fun e => ~ In x2d e) (p :: ps) /\ s = p ++ concat (map (fun e => s! "-" ++ e) ps).
Proof.
  induction s as [|c s (p & ps & S & F & E)]; [exists [], []; repeat constructor; auto|]. cbn [split_on]. destruct (Byte.eqb c x2d) eqn:C.
  - apply byte_eqb_eq in C. subst c. exists [], (split_on x2d s). split; auto. rewrite S. split; [constructor; auto|]. cbn [map concat app]. change (x2d :: s = x2d :: (p ++ concat (map (fun e => s! "-" ++ e) ps))). f_equal. exact E.
  - rewrite S. exists (c :: p), ps. split; auto. inversion F; subst. split.
    + constructor; auto. intros [X|X]; [|contradiction]. subst c. discriminate.
    + reflexivity.
Qed.
Lemma ascii_drop i s : ascii s = true -> ascii (drop i s) = true.
Proof. unfold ascii. rewrite !forallb_forall. intros H c I. apply H. rewrite <- (take_drop i s). apply in_or_app. now right. Qed.
(** The text of a primitive is in ASCII, and reading it never panics for a text code. *)
Lemma from_str_inv s i t : ascii s = true -> from_str s i = Ok t -> t = drop i s.
Proof.
  intros A H. unfold from_str, slice_str in H. destruct ((i <=? len s) && (len s <=? len s) && boundary s i && boundary s (len s)); [|discriminate]. injection H as <-.
  apply take_all. rewrite len_drop. lia.
Qed.
Lemma bext_ascii m s : bext_of m = Ok s -> ascii s = true.
Proof.
  unfold bext_of. intros H. apply bind_ok in H as (z & _ & H). cbv zeta in H. apply bind_ok in H as (w & _ & H). pose proof (encode_ascii (zeros (ls z) ++ m_raw m)) as A.
  apply from_str_inv in H; auto. subst. now apply ascii_drop.
Qed.
Lemma encode_len4 l : l <> [] -> 4 <= len (encode l).
Proof.
  intros H. destruct l as [|a [|b [|c r]]]; [congruence| | |].
  - cbn [encode]. rewrite !len_cons. lia.
  - cbn [encode]. rewrite !len_cons. lia.
  - rewrite encode_cons3, len_app. unfold enc3. rewrite !len_cons. lia.
Qed.
Lemma bext_total m : In (m_code m) bexter_codes -> exists s, bext_of m = Ok s.
Proof.
  intros H. unfold bext_of. assert (exists z, sizage_of (m_code m) = Ok z /\ ls z <= 2) as (z & Z & L).
  { cbn [bexter_codes In] in H. repeat (destruct H as [<-|H]; [eexists; split; [reflexivity|cbn; lia]|]). destruct H. }
  rewrite Z, bind_Ok. cbv zeta. pose proof (encode_ascii (zeros (ls z) ++ m_raw m)) as A. destruct (ls z =? 0) eqn:E.
  - destruct (encode (zeros (ls z) ++ m_raw m)) as [|c r] eqn:Eb; [rewrite bind_Ok; eexists; reflexivity|].
    rewrite slice_str_ascii by (auto; rewrite ?len_cons; lia). rewrite !bind_Ok. destruct (beq _ _); (rewrite from_str_ascii; [eexists; reflexivity|auto|rewrite len_cons; lia]).
  - rewrite bind_Ok. rewrite from_str_ascii; [eexists; reflexivity|auto|]. assert (4 <= len (encode (zeros (ls z) ++ m_raw m))); [|lia].
    apply encode_len4. intros X. apply (f_equal (@len _)) in X. rewrite len_app, len_zeros in X. change (len (@nil byte)) with 0 in X. lia.
Qed.

(** The elements read from a text. *)
Definition read_path (s : bytes) : option (list bytes) :=
  match s with
  | c :: r => if Byte.eqb c x2d then Some (match split_on x2d r with [] :: _ => [] | l => l end) else None
  | [] => None
  end.
Lemma path_eq m s : bext_of m = Ok s -> path_of m = match read_path s with Some l => Ok (VArr (map VStr l)) | None => Err EValue end.
Proof.
  intros H. pose proof (bext_ascii _ _ H) as A. unfold path_of. rewrite H, bind_Ok. destruct s as [|c r]; [reflexivity|]. cbn [read_path]. destruct (Byte.eqb c x2d); [|reflexivity]. cbn [negb].
  rewrite from_str_ascii; [|auto|rewrite len_cons; lia]. change (drop 1 (c :: r)) with r. rewrite bind_Ok. cbv zeta. destruct (split_pieces r) as (p & ps & S & _). rewrite S. cbn [map].
  change (to_string (VStr p)) with (@Ok bytes p). rewrite bind_Ok. now destruct p.
Qed.
Lemma map_VStr_inj a b : map VStr a = map VStr b -> a = b.
Proof. revert b. induction a as [|x a IH]; intros [|y b] H; try discriminate; auto. cbn [map] in H. injection H as -> H. f_equal. auto. Qed.
Lemma elements_eq m s els : bext_of m = Ok s -> (elements m els <-> read_path s = Some els).
Proof.
  intros H. unfold elements. rewrite (path_eq m s H). destruct (read_path s) as [l|]; split; intros E; try discriminate.
  - injection E as E. now apply map_VStr_inj in E as ->.
  - now injection E as ->.
Qed.
Lemma read_text els : separable els -> read_path (path_text els) = Some els.
Proof.
  intros (H & N). destruct (path_text_dash els) as (r & -> & ->). cbn [read_path]. rewrite byte_eqb_refl. destruct els as [|e l]; [reflexivity|].
  rewrite split_text by (apply Forall_forall; auto). destruct e; [now destruct (N l)|reflexivity].
Qed.
Lemma read_separable s els : read_path s = Some els -> separable els.
Proof.
  unfold read_path. destruct s as [|c r]; [discriminate|]. destruct (Byte.eqb c x2d); [|discriminate]. intros H. destruct (split_pieces r) as (p & ps & S & F & _). rewrite S in H.
  destruct p as [|x p]; injection H as <-; [split; [intros e []|discriminate]|]. split; [now apply Forall_forall|discriminate].
Qed.

(** ** Building paths *)
Lemma of_bext s : pather_of_bext s = bexter_new (Some s) None None None None None.
Proof. reflexivity. Qed.
Lemma integer_text_of z : is_i64 z = true -> integer_text z (int_text z).
Proof.
  intros H. unfold is_i64 in H. unfold int_text.
  assert (forall n, n < 10 ^ 40 -> decimal (dec_text n) n /\ (forall r, dec_text n = s! "0" ++ r -> r = [])) as D.
  { intros n L. split; [now apply decimal_dec|]. intros r E. pose proof (dec_lead n L) as B. rewrite E in B. destruct r; auto. discriminate B. }
  destruct (z <? 0)%Z eqn:E.
  - exists (dec_text (Z.to_N (- z))), (Z.to_N (- z)). destruct (D (Z.to_N (- z))) as (A & B); [change (10 ^ 40) with 10000000000000000000000000000000000000000; lia|]. split; auto. split; auto. right. split; [lia|]. split; [lia|reflexivity].
  - exists (dec_text (Z.to_N z)), (Z.to_N z). destruct (D (Z.to_N z)) as (A & B); [change (10 ^ 40) with 10000000000000000000000000000000000000000; lia|]. split; auto. split; auto. left. split; [lia|reflexivity].
Qed.

(** Decimal numerals without superfluous zeros are unique. *)
Definition dec_of (s : bytes) : N := fold_left (fun a c => a * 10 + (b2n c - 48)) s 0.
Lemma dec_of_snoc s c : dec_of (s ++ [c]) = dec_of s * 10 + (b2n c - 48).
Proof. unfold dec_of. now rewrite fold_left_app. Qed.
Definition digital (s : bytes) : Prop := Forall (fun c => 48 <= b2n c <= 57) s.
Definition lead (s : bytes) : Prop := forall r, s <> x30 :: r.
Lemma lead_snoc s c : s <> [] -> lead (s ++ [c]) -> lead s.
Proof. intros N L r E. apply (L (r ++ [c])). subst s. reflexivity. Qed.
Lemma lead_pos s : digital s -> lead s -> dec_of s = 0 -> s = [].
Proof.
  induction s as [|c s IH] using rev_ind; auto. intros D L E. exfalso. rewrite dec_of_snoc in E. apply Forall_app in D as (D1 & D2). inversion D2; subst.
  destruct s as [|x s].
  - apply (L []). cbn. f_equal. apply b2n_inj. change (b2n x30) with 48. lia.
  - assert (x :: s = []) as X; [|discriminate X]. apply IH; auto; [eapply lead_snoc; eauto; discriminate|lia].
Qed.
Lemma lead_inj s : forall t, digital s -> digital t -> lead s -> lead t -> dec_of s = dec_of t -> s = t.
Proof.
  induction s as [|c s IH] using rev_ind; intros t DS DT LS LT E.
  - symmetry. apply lead_pos; auto.
  - destruct t as [|d t _] using rev_ind. { apply lead_pos; auto. }
    rewrite !dec_of_snoc in E. apply Forall_app in DS as (D1 & D2), DT as (D3 & D4). inversion D2; inversion D4; subst. assert (c = d) as -> by (apply b2n_inj; lia). f_equal.
    apply IH; auto; try lia.
    + destruct s; [intros r X; discriminate X|]. eapply lead_snoc; eauto. discriminate.
    + destruct t; [intros r X; discriminate X|]. eapply lead_snoc; eauto. discriminate.
Qed.
Lemma decimal_unique a b n : decimal a n -> decimal b n -> (forall r, a = s! "0" ++ r -> r = []) -> (forall r, b = s! "0" ++ r -> r = []) -> a = b.
Proof.
  intros (A1 & A2 & A3) (B1 & B2 & B3) LA LB. fold (dec_of a) in A3. fold (dec_of b) in B3. change (digital a) in A2. change (digital b) in B2.
  assert (forall d, d <> [] -> digital d -> (forall r, d = s! "0" ++ r -> r = []) -> d = s! "0" /\ dec_of d = 0 \/ lead d /\ 0 < dec_of d) as K.
  { intros d N D L. destruct d as [|c d]; [congruence|]. destruct (Byte.eqb c x30) eqn:C.
    - apply byte_eqb_eq in C. subst. left. rewrite (L d eq_refl). split; reflexivity.
    - assert (lead (c :: d)) as LL by (intros r X; injection X as -> _; discriminate C). right. split; auto. destruct (dec_of (c :: d)) eqn:V; [|lia]. exfalso. apply N. now apply lead_pos. }
  destruct (K a A1 A2 LA) as [(-> & E)|(L & P)], (K b B1 B2 LB) as [(-> & E')|(L' & P')]; auto; try lia. apply lead_inj; auto. congruence.
Qed.
Lemma i64_range z : is_i64 z = true <-> (- 2 ^ 63 <= z < 2 ^ 63)%Z.
Proof. unfold is_i64. change (2 ^ 63)%Z with 9223372036854775808%Z. lia. Qed.
Lemma integer_text_eq z t : (- 2 ^ 63 <= z < 2 ^ 63)%Z -> integer_text z t -> int_text z = t.
Proof.
  intros H (d & n & D & L & C). apply i64_range in H. destruct (integer_text_of z H) as (d' & n' & D' & L' & C').
  destruct C as [(A & B)|(P & A & B)], C' as [(A' & B')|(P' & A' & B')]; try lia; assert (n' = n) as -> by lia; rewrite B', B; [|f_equal]; eapply decimal_unique; eauto.
Qed.

Lemma element_texts_eq vs els : Forall2 names vs els -> Forall (over base64url_alphabet) els -> element_texts vs = Ok els.
Proof.
  intros F. induction F as [|v t vs els N F IH]; intros O; [reflexivity|]. inversion O as [|? ? O1 O2]; subst. cbn [element_texts]. rewrite IH by auto. unfold element_text.
  assert (reb64 t = true) as B by (now apply over_b64).
  destruct N as [->|(z & -> & R & I)].
  - cbn [to_string bind]. now rewrite B.
  - cbn [to_string to_i64 bind]. rewrite (integer_text_eq _ _ R I), B. reflexivity.
Qed.
Lemma element_texts_inv vs : (forall z, In (VInt z) vs -> (- 2 ^ 63 <= z < 2 ^ 63)%Z) -> forall els, element_texts vs = Ok els -> Forall2 names vs els /\ Forall (over base64url_alphabet) els.
Proof.
  induction vs as [|v vs IH]; intros R els H; cbn [element_texts] in H; [injection H as <-; auto|]. apply bind_ok in H as (p & P & H). apply bind_ok in H as (ps & PS & H). injection H as <-.
  destruct (IH (fun z I => R z (or_intror I)) _ PS) as (A & B). unfold element_text in P. apply bind_ok in P as (q & Q & P). destruct (reb64 q) eqn:O; [|discriminate]. injection P as <-.
  split; constructor; auto; [|now apply over_b64]. destruct v; try discriminate Q.
  - change (Ok (int_text z) = Ok q) in Q. injection Q as <-. right. exists z. split; auto. split; [apply R; now left|]. apply integer_text_of. apply i64_range. apply R. now left.
  - injection Q as <-. now left.
Qed.
Lemma of_path_eq vs els : element_texts vs = Ok els -> pather_of_path (VArr vs) = bexter_new (Some (path_text els)) None None None None None.
Proof.
  intros H. unfold pather_of_path, pather_new, bextify. cbn [is_none andb or_else to_vec]. rewrite bind_Ok, H, bind_Ok, join_dashes. rewrite bind_Ok. reflexivity.
Qed.
Lemma texts_built els : Forall (over base64url_alphabet) els -> len (path_text els) <= 67108860 ->
  exists m t b, bexter_new (Some (path_text els)) None None None None None = Ok m /\ In (m_code m) bexter_codes /\ bext_of m = Ok (path_text els) /\ infil m = Ok t /\ binfil m = Ok b /\
    matter_new (Some (s! "4A")) None None (Some t) None = Ok m /\ matter_new (Some (s! "4A")) None (Some t) None None = Ok m /\ matter_new (Some (s! "4A")) None None None (Some b) = Ok m.
Proof.
  intros O L. destruct (bexter_ok (path_text els) (path_text_b64 _ O) L) as (m & B1 & B2 & W & B3). destruct (wf_round m W) as (t & b & I & B & T1 & T2 & T3). exists m, t, b.
  split; auto. split; auto. split; [|cbn [matter_new]; auto]. rewrite B3. destruct (path_text_dash els) as (r & -> & _). reflexivity.
Qed.
Lemma str_texts els : Forall (over base64url_alphabet) els -> element_texts (map VStr els) = Ok els.
Proof. intros O. apply element_texts_eq; auto. clear O. induction els; cbn; constructor; auto. now left. Qed.
Lemma element_texts_np vs : element_texts vs <> Panic.
Proof.
  induction vs as [|v vs IH]; cbn [element_texts]; [discriminate|]. apply bind_np.
  - unfold element_text. apply bind_np; [destruct v; discriminate|]. intros p _. destruct (negb (reb64 p)); discriminate.
  - intros p _. apply bind_np; auto. discriminate.
Qed.

(** ** Round trip *)
(*# C72_path_round_trip_refuted
   False as stated: an element with a dash is accepted and comes back as two, and a path with an empty first element comes back empty.
#*)
Lemma C72_no_l : (exists m, pather_of_path (VArr [VStr (s! "a-b")]) = Ok m /\ elements m [s! "a"; s! "b"]) /\
  (exists m, pather_of_path (VArr [VStr []; VStr (s! "x")]) = Ok m /\ elements m []) /\ (exists m, pather_of_path (VArr [VInt (-5)]) = Ok m /\ elements m []).
Proof. repeat split; (eexists; split; [vm_compute; reflexivity|vm_compute; reflexivity]). Qed.
(*# C72_path_round_trip_partial
   A pather built from a list of elements, given as texts over the base64url alphabet or as integers, has their text and is the same after qb64, qb64b and qb2. It gives
   the elements (as texts) back exactly if none contains a dash and the first is not empty. Full statement: always; see C72_path_round_trip_refuted.
##
Example C72_case : exists m, pather_of_path (VArr [VStr (s! "field0"); VInt 12; VStr []; VStr (s! "z_")]) = Ok m /\ bext_of m = Ok (s! "-field0-12--z_") /\
  elements m [s! "field0"; s! "12"; []; s! "z_"].
Proof. eexists. split; [vm_compute; reflexivity|]. split; vm_compute; reflexivity. Qed.
#*)
Lemma C72_l (vs : list value) (els : list bytes) : Forall2 names vs els -> Forall (over base64url_alphabet) els -> len (path_text els) <= 67108860 ->
  exists m t b, pather_of_path (VArr vs) = Ok m /\ bext_of m = Ok (path_text els) /\ infil m = Ok t /\ binfil m = Ok b /\
    pather_new None None None None None (Some t) None = Ok m /\ pather_new None None None None (Some t) None None = Ok m /\ pather_new None None None None None None (Some b) = Ok m /\
    (elements m els <-> separable els).
Proof.
  intros F O L. destruct (texts_built els O L) as (m & t & b & B & C & E & I & I2 & P1 & P2 & P3). exists m, t, b.
  split; [rewrite (of_path_eq _ _ (element_texts_eq _ _ F O)); auto|]. split; auto. split; auto. split; auto.
  assert (validate bexter_codes (m_code m) = Ok tt) as V by (apply validate_ok; auto).
  unfold pather_new. cbn [is_none andb or_else]. rewrite P1, P2, P3, !bind_Ok, V. cbn [bind]. repeat (split; [reflexivity|]).
  rewrite (elements_eq m _ els E). split; [apply read_separable|apply read_text].
Qed.
(*# C72_paths_accepted
   A pather is built from a list exactly if each element is a text or an integer, over the base64url alphabet, and the text fits the largest code; otherwise the call
   fails with an error. The length of the text is below 2^32.
##
Example C72_accepted_case : is_err (pather_of_path (VArr [VStr (s! "a"); VBool true])) = true /\ is_err (pather_of_path (VArr [VStr (s! "a.b")])) = true /\ names (VInt (-5)) (s! "-5").
Proof.
  split; [reflexivity|]. split; [reflexivity|]. right. exists (-5)%Z. split; [reflexivity|]. split; [split; [discriminate|reflexivity]|]. exists (s! "5"), 5. split; [|split; [intros r H; discriminate H|right; repeat split]].
  split; [discriminate|]. split; [repeat constructor; discriminate|reflexivity].
Qed.
#*)
Lemma C72_accepted_l (vs : list value) : (forall z, In (VInt z) vs -> (- 2 ^ 63 <= z < 2 ^ 63)%Z) -> (forall els, Forall2 names vs els -> len (path_text els) < 2 ^ 32) ->
  ((exists m, pather_of_path (VArr vs) = Ok m) <-> exists els, Forall2 names vs els /\ Forall (over base64url_alphabet) els /\ len (path_text els) <= 67108860) /\
  pather_of_path (VArr vs) <> Panic.
Proof.
  intros R L. destruct (element_texts vs) as [els| |] eqn:E; [| |now apply element_texts_np in E].
  - destruct (element_texts_inv vs R els E) as (F & O). rewrite (of_path_eq _ _ E). destruct (C39_l (path_text els) (L _ F)) as (A & B). split; auto. rewrite A. split.
    + intros (_ & X). eauto.
    + intros (els' & F' & O' & X). split; [apply over_b64; now apply path_text_b64|]. rewrite (element_texts_eq _ _ F' O') in E. injection E as ->. auto.
  - assert (pather_of_path (VArr vs) = Err e) as ->. { unfold pather_of_path, pather_new, bextify. cbn [is_none andb or_else to_vec bind]. rewrite E. reflexivity. }
    split; [|discriminate]. split; [intros (m & X); discriminate|]. intros (els & F & O & _). rewrite (element_texts_eq _ _ F O) in E. discriminate.
Qed.

(** ** Rooting and stripping *)
Lemma concat_text l : l <> [] -> path_text l = concat (map (fun e => s! "-" ++ e) l).
Proof. now destruct l. Qed.
Lemma text_app r p : exists t, path_text (r ++ p) = path_text r ++ t.
Proof.
  destruct r as [|e r]. { cbn [app]. destruct (path_text_dash p) as (t & -> & _). exists t. reflexivity. }
  rewrite !concat_text by discriminate. rewrite map_app, concat_app. eauto.
Qed.
Lemma root_separable r p : separable r -> separable p -> separable (r ++ p).
Proof.
  intros (A & B) (C & D). split.
  - intros e I. apply in_app_or in I as [I|I]; auto.
  - intros t E. destruct r as [|e r]; [now apply (D t)|]. injection E as -> _. now apply (B r).
Qed.
Lemma starts_eq a b x y : bext_of a = Ok x -> bext_of b = Ok y -> (path_starts_with a b = Ok true <-> exists t, x = y ++ t) /\ is_ok (path_starts_with a b) = true.
Proof.
  intros A B. unfold path_starts_with. rewrite A, B, !bind_Ok. split; [|reflexivity]. split.
  - intros H. injection H as H. apply beq_eq in H. exists (drop (len y) x). rewrite <- (take_drop (len y) x) at 1. now rewrite H.
  - intros (t & ->). f_equal. rewrite take_app_exact by reflexivity. apply beq_refl.
Qed.
Lemma elements_read m els : elements m els -> exists s, bext_of m = Ok s /\ read_path s = Some els.
Proof.
  intros H. pose proof H as H'. unfold elements, path_of in H'. apply bind_ok in H' as (s & S & _). exists s. split; auto. eapply elements_eq; eauto.
Qed.
(*# C73_root
   Rooting a path at another gives the path of the elements of the root followed by its own; it starts with the root if the text of the root is that of its elements.
##
Example C73_root_case : exists a r m, pather_of_bext (s! "-a-b") = Ok a /\ pather_of_bext (s! "-r") = Ok r /\ path_root a r = Ok m /\ elements m [s! "r"; s! "a"; s! "b"] /\ path_starts_with m r = Ok true.
Proof. eexists. eexists. eexists. split; [vm_compute; reflexivity|]. split; [vm_compute; reflexivity|]. split; [vm_compute; reflexivity|]. split; vm_compute; reflexivity. Qed.
#*)
Lemma C73_root_l (self root : matter) (p r : list bytes) : elements self p -> elements root r -> Forall (over base64url_alphabet) (r ++ p) -> len (path_text (r ++ p)) <= 67108860 ->
  exists m, path_root self root = Ok m /\ elements m (r ++ p) /\ bext_of m = Ok (path_text (r ++ p)) /\ (bext_of root = Ok (path_text r) -> path_starts_with m root = Ok true).
Proof.
  intros P Q O L. destruct (texts_built _ O L) as (m & _ & _ & B & _ & E & _). exists m. split.
  - unfold path_root. rewrite Q, bind_Ok. cbn [to_vec bind]. rewrite P. cbn [to_vec bind]. rewrite <- map_app. rewrite (of_path_eq _ _ (str_texts _ O)). exact B.
  - split; [|split; auto].
    + apply (elements_eq m _ _ E). apply read_text. destruct (elements_read _ _ P) as (s & _ & RP), (elements_read _ _ Q) as (s' & _ & RQ).
      apply root_separable; eapply read_separable; eauto.
    + intros BR. apply (starts_eq _ _ _ _ E BR). apply text_app.
Qed.
(*# C73_root_start_refuted
   Without that condition a rooted path need not start with its root: the path --x has no elements.
#*)
Lemma C73_start_no_l : exists a r m, pather_of_bext (s! "-a") = Ok a /\ pather_of_bext (s! "--x") = Ok r /\ path_root a r = Ok m /\ path_starts_with m r = Ok false.
Proof. eexists. eexists. eexists. split; [vm_compute; reflexivity|]. split; [vm_compute; reflexivity|]. split; [vm_compute; reflexivity|]. vm_compute. reflexivity. Qed.
(*# C73_strip_refuted
   False as stated: rooting b-a at a and stripping a gives a-b.
#*)
Lemma C73_no_l : exists p r m n, pather_of_bext (s! "-b-a") = Ok p /\ pather_of_bext (s! "-a") = Ok r /\ path_root p r = Ok m /\ path_strip m r = Ok n /\ bext_of n = Ok (s! "-a-b").
Proof.
  eexists. eexists. eexists. eexists. split; [vm_compute; reflexivity|]. split; [vm_compute; reflexivity|]. split; [vm_compute; reflexivity|]. split; [vm_compute; reflexivity|]. vm_compute. reflexivity.
Qed.

(** The last position of an element. *)
Fixpoint last_index (t : bytes) (l : list bytes) : option N :=
  match l with
  | [] => None
  | x :: r => match last_index t r with Some i => Some (i + 1) | None => if beq x t then Some 0 else None end
  end.
Lemma assoc_insert {A} t k (v : A) m : assoc t (insert k v m) = if beq k t then Some v else assoc t m.
Proof.
  induction m as [|(k', v') m IH]; cbn [insert assoc]; [reflexivity|]. destruct (beq k' k) eqn:E; cbn [assoc].
  - apply beq_eq in E. subst. now destruct (beq k t).
  - rewrite IH. destruct (beq k' t) eqn:E1; auto. apply beq_eq in E1. subst. destruct (beq k t) eqn:E2; auto. apply beq_eq in E2. subst. rewrite beq_refl in E. discriminate.
Qed.
Lemma positions_eq l : forall i m, exists hm, positions i (map VStr l) m = Ok hm /\ forall t, assoc t hm = match last_index t l with Some j => Some (i + j) | None => assoc t m end.
Proof.
  induction l as [|x l IH]; intros i m; cbn [map positions to_string]; [exists m; split; auto|].
  destruct (IH (i + 1) (insert x i m)) as (hm & H & A). exists hm. split; auto. intros t. rewrite A. cbn [last_index]. destruct (last_index t l) as [j|]; [f_equal; lia|].
  rewrite assoc_insert. destruct (beq x t); auto. f_equal. lia.
Qed.
Lemma last_index_spec t l j : last_index t l = Some j <-> exists u w, l = u ++ t :: w /\ ~ In t w /\ j = len u.
Proof.
  revert j. induction l as [|x l IH]; intros j; cbn [last_index].
  - split; [discriminate|]. intros (u & w & E & _). destruct u; discriminate.
  - destruct (last_index t l) as [i|] eqn:I.
    + destruct (proj1 (IH i) eq_refl) as (u & w & -> & N & ->). split.
      * intros [= <-]. exists (x :: u), w. split; [reflexivity|]. split; auto. rewrite len_cons. lia.
      * intros (u' & w' & E & N' & ->). destruct u' as [|y u']; injection E as -> E.
        -- exfalso. apply N'. rewrite <- E. apply in_or_app. right. now left.
        -- assert (Some (len u) = Some (len u')) as X; [|injection X as ->; rewrite len_cons; f_equal; lia]. apply IH. eauto.
    + assert (~ In t l) as NI.
      { intros X. apply in_split in X as (a & b & ->). clear -I IH. assert (exists u w, a ++ t :: b = u ++ t :: w /\ ~ In t w) as (u & w & E & N).
        { clear. revert a. induction b as [b IH] using (induction_ltof1 _ (@length bytes)). unfold ltof in IH. intros a. destruct (in_dec (list_eq_dec Byte.byte_eq_dec) t b) as [H|H]; [|eauto].
          apply in_split in H as (c & d & ->). destruct (IH d) with (a := a ++ t :: c) as (u & w & E & N); [rewrite app_length; cbn; lia|]. exists u, w. rewrite <- E. rewrite <- app_assoc. auto. }
        assert (None = Some (len u)) as Y; [|discriminate]. apply IH. eauto. }
      destruct (beq x t) eqn:X.
      * apply beq_eq in X. subst. split.
        -- intros [= <-]. exists [], l. auto.
        -- intros (u & w & E & N & ->). destruct u as [|y u]; [reflexivity|]. injection E as _ ->. exfalso. apply NI. apply in_or_app. right. now left.
      * split; [discriminate|]. intros (u & w & E & N & ->). destruct u as [|y u]; injection E as -> E; [rewrite beq_refl in X; discriminate|]. exfalso. apply NI. rewrite E. apply in_or_app. right. now left.
Qed.
Lemma remove_prefix hm r : forall p, (forall a x b, r = a ++ x :: b -> assoc x hm = Some (len a)) -> remove_each hm (rev (map VStr r)) (map VStr (r ++ p)) = Ok (map VStr p).
Proof.
  induction r as [|x r IH] using rev_ind; intros p H; [reflexivity|]. rewrite map_app. cbn [map]. rewrite rev_app_distr. cbn [rev app remove_each to_string bind].
  rewrite (H r x []) by reflexivity. unfold vec_remove. rewrite <- app_assoc. cbn [app]. rewrite map_app. cbn [map].
  assert (len (map VStr r) = len r) as LM by (unfold len; now rewrite map_length).
  assert (len r <? len (map VStr r ++ VStr x :: map VStr p) = true) as -> by (rewrite len_app, len_cons; lia). rewrite bind_Ok.
  rewrite take_app_exact by auto. replace (drop (len r + 1) (map VStr r ++ VStr x :: map VStr p)) with (map VStr p).
  - rewrite <- map_app. apply IH. intros a y b E. apply (H a y (b ++ [x])). rewrite E, <- app_assoc. reflexivity.
  - change (map VStr r ++ VStr x :: map VStr p) with (map VStr r ++ [VStr x] ++ map VStr p). rewrite app_assoc. rewrite drop_app_exact; auto. rewrite len_app, LM. reflexivity.
Qed.
(*# C73_strip_partial
   What holds: if the elements of the root are different from each other and from those that follow, stripping the root gives what follows, and a path shorter than the
   root is left alone. Full statement: for all paths; see C73_strip_refuted.
##
Example C73_strip_case : exists a r m, pather_of_bext (s! "-a-b-c") = Ok a /\ pather_of_bext (s! "-a-b") = Ok r /\ path_strip a r = Ok m /\ elements m [s! "c"] /\ path_strip r a = Ok r.
Proof. eexists. eexists. eexists. split; [vm_compute; reflexivity|]. split; [vm_compute; reflexivity|]. split; [vm_compute; reflexivity|]. split; vm_compute; reflexivity. Qed.
#*)
Lemma C73_strip_l (self root : matter) (q r : list bytes) : elements self q -> elements root r ->
  (forall p, q = r ++ p -> NoDup r -> (forall e, In e r -> ~ In e p) -> Forall (over base64url_alphabet) p -> len (path_text p) <= 67108860 ->
     exists m, path_strip self root = Ok m /\ bext_of m = Ok (path_text p) /\ (separable p -> elements m p)) /\
  (len q < len r -> path_strip self root = Ok self).
Proof.
  intros Q RR. assert (path_strip self root = (let* hashmap := positions 0 (map VStr q) [] in if len (map VStr q) <? len (map VStr r) then Ok self
    else let* path := remove_each hashmap (rev (map VStr r)) (map VStr q) in pather_of_path (VArr path))) as ->.
  { unfold path_strip. rewrite RR, bind_Ok. cbn [to_vec bind]. rewrite Q. reflexivity. }
  destruct (positions_eq q 0 []) as (hm & -> & A). rewrite bind_Ok. assert (forall l : list bytes, len (map VStr l) = len l) as LM by (intros; unfold len; now rewrite map_length). rewrite !LM. split.
  - intros p -> ND DJ O L. assert (len (r ++ p) <? len r = false) as -> by (rewrite len_app; lia). rewrite remove_prefix.
    + rewrite bind_Ok, (of_path_eq _ _ (str_texts _ O)). destruct (texts_built _ O L) as (m & _ & _ & B & _ & E & _). exists m. split; auto. split; auto. intros S. apply (elements_eq m _ _ E). now apply read_text.
    + intros a x b ->. rewrite A. assert (last_index x ((a ++ x :: b) ++ p) = Some (len a)) as ->; [|reflexivity]. apply last_index_spec. exists a, (b ++ p). rewrite <- app_assoc. split; [reflexivity|]. split; auto.
      intros I. apply in_app_or in I as [I|I].
      * apply NoDup_remove_2 in ND. apply ND. apply in_or_app. now right.
      * apply (DJ x); auto. apply in_or_app. right. now left.
  - intros L. replace (len q <? len r) with true by lia. reflexivity.
Qed.

(** ** Prefixes *)
(*# C74_starts_with_refuted
   False as stated: the path ab starts with the path a.
#*)
Lemma C74_no_l : exists p q, pather_of_bext (s! "-ab") = Ok p /\ pather_of_bext (s! "-a") = Ok q /\ elements p [s! "ab"] /\ elements q [s! "a"] /\ path_starts_with p q = Ok true.
Proof. eexists. eexists. split; [vm_compute; reflexivity|]. split; [vm_compute; reflexivity|]. split; [vm_compute; reflexivity|]. split; vm_compute; reflexivity. Qed.
Definition dashed (l : list bytes) : bytes := concat (map (fun e => s! "-" ++ e) l).
Lemma dashed_cons e l : dashed (e :: l) = x2d :: e ++ dashed l.
Proof. reflexivity. Qed.
Lemma dashed_head l : dashed l = [] /\ l = [] \/ exists t, dashed l = x2d :: t.
Proof. destruct l; [now left|]. right. rewrite dashed_cons. eauto. Qed.
Lemma cut x : forall y l t, ~ In x2d x -> y ++ dashed l = x ++ t -> exists t', y = x ++ t' /\ t = t' ++ dashed l.
Proof.
  induction x as [|c x IH]; intros y l t N E; [exists y; auto|]. destruct y as [|d y].
  - exfalso. destruct (dashed_head l) as [(D & _)|(u & D)]; cbn [app] in E; rewrite D in E; [discriminate|]. injection E as <- _. apply N. now left.
  - injection E as -> E. destruct (IH y l t) as (t' & -> & T); auto; [intros X; apply N; now right|]. exists t'. auto.
Qed.
Lemma dashed_prefix q : forall p, Forall (fun e => ~ In x2d e) p -> Forall (fun e => ~ In x2d e) q -> q <> [] ->
  ((exists t, dashed p = dashed q ++ t) <-> exists i x t rest, q = i ++ [x] /\ p = i ++ (x ++ t) :: rest).
Proof.
  induction q as [|x q IH]; intros p P Q N; [congruence|]. inversion Q as [|? ? Q1 Q2]; subst. destruct q as [|x' q].
  - split.
    + intros (t & E). destruct p as [|y p]; [discriminate|]. rewrite !dashed_cons in E. cbn [app] in E. injection E as E. rewrite app_nil_r in E. destruct (cut _ _ _ _ Q1 E) as (t' & -> & _).
      exists [], x, t', p. auto.
    + intros (i & z & t & rest & E & ->). destruct i as [|i0 i]; [|destruct i; discriminate]. injection E as <-. exists (t ++ dashed rest). cbn [app]. rewrite !dashed_cons. cbn [app]. rewrite app_nil_r, <- app_assoc. reflexivity.
  - split.
    + intros (t & E). destruct p as [|y p]; [discriminate|]. inversion P as [|? ? P1 P2]; subst. rewrite (dashed_cons y), (dashed_cons x) in E. cbn [app] in E. injection E as E. rewrite <- app_assoc in E.
      destruct (cut _ _ _ _ Q1 E) as (t' & -> & T). rewrite dashed_cons in T. cbn [app] in T. destruct t' as [|c t'].
      * cbn [app] in T. rewrite app_nil_r. assert (exists t, dashed p = dashed (x' :: q) ++ t) as X by (exists t; rewrite dashed_cons; auto). apply (IH p P2 Q2) in X; [|discriminate].
        destruct X as (i & z & u & rest & -> & ->). exists (x :: i), z, u, rest. auto.
      * exfalso. injection T as T1 _. subst c. apply P1. apply in_or_app. right. now left.
    + intros (i & z & t & rest & E & ->). destruct i as [|i0 i]; [discriminate|]. injection E as <- E. assert (exists t0, dashed (i ++ (z ++ t) :: rest) = dashed (x' :: q) ++ t0) as (t0 & X).
      { apply IH; auto; [inversion P; auto|discriminate|]. exists i, z, t, rest. auto. }
      exists t0. cbn [app]. rewrite (dashed_cons x (i ++ _)), X, (dashed_cons x (x' :: q)). cbn [app]. now rewrite <- app_assoc.
Qed.
(*# C74_starts_with_partial
   What holds, for paths whose text is that of their elements: a path starts with the empty path, and with another exactly if the elements of the other but the last are
   its first elements, and the last is a textual prefix of the next. Full statement: an equal one; see C74_starts_with_refuted.
##
Example C74_case : exists p q, pather_of_bext (s! "-a-bc-d") = Ok p /\ pather_of_bext (s! "-a-bc") = Ok q /\ bext_of p = Ok (path_text [s! "a"; s! "bc"; s! "d"]) /\
  path_starts_with p q = Ok true /\ path_starts_with q p = Ok false.
Proof. eexists. eexists. split; [vm_compute; reflexivity|]. split; [vm_compute; reflexivity|]. split; [vm_compute; reflexivity|]. split; vm_compute; reflexivity. Qed.
#*)
Lemma C74_l (self other : matter) (p q : list bytes) : bext_of self = Ok (path_text p) -> bext_of other = Ok (path_text q) -> separable p -> separable q ->
  (path_starts_with self other = Ok true <-> q = [] \/ exists i x t rest, q = i ++ [x] /\ p = i ++ (x ++ t) :: rest) /\
  (path_starts_with self other = Ok true \/ path_starts_with self other = Ok false) /\
  ((exists rest, p = q ++ rest) -> path_starts_with self other = Ok true).
Proof.
  intros P Q SP SQ. destruct (starts_eq _ _ _ _ P Q) as (S & T).
  assert (path_starts_with self other = Ok true <-> q = [] \/ exists i x t rest, q = i ++ [x] /\ p = i ++ (x ++ t) :: rest) as M.
  { rewrite S. destruct q as [|e q].
    - split; auto. intros _. destruct (path_text_dash p) as (r & -> & _). exists r. reflexivity.
    - rewrite (concat_text (e :: q)) by discriminate. fold (dashed (e :: q)). destruct p as [|f p].
      + split; [|intros [X|(i & x & t & rest & _ & X)]; [discriminate|destruct i; discriminate]]. intros (t & E). exfalso. rewrite dashed_cons in E. cbn in E. injection E as E.
        destruct e; [now apply (proj2 SQ q)|discriminate].
      + rewrite (concat_text (f :: p)) by discriminate. fold (dashed (f :: p)). rewrite dashed_prefix; [split; [auto|intros [X|X]; [discriminate|auto]]| | |discriminate].
        * apply Forall_forall. apply SP.
        * apply Forall_forall. apply SQ. }
  split; auto. split.
  - destruct (path_starts_with self other) as [[]| |]; auto; discriminate.
  - intros (rest & ->). apply M. destruct q as [|e q] using rev_ind; [now left|]. right. exists q, e, [], rest. rewrite app_nil_r, <- app_assoc. auto.
Qed.

(** ** Resolution *)
Lemma plus_char c : is_b64 c = true \/ c = pad_char -> c <> x2b.
Proof. intros [H| ->] E; [|discriminate E]. subst c. discriminate H. Qed.
Lemma encode_chars l : forall c, In c (encode l) -> is_b64 c = true \/ c = pad_char.
Proof.
  induction l as [|a|a b|a b c r IH] using list_ind3; intros x H.
  - destruct H.
  - cbn [encode In] in H. repeat (destruct H as [<-|H]; [first [right; reflexivity|left; apply is_b64_char; pose proof (b2n_lt a); lia]|]). destruct H.
  - cbn [encode In] in H. repeat (destruct H as [<-|H]; [first [right; reflexivity|left; apply is_b64_char; pose proof (b2n_lt a); pose proof (b2n_lt b); lia]|]). destruct H.
  - rewrite encode_cons3 in H. apply in_app_or in H as [H|H]; auto. unfold enc3 in H. cbn [In] in H.
    repeat (destruct H as [<-|H]; [left; apply is_b64_char; pose proof (b2n_lt a); pose proof (b2n_lt b); pose proof (b2n_lt c); lia|]). destruct H.
Qed.
Lemma bext_no_plus m s : bext_of m = Ok s -> ~ In x2b s.
Proof.
  unfold bext_of. intros H I. apply bind_ok in H as (z & _ & H). cbv zeta in H. apply bind_ok in H as (w & _ & H). pose proof (encode_ascii (zeros (ls z) ++ m_raw m)) as A.
  apply from_str_inv in H; auto. subst. eapply (plus_char x2b); [|reflexivity]. apply (encode_chars (zeros (ls z) ++ m_raw m)).
  rewrite <- (take_drop w (encode (zeros (ls z) ++ m_raw m))). apply in_or_app. now right.
Qed.
Lemma in_dashed c l : In c (concat (map (fun e => s! "-" ++ e) l)) <-> exists e, In e l /\ (c = x2d \/ In c e).
Proof.
  rewrite in_concat. split.
  - intros (x & I & H). apply in_map_iff in I as (e & <- & I). exists e. split; auto. apply in_app_or in H as [[H|[]]|H]; auto.
  - intros (e & I & H). exists (s! "-" ++ e). split; [apply in_map_iff; eauto|]. apply in_or_app. destruct H as [->|H]; auto. left. now left.
Qed.
Lemma element_no_plus m els e : elements m els -> In e els -> ~ In x2b e.
Proof.
  intros H I P. destruct (elements_read _ _ H) as (s & S & RD). apply (bext_no_plus _ _ S). unfold read_path in RD. destruct s as [|c r]; [discriminate|]. destruct (Byte.eqb c x2d); [|discriminate].
  destruct (split_pieces r) as (p & ps & E & _ & J). rewrite E in RD. right. rewrite J. assert (In e (p :: ps)) as [<-|X].
  { destruct p; injection RD as <-; [destruct I|exact I]. }
  - apply in_or_app. now left.
  - apply in_or_app. right. apply in_dashed. exists e. auto.
Qed.
Lemma usize_position e n : ~ In x2b e -> (parse_usize e = Some n <-> position e n).
Proof.
  intros P. assert (parse_usize e = match e with [] => None | _ => match dec_val 0 e with Some v => if v <=? u64_max then Some v else None | None => None end end) as ->.
  { unfold parse_usize. destruct e as [|c e]; [reflexivity|]. destruct (Byte.eqb c x2b) eqn:C; [apply byte_eqb_eq in C; subst; exfalso; apply P; now left|]. destruct c; try reflexivity. discriminate C. }
  unfold position. change (2 ^ 64) with (u64_max + 1). split.
  - destruct e as [|c e]; [discriminate|]. destruct (dec_val 0 (c :: e)) as [v|] eqn:V; [|discriminate]. destruct (v <=? u64_max) eqn:L; [|discriminate]. intros [= <-]. split; [apply val_decimal; auto; discriminate|lia].
  - intros (D & L). pose proof (proj1 D) as N. destruct e as [|c e]; [congruence|]. rewrite (decimal_val _ _ D). replace (n <=? u64_max) with true by lia. reflexivity.
Qed.
Lemma position_none e : ~ In x2b e -> (parse_usize e = None <-> forall n, ~ position e n).
Proof.
  intros P. split.
  - intros H n X. apply (usize_position e n P) in X. congruence.
  - intros H. destruct (parse_usize e) as [n|] eqn:E; auto. exfalso. apply (H n). now apply usize_position.
Qed.
Lemma assoc_field m k x : assoc k m = Some x <-> field_of (VObj m) k x.
Proof.
  unfold field_of. split.
  - induction m as [|(k', v) m IH]; cbn [assoc]; [discriminate|]. destruct (beq k' k) eqn:E.
    + intros [= ->]. apply beq_eq in E. subst. exists [], m. auto.
    + intros H. destruct (IH H) as (a & b & X & N). injection X as ->. exists ((k', v) :: a), b. split; auto. intros [Y|Y]; [|auto]. cbn in Y. subst. rewrite beq_refl in E. discriminate.
  - intros (a & b & X & N). injection X as ->. induction a as [|(k', v) a IH]; cbn [app assoc]; [now rewrite beq_refl|]. destruct (beq k' k) eqn:E.
    + apply beq_eq in E. subst. exfalso. apply N. now left.
    + apply IH. intros I. apply N. now right.
Qed.
(** One step. *)
Lemma step_ok v e x : ~ In x2b e -> e <> [] -> (resolve_step v e = Ok (inl x) <->
  (exists n, position e n /\ ((exists m k, v = VObj m /\ nth_error m (N.to_nat n) = Some (k, x)) \/ (exists l, v = VArr l /\ nth_error l (N.to_nat n) = Some x))) \/
  ((forall n, ~ position e n) /\ field_of v e x)).
Proof.
  intros P NE. unfold resolve_step.
  assert (forall n m, position e n -> position e m -> n = m) as U. { intros n m A B. apply (usize_position e _ P) in A, B. congruence. }
  destruct v as [| | | | |l|m]; cbn [to_map to_vec]; try (split; [discriminate|]; intros [(n & _ & [(m & k & X & _)|(l & X & _)])|(_ & m1 & m2 & X & _)]; discriminate X).
  - destruct (parse_usize e) as [n|] eqn:E.
    + pose proof (proj1 (usize_position e n P) E) as Q. split.
      * destruct (len l <=? n) eqn:L; [discriminate|]. destruct (nth_error l (N.to_nat n)) as [y|] eqn:G; [|discriminate]. intros [= ->]. left. exists n. split; auto. right. eauto.
      * intros [(n' & Q' & [(m & k & X & _)|(l' & X & G)])|(N & _)]; [discriminate| |now apply N in Q]. injection X as <-. rewrite (U _ _ Q' Q) in G. rewrite G.
        assert (nth_error l (N.to_nat n) <> None) as Y by congruence. apply nth_error_Some in Y. replace (len l <=? n) with false by (unfold len; lia). reflexivity.
    + split; [discriminate|]. intros [(n & Q & _)|(_ & m1 & m2 & X & _)]; [|discriminate]. exfalso. revert Q. now apply position_none.
  - destruct (parse_usize e) as [n|] eqn:E.
    + pose proof (proj1 (usize_position e n P) E) as Q. split.
      * destruct (len m <=? n) eqn:L; [discriminate|]. destruct (nth_error m (N.to_nat n)) as [[k y]|] eqn:G; [|discriminate]. intros [= ->]. left. exists n. split; auto. left. eauto.
      * intros [(n' & Q' & [(m' & k & X & G)|(l' & X & _)])|(N & _)]; [|discriminate|now apply N in Q]. injection X as <-. rewrite (U _ _ Q' Q) in G. rewrite G.
        assert (nth_error m (N.to_nat n) <> None) as Y by congruence. apply nth_error_Some in Y. replace (len m <=? n) with false by (unfold len; lia). reflexivity.
    + destruct e as [|c e]; [congruence|]. unfold contains_key. rewrite <- assoc_field. split.
      * destruct (assoc (c :: e) m) as [y|] eqn:A; [|discriminate]. cbn [negb]. intros [= ->]. right. split; auto. now apply position_none.
      * intros [(n & Q & _)|(_ & ->)]; [|reflexivity]. exfalso. revert Q. now apply position_none.
Qed.
Lemma step_other v e : e <> [] -> resolve_step v e <> Panic /\ forall x, resolve_step v e <> Ok (inr x).
Proof.
  intros NE. unfold resolve_step. destruct v as [| | | | |l|m]; cbn [to_map to_vec]; try (split; discriminate).
  - destruct (parse_usize e) as [n|]; [|split; discriminate]. destruct (len l <=? n) eqn:L; [split; discriminate|]. destruct (nth_error l (N.to_nat n)) eqn:G; [split; discriminate|].
    apply nth_error_None in G. unfold len in L. lia.
  - destruct (parse_usize e) as [n|].
    + destruct (len m <=? n) eqn:L; [split; discriminate|]. destruct (nth_error m (N.to_nat n)) as [[k y]|] eqn:G; [split; discriminate|]. apply nth_error_None in G. unfold len in L. lia.
    + destruct e as [|c e]; [congruence|]. unfold contains_key. destruct (assoc (c :: e) m); split; discriminate.
Qed.
Lemma step_empty v : resolve_step v [] = match v with VObj m => Ok (inr (VObj m)) | VArr _ => Err EForeign | _ => Err EValue end.
Proof. destruct v; reflexivity. Qed.
Lemma follows_cons v e r w : ~ In x2b e -> e <> [] -> (follows v (e :: r) w <-> exists x, resolve_step v e = Ok (inl x) /\ follows x r w).
Proof.
  intros P NE. split.
  - intros F. inversion F; subst; eexists; (split; [apply step_ok; auto|eauto]); [right; eauto| |]; left; eexists; (split; [eassumption|]); eauto.
  - intros (x & S & F). apply step_ok in S; auto. destruct S as [(n & Q & [(m & k & -> & G)|(l & -> & G)])|(N & X)]; [eapply follows_entry|eapply follows_item|eapply follows_label]; eauto.
Qed.
Lemma resolve_app els : forall v tail, (forall e, In e els -> ~ In x2b e /\ e <> []) ->
  resolve_ptr (map VStr (els ++ tail)) v <> Panic \/ exists w, follows v els w /\ resolve_ptr (map VStr (els ++ tail)) v = resolve_ptr (map VStr tail) w.
Proof.
  induction els as [|e els IH]; intros v tail H; [right; exists v; split; [constructor|reflexivity]|]. destruct (H e (or_introl eq_refl)) as (P & NE). cbn [app map resolve_ptr to_string bind].
  destruct (step_other v e NE) as (S1 & S2). destruct (resolve_step v e) as [[x|x]| |] eqn:S; [|now destruct (S2 x)|left; discriminate|contradiction]. rewrite bind_Ok.
  destruct (IH x tail (fun e I => H e (or_intror I))) as [N|(w & F & E)]; [now left|]. right. exists w. split; auto. apply follows_cons; eauto.
Qed.
Lemma resolve_split els : forall v tail w, (forall e, In e els -> ~ In x2b e /\ e <> []) ->
  (resolve_ptr (map VStr (els ++ tail)) v = Ok w <-> exists x, follows v els x /\ resolve_ptr (map VStr tail) x = Ok w).
Proof.
  induction els as [|e els IH]; intros v tail w H; cbn [app].
  - split; [intros E; exists v; split; auto; constructor|]. intros (x & F & E). inversion F; subst. exact E.
  - destruct (H e (or_introl eq_refl)) as (P & NE). cbn [map resolve_ptr to_string bind]. destruct (step_other v e NE) as (S1 & S2). split.
    + intros E. destruct (resolve_step v e) as [[x|x]| |] eqn:S; [|now destruct (S2 x)|discriminate|discriminate]. rewrite bind_Ok in E.
      apply (IH x tail w (fun e I => H e (or_intror I))) in E as (y & F & E). exists y. split; auto. apply follows_cons; eauto.
    + intros (x & F & E). apply follows_cons in F as (y & S & F); auto. rewrite S, bind_Ok. apply (IH y tail w (fun e I => H e (or_intror I))). eauto.
Qed.
Lemma resolve_eq self els v : elements self els -> path_resolve self v = resolve_ptr (map VStr els) v.
Proof. intros H. unfold path_resolve. rewrite H, bind_Ok. reflexivity. Qed.
Lemma resolve_np els : (forall e, In e els -> ~ In x2b e) -> forall v, resolve_ptr (map VStr els) v <> Panic.
Proof.
  induction els as [|e els IH]; intros H v; [discriminate|]. cbn [map resolve_ptr to_string bind]. destruct e as [|c e].
  - rewrite step_empty. destruct v; discriminate.
  - destruct (step_other v (c :: e)) as (S1 & S2); [discriminate|]. destruct (resolve_step v (c :: e)) as [[x|x]| |]; [|now destruct (S2 x)|discriminate|contradiction]. rewrite bind_Ok. apply IH.
    intros e' I. apply H. now right.
Qed.

(*# C75_resolution_partial
   Resolving a path without empty elements gives a value exactly if the elements lead to it, step by step, from labels or positions; the empty path gives the whole
   value; any other case is an error, never a panic. Full statement: also with empty elements and with labels that are numbers; see C75_empty_element_refuted,
   C75_numeric_label_refuted and C75_empty_element.
##
Example C75_case : exists m, pather_of_bext (s! "-a-1-b") = Ok m /\ elements m [s! "a"; s! "1"; s! "b"] /\
  path_resolve m (VObj [(s! "x", VNull); (s! "a", VArr [VInt 1; VObj [(s! "b", VBool true)]])]) = Ok (VBool true) /\ is_err (path_resolve m (VObj [(s! "a", VArr [VInt 1])])) = true.
Proof. eexists. split; [vm_compute; reflexivity|]. split; [vm_compute; reflexivity|]. split; vm_compute; reflexivity. Qed.
#*)
Lemma C75_l (self : matter) (els : list bytes) (v : value) : elements self els -> ~ In [] els ->
  (forall w, path_resolve self v = Ok w <-> follows v els w) /\ (els = [] -> path_resolve self v = Ok v) /\ path_resolve self v <> Panic.
Proof.
  intros H N. rewrite (resolve_eq _ _ _ H). assert (forall e, In e els -> ~ In x2b e /\ e <> []) as K by (intros e I; split; [eapply element_no_plus; eauto|intros ->; contradiction]). split; [|split].
  - intros w. pose proof (resolve_split els v [] w K) as S. rewrite app_nil_r in S. rewrite S. split.
    + intros (x & F & E). cbn in E. now injection E as <-.
    + intros F. exists w. auto.
  - intros ->. reflexivity.
  - apply resolve_np. intros e I. now apply K.
Qed.
(*# C75_empty_element
   With an empty element, a path resolves exactly if the elements before the first empty one lead to a map, and gives that map; the rest of the path is not looked at.
##
Example C75_empty_case : exists m, pather_of_bext (s! "-a--b") = Ok m /\ elements m [s! "a"; []; s! "b"].
Proof. eexists. split; vm_compute; reflexivity. Qed.
#*)
Lemma C75_empty_l (self : matter) (a b : list bytes) (v w : value) : elements self (a ++ [] :: b) -> ~ In [] a ->
  (path_resolve self v = Ok w <-> follows v a w /\ exists m, w = VObj m).
Proof.
  intros H N. rewrite (resolve_eq _ _ _ H). assert (forall e, In e a -> ~ In x2b e /\ e <> []) as K by (intros e I; split; [eapply element_no_plus; eauto; apply in_or_app; now left|intros ->; contradiction]).
  rewrite (resolve_split a v ([] :: b) w K). split.
  - intros (x & F & E). cbn [map resolve_ptr to_string bind] in E. rewrite step_empty in E. destruct x; try discriminate E. injection E as <-. eauto.
  - intros (F & m & ->). exists (VObj m). split; auto.
Qed.
(*# C75_empty_element_refuted
   False as stated: a path with an empty element resolves although its last step is missing.
#*)
Lemma C75_no_l : exists m v w, pather_of_bext (s! "-a--b") = Ok m /\ elements m [s! "a"; []; s! "b"] /\ path_resolve m v = Ok w /\ forall u, ~ follows v [s! "a"; []; s! "b"] u.
Proof.
  eexists. exists (VObj [(s! "a", VObj [])]), (VObj []). split; [vm_compute; reflexivity|]. split; [vm_compute; reflexivity|]. split; [vm_compute; reflexivity|].
  assert (forall x r u, ~ follows x ([] :: r) u) as E.
  { intros x r u F. inversion F; subst; try congruence; match goal with H : position [] _ |- _ => destruct H as ((? & _) & _); congruence end. }
  intros u F. inversion F; subst; eapply E; eassumption.
Qed.
(*# C75_numeric_label_refuted
   False as stated for labels that are numbers: they count as positions, so that the path 1 selects the second entry although there is one labelled 1, and the path 7
   selects nothing although there is an entry labelled 7.
#*)
Lemma C75_label_no_l : exists m n, pather_of_bext (s! "-1") = Ok m /\ pather_of_bext (s! "-7") = Ok n /\
  path_resolve m (VObj [(s! "1", VBool true); (s! "x", VBool false)]) = Ok (VBool false) /\ path_resolve n (VObj [(s! "7", VBool true)]) = Err EValue.
Proof. eexists. eexists. split; [vm_compute; reflexivity|]. split; [vm_compute; reflexivity|]. split; vm_compute; reflexivity. Qed.

(** ** Panics *)
Lemma pather_code path bext code raw qb64b qb64 qb2 m : pather_new path bext code raw qb64b qb64 qb2 = Ok m -> In (m_code m) bexter_codes.
Proof.
  unfold pather_new. cbv zeta. intros H. apply bind_ok in H as (m' & _ & H). apply bind_ok in H as (u & V & H). injection H as <-. now apply validate_ok in V as (V & _).
Qed.
Lemma path_total m : In (m_code m) bexter_codes -> (exists els, elements m els) \/ is_err (path_of m) = true.
Proof.
  intros C. destruct (bext_total m C) as (s & S). pose proof (path_eq m s S) as E. destruct (read_path s) as [l|] eqn:RD; [left|right; now rewrite E]. exists l. exact E.
Qed.
Lemma of_path_np els : len (path_text els) < 2 ^ 32 -> pather_of_path (VArr (map VStr els)) <> Panic.
Proof.
  intros L. apply C72_accepted_l.
  - intros z I. apply in_map_iff in I as (x & X & _). discriminate.
  - intros els' F. assert (els' = els) as ->; auto. clear L. revert els' F. induction els as [|e els IH]; intros els' F; inversion F; subst; auto. f_equal; auto.
    destruct H1 as [X|(z & X & _)]; [|discriminate]. now injection X.
Qed.
(*# C94_strip_panics_refuted
   False as stated for strip: stripping a-a of itself panics, and so does stripping b of a.
#*)
Lemma C94_no_l : (exists p, pather_of_bext (s! "-a-a") = Ok p /\ path_strip p p = Panic) /\ (exists p q, pather_of_bext (s! "-a") = Ok p /\ pather_of_bext (s! "-b") = Ok q /\ path_strip p q = Panic).
Proof. split; [eexists; split; [vm_compute; reflexivity|]; vm_compute; reflexivity|]. eexists. eexists. split; [vm_compute; reflexivity|]. split; [vm_compute; reflexivity|]. vm_compute. reflexivity. Qed.
Lemma dashed_app a b : dashed (a ++ b) = dashed a ++ dashed b.
Proof. unfold dashed. now rewrite map_app, concat_app. Qed.
Lemma take_map {A B} (f : A -> B) i l : take i (map f l) = map f (take i l).
Proof. unfold take. apply firstn_map. Qed.
Lemma drop_map {A B} (f : A -> B) i l : drop i (map f l) = map f (drop i l).
Proof. unfold drop. apply skipn_map. Qed.
Lemma remove_weight j p : len (dashed (take j p ++ drop (j + 1) p)) <= len (dashed p).
Proof.
  rewrite dashed_app, len_app. rewrite <- (take_drop j p) at 3. rewrite dashed_app, len_app. assert (len (dashed (drop (j + 1) p)) <= len (dashed (drop j p))); [|lia].
  rewrite <- drop_drop. destruct (drop j p) as [|x l]; [reflexivity|]. change (drop 1 (x :: l)) with l. rewrite dashed_cons, len_cons, len_app. lia.
Qed.
Lemma remove_each_np hm r : forall p,
  (remove_each hm (rev (map VStr r)) (map VStr p) = Panic <-> exists a x b, r = a ++ x :: b /\ forall j, assoc x hm = Some j -> len p <= j + len b) /\
  (remove_each hm (rev (map VStr r)) (map VStr p) = Panic \/ exists l, remove_each hm (rev (map VStr r)) (map VStr p) = Ok (map VStr l) /\ len (dashed l) <= len (dashed p)).
Proof.
  induction r as [|x r IH] using rev_ind; intros p.
  - cbn. split; [split; [discriminate|]; intros (a & x & b & X & _); destruct a; discriminate|]. right. exists p. split; auto. lia.
  - rewrite map_app, rev_app_distr. cbn [map rev app remove_each to_string bind]. assert (len (map VStr p) = len p) as LM by (unfold len; now rewrite map_length). destruct (assoc x hm) as [j|] eqn:A.
    + unfold vec_remove. rewrite LM. destruct (j <? len p) eqn:J.
      * rewrite bind_Ok, take_map, drop_map, <- map_app. pose proof (remove_weight j p) as W. assert (len (take j p ++ drop (j + 1) p) + 1 = len p) as LP by (rewrite len_app, len_take, len_drop; lia).
        revert W LP. generalize (take j p ++ drop (j + 1) p). intros p' W LP. destruct (IH p') as (I1 & I2). split.
        -- rewrite I1. split.
           ++ intros (a & y & b & -> & Y). exists a, y, (b ++ [x]). split; [now rewrite <- app_assoc|]. intros k K. rewrite len_app. change (len [x]) with 1. specialize (Y k K). lia.
           ++ intros (a & y & b & E & Y). destruct b as [|z b _] using rev_ind.
              ** apply app_inj_tail in E as (-> & ->). specialize (Y j A). change (len (@nil bytes)) with 0 in Y. lia.
              ** change (a ++ y :: b ++ [z]) with (a ++ (y :: b) ++ [z]) in E. rewrite app_assoc in E. apply app_inj_tail in E as (-> & ->). exists a, y, b. split; auto. intros k K. specialize (Y k K).
                 rewrite len_app in Y. change (len [z]) with 1 in Y. lia.
        -- destruct I2 as [I2|(l & L & S)]; [now left|]. right. exists l. split; auto. lia.
      * cbn [bind]. split; [|now left]. split; auto. intros _. exists r, x, []. split; auto. intros k K. rewrite A in K. injection K as <-. change (len (@nil bytes)) with 0. lia.
    + split; [|now left]. split; auto. intros _. exists r, x, []. split; auto. intros k K. congruence.
Qed.
Lemma text_weight l : len (path_text l) <= 1 + len (dashed l).
Proof. destruct l as [|e l]; [vm_compute; discriminate|]. rewrite concat_text by discriminate. fold (dashed (e :: l)). lia. Qed.
(*# C94_path_panics_partial
   Reading, rooting, comparing and resolving paths never panics. Stripping panics exactly if the root is not longer than the path and some element of the root does not
   occur in the path, or its last occurrence there is followed by fewer elements than in the root. Texts are below 2^32 bytes. Full statement: never; see
   C94_strip_panics_refuted.
##
Example C94_case : exists p q m, pather_of_bext (s! "-a-b-a") = Ok p /\ pather_of_bext (s! "-b") = Ok q /\ path_strip p q = Ok m /\ elements m [s! "a"; s! "a"].
Proof. eexists. eexists. eexists. split; [vm_compute; reflexivity|]. split; [vm_compute; reflexivity|]. split; [vm_compute; reflexivity|]. vm_compute. reflexivity. Qed.
#*)
Lemma C94_l (path path' : option value) (bext bext' code code' raw raw' qb64b qb64b' qb64 qb64' qb2 qb2' : option bytes) (self root : matter) (v : value) :
  pather_new path bext code raw qb64b qb64 qb2 = Ok self -> pather_new path' bext' code' raw' qb64b' qb64' qb2' = Ok root ->
  path_of self <> Panic /\ path_starts_with self root <> Panic /\ path_resolve self v <> Panic /\
  (forall p r, elements self p -> elements root r -> len (path_text (r ++ p)) < 2 ^ 32 - 1 ->
    path_root self root <> Panic /\
    (path_strip self root = Panic <-> len r <= len p /\ exists a x b, r = a ++ x :: b /\ forall u w, p = u ++ x :: w -> ~ In x w -> len w < len b)).
Proof.
  intros A B. apply pather_code in A, B. split; [|split; [|split]].
  - destruct (path_total self A) as [(els & E)|E]; [rewrite E; discriminate|now destruct (path_of self)].
  - destruct (bext_total _ A) as (x & X), (bext_total _ B) as (y & Y). destruct (starts_eq _ _ _ _ X Y) as (_ & S). now destruct (path_starts_with self root).
  - destruct (path_total self A) as [(els & E)|E].
    + rewrite (resolve_eq _ _ _ E). apply resolve_np. intros e I. eapply element_no_plus; eauto.
    + unfold path_resolve. destruct (path_of self); try discriminate E. discriminate.
  - intros p r P RR L. split.
    + unfold path_root. rewrite RR, bind_Ok. cbn [to_vec bind]. rewrite P, bind_Ok. cbn [to_vec bind]. rewrite <- map_app. apply of_path_np. lia.
    + assert (path_strip self root = (let* hashmap := positions 0 (map VStr p) [] in if len (map VStr p) <? len (map VStr r) then Ok self
        else let* path := remove_each hashmap (rev (map VStr r)) (map VStr p) in pather_of_path (VArr path))) as ->.
      { unfold path_strip. rewrite RR, bind_Ok. cbn [to_vec bind]. rewrite P. reflexivity. }
      destruct (positions_eq p 0 []) as (hm & -> & H). rewrite bind_Ok. assert (forall l : list bytes, len (map VStr l) = len l) as LM by (intros; unfold len; now rewrite map_length). rewrite !LM.
      destruct (len p <? len r) eqn:Q; [split; [discriminate|lia]|]. destruct (remove_each_np hm r p) as (I1 & I2).
      assert ((let* path0 := remove_each hm (rev (map VStr r)) (map VStr p) in pather_of_path (VArr path0)) = Panic <-> remove_each hm (rev (map VStr r)) (map VStr p) = Panic) as ->.
      { destruct I2 as [->|(l & -> & W)]; [split; reflexivity|]. rewrite bind_Ok. split; [|discriminate]. intros X. exfalso. revert X. apply of_path_np.
        pose proof (text_weight l). assert (len (dashed p) <= len (path_text (r ++ p))); [|lia]. destruct (r ++ p) as [|e t] eqn:E.
        - apply app_eq_nil in E as (_ & ->). vm_compute. discriminate.
        - rewrite concat_text by discriminate. fold (dashed (e :: t)). rewrite <- E, dashed_app, len_app. lia. }
      rewrite I1. split.
      * intros (a & x & b & -> & Y). split; [lia|]. exists a, x, b. split; auto. intros u w E N. assert (assoc x hm = Some (len u)) as K.
        { rewrite H. rewrite (proj2 (last_index_spec x p (len u))); [f_equal; lia|]. eauto. }
        specialize (Y _ K). rewrite E, len_app, len_cons in Y. lia.
      * intros (_ & a & x & b & -> & Y). exists a, x, b. split; auto. intros j K. rewrite H in K. destruct (last_index x p) as [i|] eqn:I; [|discriminate K]. injection K as <-.
        apply last_index_spec in I as (u & w & E & N & ->). specialize (Y _ _ E N). rewrite E, len_app, len_cons. lia.
Qed.

(** ** Tails *)
(*# C95_tail
   The tail of a path in an event is given exactly if the path resolves, to a text beginning with a self-addressing identifier, which is given whole, or to a map or an
   array, of which the JSON is given. It panics exactly if the text does when parsed.
##
Example C95_case : exists m, pather_of_bext (s! "-a") = Ok m /\ forall c r i k n v sa, path_tail m (Sd c r (VObj [(s! "a", VArr [VInt 1])]) i k n v sa) = Ok (s! "[1]") /\
  is_err (path_tail m (Sd c r (VObj [(s! "a", VInt 1)]) i k n v sa)) = true.
Proof. eexists. split; [vm_compute; reflexivity|]. intros. split; vm_compute; reflexivity. Qed.
#*)
Lemma C95_l (path : option value) (bext code raw qb64b qb64 qb2 : option bytes) (self : matter) (s : sadder) (t : bytes) : pather_new path bext code raw qb64b qb64 qb2 = Ok self ->
  (path_tail self s = Ok t <-> exists w, path_resolve self (d_ked s) = Ok w /\
    (w = VStr t /\ (exists m n, exfil t = Ok m /\ In (m_code m, n) digest_sizes) \/ (exists l, w = VArr l /\ t = to_json w) \/ (exists l, w = VObj l /\ t = to_json w))) /\
  (path_tail self s = Panic <-> exists q, path_resolve self (d_ked s) = Ok (VStr q) /\ exfil q = Panic).
Proof.
  intros A. assert (path_resolve self (d_ked s) <> Panic) as NP by (apply (C94_l _ _ _ _ _ _ _ _ _ _ _ _ _ _ _ _ (d_ked s) A A)). unfold path_tail.
  destruct (path_resolve self (d_ked s)) as [w| |]; [|cbn [bind]; split; [split; [discriminate|intros (w & X & _); discriminate]|split; [discriminate|intros (q & X & _); discriminate]]|contradiction].
  rewrite bind_Ok. split.
  - split.
    + intros H. exists w. split; auto. destruct w; try discriminate H.
      * cbn [to_string] in H. apply bind_ok in H as (m & M & H). injection H as <-. left. split; auto. apply said_text in M as (M & C). apply has_code_in, said_code_size in C as (n & C). eauto.
      * right. left. exists l. split; auto. now injection H.
      * right. right. exists l. split; auto. now injection H.
    + intros (w' & X & H). injection X as <-. destruct H as [(-> & m & n & M & C)|[(l & -> & ->)|(l & -> & ->)]]; [|reflexivity|reflexivity].
      cbn [to_string]. rewrite (proj2 (said_text t m)); [reflexivity|]. split; auto. apply has_code_in, said_code_size. eauto.
  - split.
    + intros H. destruct w; try discriminate H. cbn [to_string] in H. apply bind_panic in H as [H|(m & _ & H)]; [|discriminate]. apply said_panic in H. eauto.
    + intros (q & X & H). injection X as ->. cbn [to_string]. rewrite (proj2 (said_panic q) H). reflexivity.
Qed.
(*# C95_tail_is_identifier_refuted
   The text need not be a self-addressing identifier: whatever text follows one is given as well.
#*)
Lemma C95_no_l : exists m s t q, pather_of_bext (s! "-a") = Ok m /\ path_tail m s = Ok t /\ exfil (take 44 t) = Ok q /\ infil q = Ok (take 44 t) /\ drop 44 t = s! "!?".
Proof.
  eexists. exists (Sd (s! "E") [] (VObj [(s! "a", VStr (s! "EGgpR6cUOrBfsUCAgZgTLNzFuH9SrOkkYHx8YUnKZMBc!?"))]) [] [] 0 current_version (Mt [] 0 [])). eexists. eexists.
  split; [vm_compute; reflexivity|]. split; [vm_compute; reflexivity|]. split; [vm_compute; reflexivity|]. split; [vm_compute; reflexivity|]. vm_compute. reflexivity.
Qed.
