(** Facts about the release profile (Release.v): the checked instances are the model of the other files, and without an overflow the two profiles agree. *)
From Coq Require Import String.
From Coq Require Import NArith ZArith Znumtheory Zpow_facts QArith List Bool Lia.
From Verif Require Import Base B64 Util Tables Matter Indexer Counter Prims Json Tholder Signer Release BaseFacts B64Facts UtilFacts MatterFacts MatterText MatterMore MatterBin IndexerFacts IndexerMore CounterFacts CounterThms.
Import ListNotations.
Open Scope N_scope.

(** ** The checked instances *)
Lemma bind_ext {A B} (r : R A) (k k' : A -> R B) : (forall a, r = Ok a -> k a = k' a) -> bind r k = bind r k'.
Proof. destruct r; cbn; auto. Qed.
Lemma pow_minus {B} n (k : N -> R B) : (let* p := pow64_u32 n in let* p := u32_sub p 1 in k p) = (let* p := pow64_u32 n in k (p - 1)).
Proof.
  apply bind_ext. unfold pow64_u32. intros p H. destruct (64 ^ n <=? u32_max); [|discriminate]. injection H as <-. unfold u32_sub.
  replace (1 <=? 64 ^ n) with true; [reflexivity|]. symmetry. apply N.leb_le. pose proof (N.pow_nonzero 64 n). lia.
Qed.
Ltac same_body := repeat first [reflexivity | rewrite pow_minus | apply bind_ext; intros ? ? | match goal with |- context [if ?b then _ else _] => destruct b end].
Lemma checked_infil m : infil_in checked m = infil m.
Proof. unfold infil_in, infil, checked. cbv zeta. cbn [plus minus times power]. apply bind_ext. intros z _. rewrite pow_minus. reflexivity. Qed.
Lemma checked_binfil m : binfil_in checked m = binfil m.
Proof. unfold binfil_in, binfil, checked. cbv zeta. cbn [plus minus times power]. apply bind_ext. intros z _. rewrite pow_minus. reflexivity. Qed.
Lemma checked_exfil s : exfil_in checked s = exfil s.
Proof. reflexivity. Qed.
Lemma checked_bexfil s : bexfil_in checked s = bexfil s.
Proof. reflexivity. Qed.
Lemma checked_full_size m : full_size_in checked m = full_size m.
Proof. reflexivity. Qed.
Lemma checked_indexer code raw index ondex : indexer_of_code_raw_in checked code raw index ondex = indexer_of_code_raw code raw index ondex.
Proof.
  unfold indexer_of_code_raw_in, indexer_of_code_raw, checked. cbv zeta. cbn [plus minus times power]. destruct code as [|b c]; [reflexivity|].
  apply bind_ext. intros z _. apply bind_ext. intros ms _. rewrite pow_minus. apply bind_ext. intros p _. destruct (p - 1 <? index); [reflexivity|].
  destruct ondex as [o|]; [|reflexivity]. rewrite pow_minus. reflexivity.
Qed.
Lemma checked_iinfil x : iinfil_in checked x = iinfil x.
Proof.
  unfold iinfil_in, iinfil, checked. cbv zeta. cbn [plus minus times power].
  apply bind_ext. intros z _. apply bind_ext. intros ms _. apply bind_ext. intros f _. rewrite pow_minus. apply bind_ext. intros p _. rewrite pow_minus.
  destruct (p - 1 <? i_index x); [reflexivity|]. apply bind_ext. intros u _. destruct (negb _); [reflexivity|]. apply bind_ext. intros d Hd.
  unfold u32_sub in Hd. destruct (ils z <=? _); [|discriminate]. injection Hd as <-. reflexivity.
Qed.
Lemma checked_ibinfil x : ibinfil_in checked x = ibinfil x.
Proof.
  unfold ibinfil_in, ibinfil, checked. cbv zeta. cbn [plus minus times power].
  apply bind_ext. intros z _. apply bind_ext. intros ms _. rewrite pow_minus. apply bind_ext. intros p _. rewrite pow_minus. reflexivity.
Qed.
Lemma checked_iexfil s : iexfil_in checked s = iexfil s.
Proof. reflexivity. Qed.
Lemma checked_ibexfil s : ibexfil_in checked s = ibexfil s.
Proof. reflexivity. Qed.
Lemma checked_ifull_size x : ifull_size_in checked x = ifull_size x.
Proof. reflexivity. Qed.
Lemma checked_raw_size c : raw_size_in checked c = raw_size c.
Proof. reflexivity. Qed.
Lemma checked_counter c n : counter_of_code_count_in checked c n = counter_of_code_count c n.
Proof. unfold counter_of_code_count_in, counter_of_code_count, checked. cbv zeta. cbn [plus minus times power]. destruct c; [reflexivity|]. apply bind_ext. intros z _. rewrite pow_minus. reflexivity. Qed.
Lemma checked_cinfil c : cinfil_in checked c = cinfil c.
Proof. unfold cinfil_in, cinfil, checked. cbv zeta. cbn [plus minus times power]. apply bind_ext. intros z _. rewrite pow_minus. reflexivity. Qed.

(** ** Agreement *)
Definition agree {A} (r r' : R A) : Prop := r <> Panic -> r' = r.
Lemma agree_refl {A} (r : R A) : agree r r. Proof. intros _. reflexivity. Qed.
Lemma agree_bind {A B} (r r' : R A) (k k' : A -> R B) : agree r r' -> (forall a, r = Ok a -> agree (k a) (k' a)) -> agree (bind r k) (bind r' k').
Proof.
  unfold agree. intros H K N. destruct r as [a|e|]; cbn in *.
  - rewrite H by discriminate. cbn. auto.
  - rewrite H by discriminate. reflexivity.
  - congruence.
Qed.
Lemma agree_if {A} (b : bool) (r r' s s' : R A) : agree r r' -> agree s s' -> agree (if b then r else s) (if b then r' else s').
Proof. now destruct b. Qed.
Lemma agree_plus a b : agree (plus checked a b) (plus wrapping a b).
Proof. unfold agree, checked, wrapping, u32_add. cbn [plus]. intros H. destruct (a + b <=? u32_max) eqn:E; [|congruence]. apply N.leb_le in E. f_equal. apply N.mod_small. unfold u32_max in E. unfold word. lia. Qed.
Lemma agree_times a b : agree (times checked a b) (times wrapping a b).
Proof. unfold agree, checked, wrapping, u32_mul. cbn [times]. intros H. destruct (a * b <=? u32_max) eqn:E; [|congruence]. apply N.leb_le in E. f_equal. apply N.mod_small. unfold u32_max in E. unfold word. lia. Qed.
Lemma agree_minus a b : agree (minus checked a b) (minus wrapping a b).
Proof. unfold agree, checked, wrapping, u32_sub. cbn [minus]. intros H. destruct (b <=? a) eqn:E; [|congruence]. reflexivity. Qed.
Lemma agree_power n : agree (power checked n) (power wrapping n).
Proof. unfold agree, checked, wrapping, pow64_u32. cbn [power]. intros H. destruct (64 ^ n <=? u32_max) eqn:E; [|congruence]. apply N.leb_le in E. f_equal. apply N.mod_small. unfold u32_max in E. unfold word. lia. Qed.
Ltac agrees := repeat first [apply agree_refl | apply agree_plus | apply agree_minus | apply agree_times | apply agree_power | apply agree_bind; [|intros ? _] | apply agree_if
  | match goal with |- agree (match ?x with _ => _ end) (match ?x with _ => _ end) => destruct x end ].
Lemma agree_infil m : agree (infil m) (infil_in wrapping m).
Proof. rewrite <- checked_infil. unfold infil_in. cbv zeta. agrees. Qed.
Lemma agree_binfil m : agree (binfil m) (binfil_in wrapping m).
Proof. rewrite <- checked_binfil. unfold binfil_in. cbv zeta. agrees. Qed.
Lemma agree_exfil s : agree (exfil s) (exfil_in wrapping s).
Proof. rewrite <- checked_exfil. unfold exfil_in. cbv zeta. agrees. Qed.
Lemma agree_bexfil s : agree (bexfil s) (bexfil_in wrapping s).
Proof. rewrite <- checked_bexfil. unfold bexfil_in. cbv zeta. agrees. Qed.
Lemma agree_full_size m : agree (full_size m) (full_size_in wrapping m).
Proof. rewrite <- checked_full_size. unfold full_size_in. cbv zeta. agrees. Qed.
Lemma agree_indexer c r i o : agree (indexer_of_code_raw c r i o) (indexer_of_code_raw_in wrapping c r i o).
Proof. rewrite <- checked_indexer. unfold indexer_of_code_raw_in. cbv zeta. agrees. Qed.
Lemma agree_iinfil x : agree (iinfil x) (iinfil_in wrapping x).
Proof. rewrite <- checked_iinfil. unfold iinfil_in. cbv zeta. agrees. Qed.
Lemma agree_ibinfil x : agree (ibinfil x) (ibinfil_in wrapping x).
Proof. rewrite <- checked_ibinfil. unfold ibinfil_in. cbv zeta. agrees. Qed.
Lemma agree_iexfil s : agree (iexfil s) (iexfil_in wrapping s).
Proof. rewrite <- checked_iexfil. unfold iexfil_in. cbv zeta. agrees. Qed.
Lemma agree_ibexfil s : agree (ibexfil s) (ibexfil_in wrapping s).
Proof. rewrite <- checked_ibexfil. unfold ibexfil_in. cbv zeta. agrees. Qed.
Lemma agree_ifull_size x : agree (ifull_size x) (ifull_size_in wrapping x).
Proof. rewrite <- checked_ifull_size. unfold ifull_size_in. cbv zeta. agrees. Qed.
Lemma agree_raw_size c : agree (raw_size c) (raw_size_in wrapping c).
Proof. rewrite <- checked_raw_size. unfold raw_size_in. cbv zeta. agrees. Qed.
Lemma agree_counter c n : agree (counter_of_code_count c n) (counter_of_code_count_in wrapping c n).
Proof. rewrite <- checked_counter. unfold counter_of_code_count_in. cbv zeta. agrees. Qed.
Lemma agree_cinfil c : agree (cinfil c) (cinfil_in wrapping c).
Proof. rewrite <- checked_cinfil. unfold cinfil_in. cbv zeta. agrees. Qed.

(** ** No overflow *)
Lemma plus_same a b : a + b <= u32_max -> plus wrapping a b = plus checked a b.
Proof. intros H. apply agree_plus. cbn. unfold u32_add. replace (a + b <=? u32_max) with true by (symmetry; now apply N.leb_le). discriminate. Qed.
Lemma times_same a b : a * b <= u32_max -> times wrapping a b = times checked a b.
Proof. intros H. apply agree_times. cbn. unfold u32_mul. replace (a * b <=? u32_max) with true by (symmetry; now apply N.leb_le). discriminate. Qed.
Lemma minus_same a b : b <= a -> minus wrapping a b = minus checked a b.
Proof. intros H. apply agree_minus. cbn. unfold u32_sub. replace (b <=? a) with true by (symmetry; now apply N.leb_le). discriminate. Qed.
Lemma power_same n : n <= 5 -> power wrapping n = power checked n.
Proof. intros H. apply agree_power. cbn. rewrite pow64_small by exact H. discriminate. Qed.
Lemma bind_left {A B} (r r' : R A) (k : A -> R B) : r = r' -> bind r k = bind r' k.
Proof. now intros ->. Qed.
Lemma soft_small soft n : b64_to_u32 soft = Ok n -> len soft <= 4 -> n < 16777216.
Proof.
  intros H L. apply b64_to_u32_inv in H; [|lia]. apply b64val_lt in H. assert (64 ^ len soft <= 64 ^ 4) by (apply N.pow_le_mono_r; lia).
  change (64 ^ 4) with 16777216 in *. lia.
Qed.
Lemma quads_same n c : n < 16777216 -> c <= 8 -> (let* q := times wrapping n 4 in plus wrapping q c) = (let* q := times checked n 4 in plus checked q c).
Proof.
  intros Hn Hc. rewrite times_same by (unfold u32_max; lia). apply bind_ext. intros q Hq. cbn in Hq. unfold u32_mul in Hq. destruct (_ <=? _); [|discriminate]. injection Hq as <-.
  apply plus_same. unfold u32_max. lia.
Qed.
Lemma quads_same' {B} n c (k : N -> R B) : n < 16777216 -> c <= 8 ->
  (let* q := times wrapping n 4 in let* f := plus wrapping q c in k f) = (let* q := times checked n 4 in let* f := plus checked q c in k f).
Proof.
  intros Hn Hc. rewrite times_same by (unfold u32_max; lia). apply bind_ext. intros q Hq. cbn in Hq. unfold u32_mul in Hq. destruct (_ <=? _); [|discriminate]. injection Hq as <-.
  apply bind_left. apply plus_same. unfold u32_max. lia.
Qed.
Lemma cs_small c z : lookup matter_table c = Some z -> hs z + ss z <= 8 /\ ss z <= 4.
Proof.
  intros H. pose proof (lookup_facts _ _ H) as F. pose proof (tf_hs _ _ F). destruct (var z) eqn:E; [destruct (tf_var _ _ F E)|destruct (tf_fix _ _ F E)]; lia.
Qed.
Lemma slice_len s a b x : slice_str s a b = Ok x -> len x = b - a.
Proof. intros H. apply slice_str_ok' in H as (A & B & ->). rewrite len_take, len_drop. lia. Qed.

Lemma same_exfil s : exfil_in wrapping s = exfil s.
Proof.
  rewrite <- checked_exfil. unfold exfil_in. cbv zeta. destruct s as [|f s]; [reflexivity|]. apply bind_ext. intros h _. destruct (_ <? h); [reflexivity|].
  apply bind_ext. intros hard _. apply bind_ext. intros z Hz. apply sizage_of_ok in Hz. destruct (cs_small _ _ Hz) as (Q1 & Q2). apply bind_left.
  destruct (fs z =? u32_max); [|reflexivity]. destruct (negb _); [reflexivity|]. destruct (_ <? _); [reflexivity|].
  apply bind_ext. intros soft Hs. apply bind_ext. intros size Hn. apply slice_len in Hs. apply soft_small in Hn; [|lia]. apply quads_same'; lia.
Qed.
Lemma same_bexfil s : bexfil_in wrapping s = bexfil s.
Proof.
  rewrite <- checked_bexfil. unfold bexfil_in. cbv zeta. destruct s as [|f s]; [reflexivity|]. apply bind_ext. intros sx _. apply bind_ext. intros h _. destruct (_ <? _); [reflexivity|].
  apply bind_ext. intros hard _. apply bind_ext. intros z Hz. apply sizage_of_ok in Hz. destruct (cs_small _ _ Hz) as (Q1 & Q2). apply bind_left.
  destruct (fs z =? u32_max); [|reflexivity]. destruct (negb _); [reflexivity|]. destruct (_ <? _); [reflexivity|].
  apply bind_ext. intros both _. apply bind_ext. intros soft Hs. apply bind_ext. intros size Hn. apply slice_len in Hs. apply soft_small in Hn; [|lia]. apply quads_same'; lia.
Qed.
Lemma same_binfil m : binfil_in wrapping m = binfil m.
Proof.
  rewrite <- checked_binfil. unfold binfil_in. cbv zeta. apply bind_ext. intros z Hz. apply sizage_of_ok in Hz. destruct (cs_small _ _ Hz) as (Q1 & Q2). apply bind_left.
  destruct (fs z =? u32_max); [|reflexivity]. destruct (negb _); [reflexivity|]. rewrite power_same by lia. apply bind_ext. intros p Hp. apply bind_left. apply minus_same.
  cbn in Hp. rewrite pow64_small in Hp by lia. injection Hp as <-. pose proof (N.pow_nonzero 64 (ss z)). lia.
Qed.
Lemma encode_cut ps raw d : d <= ps -> from_str (encode (zeros ps ++ raw)) d = Ok (drop d (encode (zeros ps ++ raw))).
Proof. intros H. apply from_str_ascii; [apply encode_ascii|]. rewrite len_encode, len_app, len_zeros. lia. Qed.
Lemma same_infil m : infil_in wrapping m = match infil m with Panic => Err EInvalidCodeSize | r => r end.
Proof.
  destruct (infil m) as [t|e|] eqn:E; [rewrite <- E; apply agree_infil; congruence|rewrite <- E; apply agree_infil; congruence|].
  rewrite <- checked_infil in E. unfold infil_in in *. cbv zeta in *. destruct (sizage_of (m_code m)) as [z|e|] eqn:Hz; [|discriminate|now apply sizage_of_np in Hz].
  rewrite !bind_Ok in *. apply sizage_of_ok in Hz. destruct (cs_small _ _ Hz) as (Q1 & Q2). pose proof (lookup_facts _ _ Hz) as F. pose proof (tf_ls _ _ F). destruct (fs z =? u32_max).
  - exfalso. destruct (negb _); [discriminate|]. change (power checked) with pow64_u32 in E. change (minus checked) with u32_sub in E. rewrite pow_minus, pow64_small, bind_Ok in E by lia.
    destruct (_ <? _); [discriminate|]. destruct (_ || _); [discriminate|]. destruct (negb _); discriminate.
  - cbn [minus checked] in E. unfold u32_sub in E. set (ps := (3 - len (m_raw m) mod 3) mod 3) in *. assert (ps < 3) by (unfold ps; lia). destruct (ls z <=? ps) eqn:L.
    + exfalso. apply N.leb_le in L. rewrite bind_Ok in E. destruct (len (m_code m) mod 4 =? ps - ls z) eqn:D; [|discriminate]. cbn [negb] in E. destruct (negb _); [discriminate|].
      apply N.eqb_eq in D. rewrite encode_cut in E by lia. discriminate.
    + apply N.leb_gt in L. cbn [minus wrapping]. replace (ls z <=? ps) with false by lia. rewrite bind_Ok.
      replace (len (m_code m) mod 4 =? ps + word - ls z) with false; [reflexivity|]. symmetry. apply N.eqb_neq. unfold word. lia.
Qed.

Lemma ics_small c z : lookup indexer_table c = Some z -> ihs z + iss z <= 8 /\ ios z <= iss z /\ iss z - ios z <= 3 /\ ios z <= 3.
Proof. intros H. pose proof (ilookup_facts _ _ H) as F. pose proof (if_cs _ _ F). pose proof (if_os _ _ F). unfold ics, ims in *. lia. Qed.
Lemma same_iexfil s : iexfil_in wrapping s = iexfil s.
Proof.
  rewrite <- checked_iexfil. unfold iexfil_in. cbv zeta. destruct s as [|f s]; [reflexivity|]. apply bind_ext. intros h _. destruct (_ <? h); [reflexivity|].
  apply bind_ext. intros hard _. apply bind_ext. intros z Hz. apply isizage_of_ok in Hz. destruct (ics_small _ _ Hz) as (Q1 & Q2 & Q3 & Q4).
  rewrite minus_same by lia. apply bind_ext. intros ms Hm. cbn in Hm. unfold u32_sub in Hm. destruct (_ <=? _); [|discriminate]. injection Hm as <-. destruct (_ <? _); [reflexivity|].
  apply bind_ext. intros is Hs. apply bind_ext. intros index Hi. apply slice_len in Hs. apply soft_small in Hi; [|lia]. apply bind_ext. intros odx _. apply bind_ext. intros ondex _. apply bind_left.
  destruct (ifs z =? u32_max); [|reflexivity]. destruct (negb _); [reflexivity|]. destruct (negb _); [reflexivity|]. apply quads_same; lia.
Qed.
Lemma same_ibexfil s : ibexfil_in wrapping s = ibexfil s.
Proof. apply agree_ibexfil. apply ibexfil_np. Qed.
Lemma indexer_np c r i o : indexer_of_code_raw c r i o <> Panic.
Proof.
  unfold indexer_of_code_raw. cbv zeta. destruct c as [|b c]; [discriminate|]. apply bind_np; [apply isizage_of_np|]. intros z Hz. apply isizage_of_ok in Hz.
  pose proof (ilookup_facts _ _ Hz) as F. destruct (ics_small _ _ Hz) as (Q1 & Q2 & Q3 & Q4).
  rewrite u32_sub_in, bind_Ok by lia. rewrite pow64_small, bind_Ok by lia. destruct (64 ^ (iss z - ios z) - 1 <? i) eqn:Ei; [discriminate|].
  assert (i < 262144) as Hi. { apply N.ltb_ge in Ei. assert (64 ^ (iss z - ios z) <= 64 ^ 3) by (apply N.pow_le_mono_r; lia). change (64 ^ 3) with 262144 in *. lia. }
  apply bind_np.
  { destruct o as [o|]; [|discriminate]. destruct (0 <? ios z); [|discriminate]. rewrite pow64_small, bind_Ok by lia. destruct (_ <? o); discriminate. }
  intros _u _. destruct (_ && _); [discriminate|]. apply bind_np.
  { destruct (both_sig _); [discriminate|]. destruct o as [o|]; [|discriminate]. destruct (_ && _); discriminate. }
  intros o' _. destruct (ifs z =? u32_max) eqn:Ev.
  - destruct (if_var _ _ F Ev) as (E1 & E2 & _). unfold ics in E1. rewrite E1, E2. change (negb (4 mod 4 =? 0)) with false. change (negb (0 =? 0)) with false. cbv iota.
    rewrite u32_mul_in, bind_Ok by (unfold u32_max; lia). rewrite u32_add_in, bind_Ok by (unfold u32_max; lia).
    rewrite u32_sub_in, bind_Ok by lia. rewrite u32_mul_in, bind_Ok by (unfold u32_max; lia). destruct (len r <? _) eqn:El; [discriminate|]. apply N.ltb_ge in El. rewrite slice_bytes_in; [discriminate|lia|exact El].
  - destruct (if_fix _ _ F Ev) as (E1 & E2 & E3 & _). unfold ics in E3. rewrite bind_Ok. rewrite u32_sub_in, bind_Ok by lia. rewrite u32_mul_in, bind_Ok by (unfold u32_max; lia).
    destruct (len r <? _) eqn:El; [discriminate|]. apply N.ltb_ge in El. rewrite slice_bytes_in; [discriminate|lia|exact El].
Qed.
Lemma same_indexer c r i o : indexer_of_code_raw_in wrapping c r i o = indexer_of_code_raw c r i o.
Proof. apply agree_indexer. apply indexer_np. Qed.
Lemma same_counter c n : counter_of_code_count_in wrapping c n = counter_of_code_count c n.
Proof. apply agree_counter. apply (C31_l c n (Ct c n)). Qed.
Lemma same_cinfil c : cinfil_in wrapping c = cinfil c.
Proof.
  apply agree_cinfil. unfold cinfil. cbv zeta. apply bind_np; [apply csizage_np|]. intros z Hz. destruct (_ || _); [discriminate|]. unfold csizage_of in Hz. destruct (lookup counter_table (c_code c)) as [z'|] eqn:Hl; [|discriminate]. injection Hz as ->. rename Hl into Hz.
  apply bind_np; [|intros p _; destruct (_ <? _); [discriminate|]; destruct (negb _); discriminate].
  assert (forallb (fun e => ss (snd e) <=? 5) counter_table = true) as T by (vm_compute; reflexivity).
  rewrite forallb_forall in T. apply lookup_In in Hz. apply T in Hz. cbn in Hz. apply N.leb_le in Hz. rewrite pow64_small by exact Hz. discriminate.
Qed.
Lemma same_raw_size c : raw_size_in wrapping c = raw_size c.
Proof.
  apply agree_raw_size. unfold raw_size. cbv zeta. apply bind_np; [apply sizage_of_np|]. intros z Hz. apply sizage_of_ok in Hz. destruct (fs z =? u32_max) eqn:Ev; [discriminate|].
  destruct (tf_fix _ _ (lookup_facts _ _ Hz) Ev) as (E & _ & _ & A & _ & B). rewrite E. rewrite u32_sub_in by lia. rewrite bind_Ok. rewrite u32_sub_in; [discriminate|]. rewrite N.add_0_r. exact B.
Qed.

(** ** Printing indexed primitives *)
Lemma wrapping_iinfil x : iinfil x <> Panic /\ iinfil_in wrapping x = iinfil x \/ iinfil x = Panic /\ exists e, iinfil_in wrapping x = Err e.
Proof.
  destruct (iinfil x) as [t|e|] eqn:E; [left; split; [discriminate|]; rewrite <- E; apply agree_iinfil; congruence|left; split; [discriminate|]; rewrite <- E; apply agree_iinfil; congruence|]. right. split; [reflexivity|].
  unfold iinfil, iinfil_in in *. cbv zeta in *. destruct (isizage_of (i_code x)) as [z|e|] eqn:Hz; [|discriminate|now apply isizage_of_np in Hz].
  rewrite !bind_Ok in *. apply isizage_of_ok in Hz. pose proof (ilookup_facts _ _ Hz) as F. destruct (ics_small _ _ Hz) as (Q1 & Q2 & Q3 & Q4). pose proof (if_ls _ _ F) as (Hl & _).
  rewrite u32_sub_in, bind_Ok in E by lia. rewrite minus_same by lia. cbn [minus checked]. rewrite u32_sub_in, bind_Ok by lia.
  set (ps := (3 - len (i_raw x) mod 3) mod 3) in *. assert (ps < 3) by (unfold ps; lia).
  assert (forall n, n <= 5 -> power wrapping n = Ok (64 ^ n)) as Pw by (intros n Hn; rewrite power_same by exact Hn; cbn; apply pow64_small; exact Hn).
  assert (forall n, n <= 5 -> minus wrapping (64 ^ n) 1 = Ok (64 ^ n - 1)) as Mn.
  { intros n _. cbn. pose proof (N.pow_nonzero 64 n). replace (1 <=? 64 ^ n) with true by lia. reflexivity. }
  match goal with |- exists e, bind ?t _ = _ => assert (exists f, t = Ok f) as (f & ->) end.
  { destruct (ifs z =? u32_max) eqn:Ev; [|eauto]. destruct (if_var _ _ F Ev) as (E1 & E2 & _). unfold ics in E1. rewrite E1, E2. change (negb (4 mod 4 =? 0)) with false. change (negb (0 =? 0)) with false. cbv iota. eexists. unfold wrapping. cbn [times plus bind]. reflexivity. }
  rewrite bind_Ok, Pw, bind_Ok, Mn, bind_Ok by lia. destruct (64 ^ (iss z - ios z) - 1 <? i_index x) eqn:Ei; [eauto|].
  assert (i_index x < 262144) as Hi. { apply N.ltb_ge in Ei. assert (64 ^ (iss z - ios z) <= 64 ^ 3) by (apply N.pow_le_mono_r; lia). change (64 ^ 3) with 262144 in *. lia. }
  match type of E with bind ?t _ = _ => assert (exists g, t = Ok g) as (g & Eg) end.
  { destruct (ifs z =? u32_max) eqn:Ev; [|eauto]. destruct (if_var _ _ F Ev) as (E1 & E2 & _). unfold ics in E1. rewrite E1, E2. change (negb (4 mod 4 =? 0)) with false. change (negb (0 =? 0)) with false. cbv iota.
    rewrite u32_mul_in, bind_Ok by (unfold u32_max; lia). rewrite u32_add_in by (unfold u32_max; lia). eauto. }
  rewrite Eg, bind_Ok in E. rewrite pow64_small, bind_Ok in E by lia. rewrite Ei in E.
  rewrite pow64_small in E by lia. rewrite Pw by lia. rewrite !bind_Ok in *. rewrite Mn by lia. rewrite bind_Ok.
  destruct (0 <? ios z).
  - destruct (64 ^ ios z - 1 <? i_ondex x); [cbn [bind]; eauto|]. rewrite !bind_Ok in *. destruct (negb _); [eauto|]. unfold u32_sub in E. destruct (ils z <=? ps) eqn:L.
    + exfalso. rewrite bind_Ok in E. destruct (negb (_ =? ps - ils z)); [discriminate|]. apply N.leb_le in L. rewrite encode_cut, bind_Ok in E by lia. destruct (negb _); discriminate.
    + apply N.leb_gt in L. cbn [minus wrapping]. replace (ils z <=? ps) with false by lia. rewrite bind_Ok.
      match goal with |- context [negb (?a =? ?b)] => replace (a =? b) with false; [cbn [negb]; eauto|] end. symmetry. apply N.eqb_neq. unfold word. lia.
  - rewrite !bind_Ok in *. destruct (negb _); [eauto|]. unfold u32_sub in E. destruct (ils z <=? ps) eqn:L.
    + exfalso. rewrite bind_Ok in E. destruct (negb (_ =? ps - ils z)); [discriminate|]. apply N.leb_le in L. rewrite encode_cut, bind_Ok in E by lia. destruct (negb _); discriminate.
    + apply N.leb_gt in L. cbn [minus wrapping]. replace (ils z <=? ps) with false by lia. rewrite bind_Ok.
      match goal with |- context [negb (?a =? ?b)] => replace (a =? b) with false; [cbn [negb]; eauto|] end. symmetry. apply N.eqb_neq. unfold word. lia.
Qed.

Lemma power_wraps n : exists p, power wrapping n = Ok p /\ minus wrapping p 1 = Ok (if n <=? 5 then 64 ^ n - 1 else u32_max).
Proof.
  eexists. split; [unfold wrapping; cbn [power]; reflexivity|]. unfold wrapping. cbn [minus]. destruct (n <=? 5) eqn:E.
  - apply N.leb_le in E. assert (64 ^ n <= 64 ^ 5) by (apply N.pow_le_mono_r; lia). change (64 ^ 5) with 1073741824 in *. pose proof (N.pow_nonzero 64 n).
    rewrite N.mod_small by (unfold word; lia). replace (1 <=? 64 ^ n) with true by lia. reflexivity.
  - apply N.leb_gt in E. replace n with (6 + (n - 6)) by lia. rewrite N.pow_add_r. change (64 ^ 6) with (16 * word). rewrite <- N.mul_assoc, (N.mul_comm word), N.mul_assoc, N.mod_mul by discriminate. reflexivity.
Qed.
Lemma wrapping_ibinfil_np x : ibinfil_in wrapping x <> Panic.
Proof.
  unfold ibinfil_in. cbv zeta. apply bind_np; [apply isizage_of_np|]. intros z Hz. apply isizage_of_ok in Hz. pose proof (ilookup_facts _ _ Hz) as F. destruct (ics_small _ _ Hz) as (Q1 & Q2 & Q3 & Q4).
  apply bind_np; [unfold wrapping; discriminate|]. intros ms _. destruct (power_wraps (iss z)) as (p & Ep & Em). rewrite Ep, bind_Ok, Em, bind_Ok. destruct (_ <? i_index x); [discriminate|].
  apply bind_np.
  { destruct (ios z =? 1); [|discriminate]. destruct (power_wraps (ios z)) as (p' & Ep' & Em'). rewrite Ep', bind_Ok, Em', bind_Ok. destruct (_ <? i_ondex x); discriminate. }
  intros _u _. apply bind_np.
  { destruct (ifs z =? u32_max); [|discriminate]. destruct (negb _); [discriminate|]. destruct (negb _); [discriminate|]. unfold wrapping. discriminate. }
  intros f _. destruct (negb _); [discriminate|]. apply bind_np; [unfold wrapping; discriminate|]. intros d _. destruct (negb _); [discriminate|]. apply bind_np.
  { destruct (_ <=? 3); [apply bind_np; [apply b64_to_uint_no_panic|discriminate]|]. destruct (_ <=? 6); [apply bind_np; [apply b64_to_uint_no_panic|discriminate]|discriminate]. }
  intros full Hf. apply bind_np; [|intros b _; destruct (_ || _); discriminate]. rewrite from_bytes_in; [discriminate|]. lia.
Qed.
Lemma wrapping_ibinfil x z : lookup indexer_table (i_code x) = Some z -> iraw_ok x z -> ibinfil_in wrapping x = Ok (ibin x z).
Proof.
  intros H W. pose proof (ilookup_facts _ _ H) as F. pose proof (ipad_le _ _ F) as (P1 & P2). pose proof (if_cs _ _ F) as HC.
  pose proof (iraw_mod3 x z H W) as D. pose proof (ps_step x z H W) as Eps. pose proof (len_ibin x z H W) as Lm.
  pose proof (if_os _ _ F) as (O1 & O2 & O3 & O4 & O5). destruct (N.le_gt_cases (iss z) 5) as [S5|S6].
  { rewrite (agree_ibinfil x); [now apply ibinfil_wf|]. rewrite (ibinfil_wf x z); [discriminate|auto|auto|auto]. }
  assert (iss z = 6) as E6 by lia. clear S6 O5.
  assert (ivar z = false) as Ev. { destruct (ivar z) eqn:Ev; [|reflexivity]. destruct (if_var _ _ F Ev) as (E1 & _). unfold ics in E1. lia. }
  pose proof (len_iboth x z H) as Lb. pose proof (len_bcode_iboth x z H) as Lc.
  destruct (ixfs_facts x z H) as (A & B & _).
  pose proof W as W'. destruct W as [Rg W]. pose proof (index_small x z Rg O4) as Hi.
  destruct (b64val_total _ (iboth_b64 x z H)) as (v & Hv). pose proof (b64val_lt _ _ Hv) as Bv. rewrite Lb in Bv.
  unfold ibinfil_in. rewrite Eps. rewrite (proj2 (isizage_of_ok _ _) H), bind_Ok. cbv zeta. rewrite minus_same by lia. cbn [minus checked]. rewrite u32_sub_in by lia. rewrite bind_Ok.
  fold (ims z) (ics z). destruct (power_wraps (iss z)) as (p & Ep & Em). rewrite Ep, bind_Ok, Em, bind_Ok. replace (iss z <=? 5) with false by lia.
  replace (u32_max <? i_index x) with false by (unfold u32_max; lia).
  match goal with |- bind ?t _ = _ => assert (t = Ok tt) as -> end.
  { replace (ios z =? 1) with false; [reflexivity|]. unfold ims in *. lia. }
  rewrite bind_Ok. unfold ivar in Ev. rewrite Ev. rewrite bind_Ok, both_step by auto. rewrite Lb, N.eqb_refl. cbn [negb].
  rewrite minus_same by lia. cbn [minus checked]. rewrite u32_sub_in by lia. rewrite bind_Ok. replace (ipad z + ils z - ils z) with (ipad z) by lia. fold (ipad z). rewrite N.eqb_refl.
  cbn [negb]. fold (nbytes (ics z)).
  match goal with |- bind ?t _ = _ =>
    assert (exists W8, t = Ok (be_bytes W8 (v * 2 ^ (2 * ipad z))) /\ (N.to_nat (nbytes (ics z)) <= W8)%nat) as (W8 & -> & HW8)
  end.
  { assert (v * 2 ^ (2 * ipad z) < 256 ^ nbytes (ics z)) as HV.
    { rewrite pow_nbytes8 by lia. fold (ipad z). apply N.mul_lt_mono_pos_r; [|exact Bv]. apply N.neq_0_lt_0. now apply N.pow_nonzero. }
    destruct (nbytes (ics z) <=? 3) eqn:E3.
    - exists 4%nat. rewrite (b64_to_u32_exact _ _ Hv) by (rewrite Lb; unfold nbytes in E3; lia).
      rewrite bind_Ok. split; [|lia]. rewrite N.mod_small; auto.
      assert (256 ^ nbytes (ics z) <= 256 ^ 3) as Q by (apply N.pow_le_mono_r; lia).
      change (256 ^ 3) with 16777216 in Q. lia.
    - exists 8%nat. assert (nbytes (ics z) <= 6) by (unfold nbytes; lia).
      replace (nbytes (ics z) <=? 6) with true by lia.
      rewrite (b64_to_u64_exact _ _ Hv) by (rewrite Lb; lia).
      rewrite bind_Ok. split; [|lia]. rewrite N.mod_small; auto.
      assert (256 ^ nbytes (ics z) <= 256 ^ 6) as Q by (apply N.pow_le_mono_r; lia).
      change (256 ^ 6) with 281474976710656 in Q. lia. }
  rewrite bind_Ok. rewrite len_be_bytes.
  rewrite from_bytes_in by (rewrite len_be_bytes; lia). rewrite bind_Ok.
  assert (drop (N.of_nat W8 - nbytes (ics z)) (be_bytes W8 (v * 2 ^ (2 * ipad z))) = bcode (iboth x z)) as ->.
  { unfold bcode. rewrite Hv, Lb. fold (ipad z).
    replace (N.of_nat W8 - nbytes (ics z)) with (N.of_nat (W8 - N.to_nat (nbytes (ics z)))) by lia.
    replace W8 with ((W8 - N.to_nat (nbytes (ics z))) + N.to_nat (nbytes (ics z)))%nat at 2 by lia.
    apply drop_be_bytes. }
  fold (ibin x z).
  replace (len (ibin x z) mod 3) with 0 by lia. replace (len (ibin x z) * 4 / 3) with (ifs z).
  - rewrite !N.eqb_refl. reflexivity.
  - unfold ixfs in Lm. unfold ivar in Lm. rewrite Ev in Lm. lia.
Qed.
Lemma wrapping_full_size m z : lookup matter_table (m_code m) = Some z -> fs z = u32_max -> full_size_in wrapping m = Ok ((hs z + ss z + 4 * m_size m) mod word).
Proof.
  intros H E. unfold full_size_in. rewrite (proj2 (sizage_of_ok _ _) H), bind_Ok, E, N.eqb_refl. cbn [negb]. unfold wrapping. cbn [times plus bind]. f_equal.
  rewrite N.add_mod_idemp_r by discriminate. f_equal. lia.
Qed.
Lemma wrapping_ifull_size x z : lookup indexer_table (i_code x) = Some z -> ifs z = u32_max -> ifull_size_in wrapping x = Ok ((ics z + 4 * i_index x) mod word).
Proof.
  intros H E. unfold ifull_size_in. rewrite (proj2 (isizage_of_ok _ _) H), bind_Ok, E, N.eqb_refl. cbn [negb]. unfold wrapping. cbn [times plus bind]. f_equal.
  rewrite N.add_mod_idemp_l by discriminate. f_equal. unfold ics. lia.
Qed.
