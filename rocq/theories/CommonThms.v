(** Proofs of the properties of version strings and sizing. *)
From Coq Require Import String.
From Coq Require Import NArith ZArith Bool List Lia.
From Verif Require Import Base BaseFacts Prims PrimsFacts Json JsonFacts JsonThms Common CommonFacts SpecPrims SpecJson SpecCommon.
Import ListNotations.
Open Scope N_scope.

(*# C51_version_round_trip
   Writing a version string and reading it back gives the same protocol, version, kind and size; the text has 17 characters.
##
Example C51_case : versify (Some (s! "ACDC")) (Some (Ver 1 0)) None (Some 291) = Ok (s! "ACDC10JSON000123_").
Proof. vm_compute. reflexivity. Qed.
#*)
Lemma C51a_l (proto : bytes) (major minor size : N) (kind : option bytes) :
  proto = s! "KERI" \/ proto = s! "ACDC" -> major < 16 -> minor < 16 -> size < 2 ^ 24 -> kind = None \/ kind = Some (s! "JSON") ->
  exists vs, versify (Some proto) (Some (Ver major minor)) kind (Some size) = Ok vs /\ len vs = 17 /\
    version_string vs proto major minor size /\ deversify vs = Ok (Vi proto (s! "JSON") (Ver major minor) size).
Proof.
  intros P A B S K. apply idents_or in P. assert (version_string _ _ _ _ _) as V by exact (versify_string proto major minor size P A B S).
  eexists. split.
  - assert (versify (Some proto) (Some (Ver major minor)) kind (Some size) = versify (Some proto) (Some (Ver major minor)) (Some (s! "JSON")) (Some size)) as ->.
    { destruct K as [-> | ->]; reflexivity. }
    now apply versify_eq.
  - split; [eapply version_string_rever; eauto|]. split; [exact V|]. apply deversify_ok. auto.
Qed.

(*# C51_only_version_strings_accepted
   The texts deversify accepts are exactly the version strings, and what it returns is what they state.
##
Example C51_not_accepted : is_err (deversify (s! "xKERI10JSON000123_")) = true /\ is_err (deversify (s! "KERI10JSON000123_KERI10JSON000123_")) = true
  /\ is_err (deversify (s! "KERI10CBOR000123_")) = true /\ is_err (deversify (s! "KERI10JSON00012G_")) = true.
Proof. split; [|split; [|split]]; vm_compute; reflexivity. Qed.
#*)
Lemma C51b_l (vs : bytes) (i : vinfo) : deversify vs = Ok i <->
  version_string vs (vi_ident i) (v_major (vi_version i)) (v_minor (vi_version i)) (vi_size i) /\ vi_kind i = s! "JSON".
Proof. exact (deversify_ok vs i). Qed.

(*# C51_no_silent_change
   For any version numbers and any size, also those that do not fit: if the text written is read back at all, then it is read back as what was
   written. Numbers that do not fit give a text that is not accepted.
##
Example C51_does_not_fit : exists vs, versify None (Some (Ver 16 0)) None (Some 5) = Ok vs /\ deversify vs = Err EValidation.
Proof. exists (s! "KERI100JSON000005_"). split; vm_compute; reflexivity. Qed.
#*)
Lemma C51c_l (proto kind vs : bytes) (major minor size : N) (i : vinfo) :
  major <= 255 -> minor <= 255 -> size < 2 ^ 32 ->
  versify (Some proto) (Some (Ver major minor)) (Some kind) (Some size) = Ok vs -> deversify vs = Ok i ->
  i = Vi proto kind (Ver major minor) size.
Proof.
  intros A B S V D. unfold versify in V. cbn [or_else] in V. destruct (has_code idents proto) eqn:P; [|discriminate]. cbn [negb] in V.
  destruct (has_code serials kind) eqn:K; [|discriminate]. cbn [negb] in V. injection V as <-. apply has_code_in in P, K. destruct K as [<-|[]].
  cbn [v_major v_minor] in *. pose proof D as D'. apply deversify_ok in D' as (V & KI). destruct (version_string_rever _ _ _ _ _ V) as (L & _).
  assert (len proto = 4) as LP by (apply idents_or in P as [-> | ->]; reflexivity). rewrite !len_app, LP in L. change (len (s! "JSON")) with 4 in L.
  change (len [x5f]) with 1 in L. change (2 ^ 32) with 4294967296 in S.
  assert (major <= u128_max /\ minor <= u128_max /\ size <= u128_max) as (U1 & U2 & U3) by (unfold u128_max; lia).
  destruct (hex_pad_ok 1 major U1) as (_ & _ & L1). destruct (hex_pad_ok 1 minor U2) as (_ & _ & L2). destruct (hex_pad_ok 6 size U3) as (_ & _ & L3).
  assert (major < 16 ^ 1) as M1 by (apply hex_pad_long; auto; lia). assert (minor < 16 ^ 1) as M2 by (apply hex_pad_long; auto; lia).
  assert (size < 16 ^ 6) as M3 by (apply hex_pad_long; auto; lia). change (16 ^ 1) with 16 in *. change (16 ^ 6) with (2 ^ 24) in M3.
  destruct (deversify_ok (proto ++ hex_pad 1 major ++ hex_pad 1 minor ++ s! "JSON" ++ hex_pad 6 size ++ [x5f]) (Vi proto (s! "JSON") (Ver major minor) size)) as (_ & R).
  cbn [vi_ident vi_kind vi_version vi_size v_major v_minor] in R. rewrite R in D; [injection D; auto|]. split; auto. apply versify_string; auto.
Qed.

(*# C52_sizing_refuted
   Sizing can return raw bytes that are not the JSON of the returned data. When an earlier field holds a text that looks like a version string, that
   text is overwritten in the raw bytes, while the data keep it and get the new version string in the field v.
#*)
Lemma C52_no_l : exists ked z, data ked /\ sizeify ked None = Ok z /\ z_raw z <> to_json (z_ked z) /\
  index_str (z_ked z) (s! "d") = Ok (VStr (s! "KERI10JSON000000_")) /\ index_str ked (s! "d") = Ok (VStr (s! "KERI10JSON000000_")) /\
  z_raw z = s! "{""d"":""KERI10JSON000031_"",""v"":""KERI10JSON000000_""}".
Proof.
  exists (VObj [(s! "d", VStr (s! "KERI10JSON000000_")); (s! "v", VStr (s! "KERI10JSON000000_"))]).
  eexists. split; [|split; [vm_compute; reflexivity|split; [|split; [|split]]]].
  - apply data_obj; [repeat constructor; cbn; intuition discriminate|repeat constructor|repeat constructor].
  - vm_compute. discriminate.
  - vm_compute. reflexivity.
  - vm_compute. reflexivity.
  - vm_compute. reflexivity.
Qed.

Definition zero_vs : bytes := s! "KERI10JSON000000_".
Lemma zero_vs_string : version_string zero_vs (s! "KERI") 1 0 0.
Proof. apply (deversify_ok zero_vs (Vi (s! "KERI") (s! "JSON") (Ver 1 0) 0)). vm_compute. reflexivity. Qed.
Lemma huge (big : bytes) : ascii big = true -> forallb plain big = true -> len big = 4294967264 ->
  data (VObj [(s! "v", VStr zero_vs); (s! "a", VStr big)]) /\
  exists z, sizeify (VObj [(s! "v", VStr zero_vs); (s! "a", VStr big)]) None = Ok z /\ len (z_raw z) = 2 ^ 32 /\
  index_str (z_ked z) (s! "v") = Ok (VStr zero_vs).
Proof.
  intros AB PB LB. assert (utf8 big = true) as UB by now apply utf8_ascii. set (m2 := [(s! "a", VStr big)]).
  assert (data (VObj [(s! "v", VStr zero_vs); (s! "a", VStr big)])) as D.
  { apply data_obj; cbn [map fst snd].
    - repeat constructor; cbn; intuition discriminate.
    - repeat constructor.
    - constructor; [constructor; reflexivity|]. constructor; [constructor; exact UB|constructor]. }
  split; [exact D|]. exists (sized_of [] m2 (s! "KERI")).
  assert (len (fore [] (s! "v")) + 17 + len (back m2) = 2 ^ 32) as LS.
  { change (len (fore [] (s! "v"))) with 6. unfold back, tail, m2. cbn [map concat]. rewrite app_nil_r. unfold field. cbn [fst snd to_json]. unfold json_string.
    rewrite (escape_plain big) by auto. change (concat (map escape1 (s! "a"))) with [x61]. unfold len in *. cbn [app length]. rewrite !app_length. cbn [length].
    change (2 ^ 32) with 4294967296. clear -LB. lia. }
  split; [|split].
  - pose proof (sizeify_spec [] zero_vs m2 None _ _ _ _ (fun H => H) eq_refl zero_vs_string) as S. cbn [app] in S. rewrite S.
    cbn [N.eqb Pos.eqb andb negb]. change (knd None) with true. cbn [negb].
    rewrite (utf8_parts [] zero_vs m2 _ _ _ _ zero_vs_string) by (apply data_wfv; exact D). cbn [negb].
    rewrite LS. change (12 <? len (fore [] (s! "v"))) with false. reflexivity.
  - unfold sized_of. cbn [z_raw]. rewrite LS. change (vtext (s! "KERI") (as_u32 (2 ^ 32))) with zero_vs. rewrite !len_app. change (len zero_vs) with 17. lia.
  - unfold sized_of. cbn [z_ked app index_str assoc]. rewrite LS. reflexivity.
Qed.

(*# C52_huge_event_refuted
   Sizing an event of exactly 2^32 bytes succeeds and writes the size 0 into its version string: the length is cut to 32 bits before it is checked.
#*)
Lemma C52_huge_l : exists ked z vs, data ked /\ sizeify ked None = Ok z /\ len (z_raw z) = 2 ^ 32 /\
  index_str (z_ked z) (s! "v") = Ok (VStr vs) /\ version_string vs (s! "KERI") 1 0 0.
Proof.
  assert (exists big, ascii big = true /\ forallb plain big = true /\ len big = 4294967264) as (big & A & P & L).
  { generalize 4294967264. intros K. exists (repeat x61 (N.to_nat K)). split; [apply forallb_repeat; reflexivity|]. split; [apply forallb_repeat; reflexivity|].
    rewrite len_repeat. lia. }
  destruct (huge big A P L) as (D & z & S & LZ & I). exists (VObj [(s! "v", VStr zero_vs); (s! "a", VStr big)]), z, zero_vs. split; [exact D|].
  split; [exact S|]. split; [exact LZ|]. split; [exact I|exact zero_vs_string].
Qed.

(*# C52_sizing_partial
   When nothing before the field v looks like a version string and the event is shorter than 2^32 bytes, sizing returns the JSON of the returned data;
   these are the given data with only the version string replaced, and that states the protocol given, version 1.0 and the length of the raw bytes.
   What is missing: the two cases of the refutations.
##
Example C52_case : exists z, sizeify (VObj [(s! "v", VStr (s! "KERI10JSON000000_")); (s! "d", VStr (s! "x"))]) None = Ok z /\
  no_version_in (to_json (VObj [])) /\ z_raw z = s! "{""v"":""KERI10JSON000021_"",""d"":""x""}".
Proof.
  eexists. split; [vm_compute; reflexivity|]. split; [|vm_compute; reflexivity].
  apply no_version_find. vm_compute. reflexivity.
Qed.
#*)
Lemma C52_l (m1 m2 : list (bytes * value)) (vs : bytes) (kind : option bytes) (z : sized) :
  ~ In (s! "v") (map fst m1) -> no_version_in (to_json (VObj m1)) ->
  sizeify (VObj (m1 ++ (s! "v", VStr vs) :: m2)) kind = Ok z -> len (z_raw z) < 2 ^ 32 ->
  z_raw z = to_json (z_ked z) /\ z_kind z = s! "JSON" /\ z_version z = Ver 1 0 /\
  (exists n, version_string vs (z_ident z) 1 0 n) /\
  exists vs', z_ked z = VObj (m1 ++ (s! "v", VStr vs') :: m2) /\ version_string vs' (z_ident z) 1 0 (len (z_raw z)).
Proof.
  intros N F H L. apply no_version_find in F. destruct (sizeify_shape _ _ _ H) as (n1 & vs2 & n2 & proto & n & E & N' & V).
  assert (vs2 = vs) as ->.
  { injection E as E. apply (f_equal (assoc (s! "v"))) in E. rewrite !assoc_at in E by auto. injection E as E. auto. }
  clear E N' n1 n2. rewrite (sizeify_spec _ _ _ _ _ _ _ _ N F V) in H. cbn [N.eqb Pos.eqb andb negb] in H.
  destruct (knd kind); [|discriminate]. cbn [negb] in H. destruct (utf8 _ && _); [|discriminate]. cbn [negb] in H.
  destruct (12 <? _); [discriminate|]. destruct (as_u32 _ <? 2 ^ 24) eqn:S; [|discriminate]. injection H as <-. apply N.ltb_lt in S.
  assert (In proto idents) as IP by (apply idents_or; apply V). pose proof (vtext_string proto _ IP S) as V'.
  unfold sized_of in *. cbn [z_raw z_kind z_version z_ident z_ked] in *. destruct (version_string_plain _ _ _ _ _ V') as (PL & _).
  destruct (version_string_rever _ _ _ _ _ V') as (L17 & _).
  split; [now rewrite to_json_str|]. split; [reflexivity|]. split; [reflexivity|]. split; [eauto|].
  eexists. split; [reflexivity|]. rewrite !len_app, L17 in *. 
  assert (as_u32 (len (fore m1 (s! "v")) + 17 + len (back m2)) = len (fore m1 (s! "v")) + 17 + len (back m2)) as EA.
  { unfold as_u32. change (2 ^ 32) with 4294967296 in L. apply N.mod_small. lia. }
  rewrite EA in V' at 2. rewrite N.add_assoc. exact V'.
Qed.

(*# C53_sizing_ignores_old_size
   When nothing before the field v looks like a version string (in particular when v is the first field), the outcome of sizing does not depend on the
   size written in the incoming version string.
##
Example C53_case : version_string (s! "KERI10JSON000000_") (s! "KERI") 1 0 0 /\ version_string (s! "KERI10JSON000fff_") (s! "KERI") 1 0 4095.
Proof.
  split; (split; [now left|]).
  - exists (s! "1"), (s! "0"), (s! "000000"). repeat split; intros c H; cbn in H; intuition (subst; vm_compute; tauto).
  - exists (s! "1"), (s! "0"), (s! "000fff"). repeat split; intros c H; cbn in H; intuition (subst; vm_compute; tauto).
Qed.
#*)
Lemma C53a_l (m1 m2 : list (bytes * value)) (vs vs' proto : bytes) (major minor n n' : N) (kind : option bytes) :
  ~ In (s! "v") (map fst m1) -> no_version_in (to_json (VObj m1)) ->
  version_string vs proto major minor n -> version_string vs' proto major minor n' ->
  sizeify (VObj (m1 ++ (s! "v", VStr vs) :: m2)) kind = sizeify (VObj (m1 ++ (s! "v", VStr vs') :: m2)) kind.
Proof.
  intros N F V V'. apply no_version_find in F. rewrite (sizeify_spec _ _ _ _ _ _ _ _ N F V), (sizeify_spec _ _ _ _ _ _ _ _ N F V'). reflexivity.
Qed.

(*# C53_sizing_idempotent
   Sizing the data returned by sizing changes nothing.
#*)
Lemma C53b_l (m1 m2 : list (bytes * value)) (vs : bytes) (kind : option bytes) (z : sized) :
  ~ In (s! "v") (map fst m1) -> no_version_in (to_json (VObj m1)) ->
  sizeify (VObj (m1 ++ (s! "v", VStr vs) :: m2)) kind = Ok z -> sizeify (z_ked z) kind = Ok z.
Proof.
  intros N F H. apply no_version_find in F. destruct (sizeify_shape _ _ _ H) as (n1 & vs2 & n2 & proto & n & E & N' & V).
  assert (vs2 = vs) as ->.
  { injection E as E. apply (f_equal (assoc (s! "v"))) in E. rewrite !assoc_at in E by auto. injection E as E. auto. }
  clear E N' n1 n2. pose proof H as H'. rewrite (sizeify_spec _ _ _ _ _ _ _ _ N F V) in H'. cbn [N.eqb Pos.eqb andb negb] in H'.
  destruct (knd kind) eqn:K; [|discriminate]. cbn [negb] in H'. destruct (utf8 _ && _) eqn:U; [|discriminate]. cbn [negb] in H'.
  destruct (12 <? _) eqn:L12; [discriminate|]. destruct (as_u32 _ <? 2 ^ 24) eqn:S; [|discriminate]. injection H' as <-. pose proof S as S'. apply N.ltb_lt in S.
  assert (In proto idents) as IP by (apply idents_or; apply V). pose proof (vtext_string proto _ IP S) as V'. unfold sized_of at 1. cbn [z_ked].
  rewrite (sizeify_spec _ _ _ _ _ _ _ _ N F V'). cbn [N.eqb Pos.eqb andb negb]. rewrite K, U. cbn [negb]. rewrite L12, S'. reflexivity.
Qed.

Lemma sized_first vs m proto a b n : data (VObj ((s! "v", VStr vs) :: m)) -> len (to_json (VObj ((s! "v", VStr vs) :: m))) < 2 ^ 32 ->
  version_string vs proto a b n -> sizeify (VObj ((s! "v", VStr vs) :: m)) None =
  if negb ((a =? 1) && (b =? 0)) then Err EValue else if len (to_json (VObj ((s! "v", VStr vs) :: m))) <? 2 ^ 24 then Ok (sized_of [] m proto) else Err EValue.
Proof.
  intros D L V. pose proof (sizeify_spec [] vs m None _ _ _ _ (fun H => H) eq_refl V) as S. cbn [app] in S. rewrite S. clear S.
  destruct (version_string_plain _ _ _ _ _ V) as (PL & _). destruct (version_string_rever _ _ _ _ _ V) as (L17 & _).
  pose proof (to_json_str [] (s! "v") vs m PL) as T. cbn [app] in T. rewrite T in *.
  destruct (negb ((a =? 1) && (b =? 0))); [reflexivity|]. assert (knd None = true) as -> by reflexivity. cbn [negb].
  rewrite (utf8_parts [] vs m _ _ _ _ V) by (apply data_wfv; exact D). cbn [negb]. assert (12 <? len (fore [] (s! "v")) = false) as -> by reflexivity.
  rewrite !len_app, L17 in *. rewrite N.add_assoc in *. unfold as_u32. rewrite N.mod_small by exact L. reflexivity.
Qed.

(*# C84_sizing_accepts
   An event whose first field is v and whose JSON has fewer than 2^32 bytes is sized exactly when v holds a version string of version 1.0 and the JSON
   has fewer than 2^24 bytes; otherwise sizing is an error, never a panic.
##
Example C84_case : data (VObj ((s! "v", VStr (s! "KERI10JSON000000_")) :: [(s! "t", VStr (s! "icp"))])) /\
  is_err (sizeify (VObj [(s! "v", VStr (s! "KERI11JSON000000_"))]) None) = true.
Proof. split; [|vm_compute; reflexivity]. apply data_obj; [repeat constructor; cbn; intuition discriminate|repeat constructor|repeat constructor]. Qed.
#*)
Lemma C84_l (vs : bytes) (m : list (bytes * value)) :
  data (VObj ((s! "v", VStr vs) :: m)) -> len (to_json (VObj ((s! "v", VStr vs) :: m))) < 2 ^ 32 ->
  ((exists z, sizeify (VObj ((s! "v", VStr vs) :: m)) None = Ok z) <->
   (exists proto n, version_string vs proto 1 0 n) /\ len (to_json (VObj ((s! "v", VStr vs) :: m))) < 2 ^ 24) /\
  sizeify (VObj ((s! "v", VStr vs) :: m)) None <> Panic.
Proof.
  assert (negb ((1 =? 1) && (0 =? 0)) = false) as X by reflexivity. intros D L. pose proof (fun proto a b n => sized_first vs m proto a b n D L) as G.
  assert ((exists proto a b n, version_string vs proto a b n) \/ exists e, sizeify (VObj ((s! "v", VStr vs) :: m)) None = Err e) as [(proto & a & b & n & V)|(e & E)].
  { destruct (sizeify (VObj ((s! "v", VStr vs) :: m)) None) as [z|e|] eqn:E; [|right; eauto|destruct (sizeify_np _ _ E)].
    left. destruct (sizeify_shape _ _ _ E) as (m1 & vs' & m2 & proto & n & E1 & N & V). exists proto, 1, 0, n.
    injection E1 as E1. apply (f_equal (assoc (s! "v"))) in E1. rewrite assoc_at in E1 by auto. cbn [assoc] in E1. rewrite beq_refl in E1. injection E1 as ->. exact V. }
  - rewrite (G _ _ _ _ V). split.
    + split.
      * intros (z & E). clear X. destruct (negb ((a =? 1) && (b =? 0))) eqn:AB; [discriminate|]. apply negb_false_iff, andb_prop in AB as (A & B). apply N.eqb_eq in A, B. subst a b.
        destruct (_ <? 2 ^ 24) eqn:S; [|discriminate]. apply N.ltb_lt in S. split; eauto.
      * intros ((proto' & n' & V') & S). exists (sized_of [] m proto'). rewrite <- (G _ _ _ _ V), (G _ _ _ _ V'). rewrite X. apply N.ltb_lt in S. rewrite S. reflexivity.
    + clear X. destruct (negb _); [discriminate|]. destruct (_ <? _); discriminate.
  - rewrite E. split; [|discriminate]. split.
    + intros (z & Z). discriminate.
    + intros ((proto' & n' & V') & S). rewrite (G _ _ _ _ V') in E. rewrite X in E. apply N.ltb_lt in S. rewrite S in E. discriminate.
Qed.
