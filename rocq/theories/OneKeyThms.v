(** Property C121: with thresholds given as numbers, one of the signatures attached to an accepted event is enough. *)
From Coq Require Import String.
From Coq Require Import NArith ZArith QArith Bool List Lia.
From Verif Require Import Base Tables Matter Indexer Prims Json Tholder Common Saider Diger Sadder Signer Prefixer Pather Short Verify Ingest Events.
From Verif Require Import SpecPrims SpecTholder SpecSaider SpecSadder SpecSigner SpecLog SpecIngest SpecExtra World.
From Verif Require Import BaseFacts SadderFacts TholderFacts TholderThms VerifyFacts VerifyThms ExtraFacts ExtraThms.
Import ListNotations.
Open Scope N_scope.

Lemma same_sigs cr ks raw x m : verifies cr ks raw x -> check_sigs cr ks raw (repeat x m) = Ok (repeat (i_index x, i_ondex x) m).
Proof.
  intros (v & V & C). assert (i_index x < len ks) as L. { assert (N.to_nat (i_index x) < length ks)%nat by (apply nth_error_Some; congruence). unfold len. lia. }
  induction m as [|m IH]; cbn [repeat check_sigs]; [reflexivity|]. destruct (N.ltb_spec (len ks) (i_index x)); [lia|]. rewrite V, C, bind_Ok, IH, bind_Ok. reflexivity.
Qed.
Lemma same_shown hash ks ds i o m : revealed hash ks ds [(i, o)] = Ok [o] -> revealed hash ks ds (repeat (i, o) m) = Ok (repeat o m).
Proof.
  intros H. induction m as [|m IH]; cbn [repeat]; [reflexivity|]. cbn [revealed] in *. apply bind_ok in H as (same & B & H). rewrite bind_Ok in H. destruct same; [|discriminate H].
  rewrite B, bind_Ok, IH, bind_Ok. reflexivity.
Qed.
Lemma shown_some hash ks ds found idx : revealed hash ks ds found = Ok idx -> (length idx <= length found)%nat /\ (idx <> [] -> exists i o, In (i, o) found /\ revealed hash ks ds [(i, o)] = Ok [o]).
Proof.
  revert idx. induction found as [|(i, o) r IH]; intros idx H; cbn [revealed] in H; [injection H as <-; split; [auto|intros X; now elim X]|].
  apply bind_ok in H as (same & B & H). apply bind_ok in H as (l & L & H). injection H as <-. destruct (IH _ L) as (LE & W). destruct same.
  - split; [cbn [length]; lia|]. intros _. exists i, o. split; [now left|]. cbn [revealed]. rewrite B, bind_Ok. reflexivity.
  - split; [cbn [length]; lia|]. intros X. destruct (W X) as (i' & o' & I & R). exists i', o'. split; [now right|exact R].
Qed.
Lemma those_length {A} (P : A -> Prop) l k : those P l k -> (length k <= length l)%nat.
Proof. intros T. induction T; cbn [length]; lia. Qed.
Lemma numeric_repeat canon v t idx {A} (a : A) (f : A -> N) m : tholder_new canon None None (Some v) = Ok t -> t_weighted t = false -> satisfy t idx = Ok true ->
  idx <> [] /\ ((length idx <= m)%nat -> satisfy t (map f (repeat a m)) = Ok true).
Proof.
  intros H W S. apply accepted in H as [(k & T)|(cs & T)]; [|rewrite (wt_weighted _ _ T) in W; discriminate]. rewrite (satisfy_numeric_eq k t _ T) in S. injection S as S.
  apply andb_true_iff in S as (S1 & S2). apply N.ltb_lt in S1. apply N.leb_le in S2. split. { intros ->. unfold len in S2. cbn in S2. lia. }
  intros L. rewrite (satisfy_numeric_eq k t _ T). f_equal. apply andb_true_iff. split; [now apply N.ltb_lt|]. apply N.leb_le. unfold len in *. rewrite map_length, repeat_length. lia.
Qed.

(*# C121_one_signature_is_enough
   How far the threshold of signers is from holding. Take any event that is accepted, whatever it is signed with, where the threshold in force and the announced one are numbers of any size: among the
   signatures attached there is one that is enough alone. Attached as often as there were signatures, or more often, in place of all the others, it has the event accepted with the same result.
##
Example C121_one_case : verify_key_event no_floats mix toy no_messages 1 (view no_floats log1) event1 [GSigs sigs1] None [] = Ok (false, []) /\
  (exists ks t, governing no_floats (view no_floats log1) pre0 1 event1 ks t /\ len ks = 2 /\ t_weighted t = false) /\ (exists nt, serder_ntholder no_floats event0 = Ok (Some nt) /\ tholder_num nt = Ok (Some 2)) /\
  field_of (d_ked event1) (s! "i") (VStr pre0) /\ ordinal (d_ked event1) 1 /\
  (forall e' nt, announcing no_floats (view no_floats log1) pre0 1 e' -> serder_ntholder no_floats e' = Ok (Some nt) -> t_weighted nt = false).
Proof.
  split; [vm_compute; reflexivity|]. split.
  { assert (exists ks, serder_verfers event1 = Ok ks /\ len ks = 2) as (ks & K1 & K2). { eexists. split; [vm_compute; reflexivity|]. vm_compute. reflexivity. }
    assert (exists t, serder_tholder no_floats event1 = Ok (Some t) /\ t_weighted t = false) as (t & T1 & T2).
    { eexists. split; [vm_compute; reflexivity|]. vm_compute; reflexivity. }
    exists ks, t. split; [|auto]. exists (s! "rot"), event1. split; [apply type_text; vm_compute; reflexivity|]. split; [left; split; [right; now left|reflexivity]|auto]. }
  split; [eexists; split; [vm_compute; reflexivity|]; vm_compute; reflexivity|].
  split; [apply pre_field; vm_compute; reflexivity|]. split; [apply sn_field; vm_compute; reflexivity|].
  assert (serder_with_raw no_floats (d_raw event0) = Ok event0) as R0 by (vm_compute; reflexivity).
  assert (get_key_event (view no_floats log1) pre0 0 = Ok (d_raw event0)) as G0 by (vm_compute; reflexivity).
  assert (exists nt, serder_ntholder no_floats event0 = Ok (Some nt) /\ t_weighted nt = false) as (nt & N1 & N2). { eexists. split; [vm_compute; reflexivity|]. vm_compute. reflexivity. }
  assert (of_type (d_ked event0) (s! "icp")) as T0 by (apply type_text; vm_compute; reflexivity).
  intros e' nt' (b & said & ilk & (text & G & S & _) & T & W) N. change (asked_for 1 - 1) with 0 in *. assert (text = d_raw event0) as -> by congruence. assert (b = event0) as -> by congruence.
  rewrite (type_once _ _ _ T T0) in W. destruct W as [(_ & ->)|(X & _)]; [congruence|]. elim X. now left.
Qed.
#*)
Lemma C121_one_l (canon : bytes -> option bytes) (hash : bytes -> bytes -> bytes) (cr : crypto) (messages_of : bytes -> R (list message)) (fuel : nat) (st : store) (e : sadder)
    (g : list group) (deep : option bool) (seen : list bytes) (r : bool * list bytes) (pre : bytes) (n : N) (ks : list matter) (t : tholder) :
  verify_key_event canon hash cr messages_of fuel st e g deep seen = Ok r ->
  field_of (d_ked e) (s! "i") (VStr pre) -> ordinal (d_ked e) n -> governing canon st pre n e ks t -> t_weighted t = false ->
  (forall e' nt, announcing canon st pre n e' -> serder_ntholder canon e' = Ok (Some nt) -> t_weighted nt = false) ->
  exists sigs x, attached g sigs /\ In x sigs /\ verifies cr ks (d_raw e) x /\
    forall m, (length sigs <= m)%nat -> verify_key_event canon hash cr messages_of fuel st e [GSigs (repeat x m)] deep seen = Ok r.
Proof.
  intros H P S G W WN. destruct r as (ex, seen'). apply accepted_inv in H as (f & pre' & p & sn & ilk & said & (ks', t') & found & -> & A).
  destruct (again _ _ _ _ _ _ _ _ _ _ _ _ _ _ _ _ _ _ _ A) as (rot & R0 & D & V). destruct A as [Hpre Hp Hsn Hilk Hsaid Hplace Hkeys Hfound He HL Hprior Hst]. cbn [fst snd] in *.
  apply pre_field in P. apply sn_field in S. assert (pre' = pre) as -> by congruence. assert (sn = n) as -> by congruence. apply type_text in Hilk.
  destruct (governing_keys _ _ _ _ _ _ _ _ Hilk Hkeys) as (G' & _). destruct (governing_once _ _ _ _ _ _ _ _ _ G G') as (<- & <-). clear G'.
  destruct G as (ilk' & e' & _ & _ & _ & TH). apply threshold_new in TH as (v & TH). apply groups_ok in Hfound as (HG & HS). apply sigs_ok in HS as (_ & good & T & ->).
  pose proof (those_length _ _ _ T) as LT.
  assert (exists x, In x good /\ forall m, (length (all_sigs g) <= m)%nat -> rot (repeat (i_index x, i_ondex x) m) = Ok tt) as (x & I & RX).
  { destruct D as [D|(e2 & ds & nt & A1 & A2 & A3 & D)].
    - destruct good as [|x good]; [exfalso; exact (proj1 (numeric_repeat _ _ _ _ 0 (fun y => y) 0 TH W He) eq_refl)|]. exists x. split; [now left|auto].
    - rewrite D in R0. apply bind_ok in R0 as (idx & RV & R0). apply bind_ok in R0 as (ok & SN & R0). destruct ok; [|discriminate]. destruct (next_new _ _ _ A3) as (v2 & T2).
      pose proof (WN _ _ A1 A3) as W2. destruct (shown_some _ _ _ _ _ RV) as (LE & EX). rewrite map_length in LE.
      destruct (EX (proj1 (numeric_repeat _ _ _ _ 0 (fun y => y) 0 T2 W2 SN))) as (i & o & I & R1). apply in_map_iff in I as (x & E & I). injection E as <- <-. exists x. split; auto.
      intros m L. rewrite D, (same_shown _ _ _ _ _ m R1), bind_Ok. destruct (numeric_repeat _ _ _ _ (i_ondex x) (fun y => y) m T2 W2 SN) as (_ & Q). rewrite map_id in Q. rewrite Q by lia. reflexivity. }
  pose proof I as I2. apply (those_in _ _ _ _ T) in I2 as (I2 & VX). exists (all_sigs g), x. split; [now apply attached_all|]. split; auto. split; auto.
  intros m L. rewrite V. cbn [check_groups]. rewrite (same_sigs _ _ _ _ m VX), !bind_Ok, app_nil_r.
  destruct (numeric_repeat _ _ _ _ (i_index x, i_ondex x) fst m TH W He) as (_ & Q). rewrite Q by (rewrite !map_length; lia). rewrite bind_Ok. cbn [negb]. rewrite RX by exact L. reflexivity.
Qed.

Lemma plain canon hash cr mo f st e g deep seen ex seen' pre p sn ilk said keys found :
  accepts canon hash cr mo f st e g deep seen ex seen' pre p sn ilk said keys found -> ilk = s! "icp" \/ ~ In ilk establishing ->
  forall g', verify_key_event canon hash cr mo (S f) st e g' deep seen =
      let* l := check_groups cr (fst keys) (d_raw e) g' in
      let* enough := satisfy (snd keys) (map fst l) in
      if negb enough then Err EVerification else Ok (ex, seen').
Proof.
  intros [H1 H2 H3 H4 H5 H6 H7 H8 H9 (labels & L1 & L2) H11 H12] NR.
  assert ((if ex then check_stored canon st pre said sn else Ok tt) = Ok tt) as HS by (destruct ex; auto).
  assert (forall g', verify_key_event canon hash cr mo (S f) st e g' deep seen =
    let* l := check_groups cr (fst keys) (d_raw e) g' in let* enough := satisfy (snd keys) (map fst l) in if negb enough then Err EVerification else
      let* seen := if beq ilk (s! "icp") then Ok seen else
            let* n := before sn in
            let* event := get_key_event st pre n in
            let* pserder := serder_with_raw canon event in
            let* psaid := sad_said pserder in
            let* p := text_at (d_ked e) (s! "p") in
            if negb (beq psaid p) then Err EValidation
            else
              let* _u := check_rotation canon hash st e pserder pre sn (fst keys) l in
              if or_else deep false && negb (has_code seen psaid) then
                let* rest := from_str event (len (d_raw pserder)) in
                let* g := first_group mo rest in
                match g with
                | GQuadlets value => let* r := verify_key_event canon hash cr mo f st pserder value deep (psaid :: seen) in Ok (snd r)
                | _ => Err EDecoding
                end
              else Ok seen in Ok (ex, seen)) as V.
  { intros g'. rewrite verify_unfold. rewrite H1, bind_Ok, H2, bind_Ok, H3, bind_Ok, H4, bind_Ok, H5, bind_Ok. cbv zeta. rewrite H6, bind_Ok, H7, bind_Ok.
    destruct (check_groups cr (fst keys) (d_raw e) g') as [l| |]; [|reflexivity|reflexivity]. rewrite !bind_Ok. destruct (satisfy (snd keys) (map fst l)) as [[]| |]; try reflexivity.
    rewrite !bind_Ok. cbn [negb]. rewrite L1, bind_Ok, L2, bind_Ok. cbn [negb]. match goal with |- bind ?a _ = bind ?b _ => change b with a; destruct a as [s1| |]; [|reflexivity|reflexivity] end.
    rewrite !bind_Ok, HS. reflexivity. }
  destruct H11 as [(B & ->)|(B & n & event & pe & psaid & P1 & P2 & P3 & P4 & P5 & P6 & D)].
  - intros g'. rewrite V, B. destruct (check_groups cr (fst keys) (d_raw e) g'); [|reflexivity|reflexivity]. rewrite !bind_Ok. destruct (satisfy _ _) as [[]| |]; reflexivity.
  - assert (serder_est e = Ok false) as E. { apply est_field. exists ilk. split; [now apply type_text|]. destruct NR as [->|NR]; [now rewrite beq_refl in B|]. split; [discriminate|tauto]. }
    assert (forall l, check_rotation canon hash st e pe pre sn (fst keys) l = Ok tt) as CR. { intros l. unfold check_rotation. now rewrite E, bind_Ok. }
    intros g'. rewrite V, B.
    destruct (check_groups cr (fst keys) (d_raw e) g') as [l| |]; [|reflexivity|reflexivity]. rewrite !bind_Ok. destruct (satisfy (snd keys) (map fst l)) as [[]| |]; [|reflexivity|reflexivity|reflexivity].
    rewrite !bind_Ok. cbn [negb]. rewrite P1, bind_Ok, P2, bind_Ok, P3, bind_Ok, P4, bind_Ok, P5, bind_Ok, beq_refl. cbn [negb]. rewrite CR, bind_Ok.
    destruct D as [(-> & rest & value & r & D1 & D2 & D3 & ->)|(-> & ->)]; [|reflexivity]. rewrite D1, bind_Ok, D2, bind_Ok, D3, !bind_Ok. reflexivity.
Qed.

(*# C121_any_one_key_is_enough
   For inceptions, interactions and all other events that are no rotations any one key will do: if such an event would be accepted with some signatures, and the threshold in force is a number k, then one signature
   that verifies under any one of the keys in force, attached k times or more, has it accepted with the same result.
##
Example C121_any_one_case : verify_key_event no_floats mix toy no_messages 1 (view no_floats empty) event0 [GSigs sigs0] None [] = Ok (false, []) /\
  (exists ks t, governing no_floats (view no_floats empty) pre0 0 event0 ks t /\ t_weighted t = false /\ tholder_num t = Ok (Some 2) /\ forall x, In x sigs0 -> verifies toy ks (d_raw event0) x) /\
  field_of (d_ked event0) (s! "i") (VStr pre0) /\ ordinal (d_ked event0) 0 /\ of_type (d_ked event0) (s! "icp") /\
  forall x, In x sigs0 -> verify_key_event no_floats mix toy no_messages 1 (view no_floats empty) event0 [GSigs [x; x]] None [] = Ok (false, []).
Proof.
  split; [vm_compute; reflexivity|]. split.
  { assert (exists ks, serder_verfers event0 = Ok ks /\ forallb (fun x => match nth_error ks (N.to_nat (i_index x)) with Some v => match verfer_verify toy v (i_raw x) (d_raw event0) with Ok true => true | _ => false end | None => false end) sigs0 = true) as (ks & K1 & K2).
    { eexists. split; [vm_compute; reflexivity|]. vm_compute. reflexivity. }
    assert (exists t, serder_tholder no_floats event0 = Ok (Some t) /\ t_weighted t = false /\ tholder_num t = Ok (Some 2)) as (t & T1 & T2 & T3).
    { eexists. split; [vm_compute; reflexivity|]. split; vm_compute; reflexivity. }
    exists ks, t. split. { exists (s! "icp"), event0. split; [apply type_text; vm_compute; reflexivity|]. split; [left; split; [now left|reflexivity]|auto]. }
    split; auto. split; auto. intros x I. rewrite forallb_forall in K2. specialize (K2 x I). destruct (nth_error ks (N.to_nat (i_index x))) as [v|] eqn:V; [|discriminate].
    exists v. split; auto. destruct (verfer_verify toy v (i_raw x) (d_raw event0)) as [[]| |]; try discriminate. reflexivity. }
  split; [apply pre_field; vm_compute; reflexivity|]. split; [apply sn_field; vm_compute; reflexivity|]. split; [apply type_text; vm_compute; reflexivity|].
  intros x [<-|[<-|[]]]; vm_compute; reflexivity.
Qed.
#*)
Lemma C121_any_one_l (canon : bytes -> option bytes) (hash : bytes -> bytes -> bytes) (cr : crypto) (messages_of : bytes -> R (list message)) (fuel : nat) (st : store) (e : sadder)
    (g : list group) (deep : option bool) (seen : list bytes) (r : bool * list bytes) (pre ilk : bytes) (n k : N) (ks : list matter) (t : tholder) (x : indexer) (m : nat) :
  verify_key_event canon hash cr messages_of fuel st e g deep seen = Ok r ->
  field_of (d_ked e) (s! "i") (VStr pre) -> ordinal (d_ked e) n -> of_type (d_ked e) ilk -> ilk = s! "icp" \/ ~ In ilk establishing ->
  governing canon st pre n e ks t -> t_thold t = VInt (Z.of_N k) -> verifies cr ks (d_raw e) x -> k <= N.of_nat m ->
  verify_key_event canon hash cr messages_of fuel st e [GSigs (repeat x m)] deep seen = Ok r.
Proof.
  intros H P S TY NR G TK VX L. destruct r as (ex, seen'). apply accepted_inv in H as (f & pre' & p & sn & ilk0 & said & (ks', t') & found & -> & A). pose proof A as A0.
  destruct A as [Hpre Hp Hsn Hilk Hsaid Hplace Hkeys Hfound He HL Hprior Hst]. cbn [fst snd] in *.
  apply pre_field in P. apply sn_field in S. assert (pre' = pre) as -> by congruence. assert (sn = n) as -> by congruence. apply type_text in Hilk. pose proof (type_once _ _ _ Hilk TY) as ->.
  rewrite (plain _ _ _ _ _ _ _ _ _ _ _ _ _ _ _ _ _ _ _ A0 NR). cbn [fst snd].
  destruct (governing_keys _ _ _ _ _ _ _ _ Hilk Hkeys) as (G' & _). destruct (governing_once _ _ _ _ _ _ _ _ _ G G') as (<- & <-). clear G'.
  destruct G as (ilk' & e' & _ & _ & _ & TH). apply threshold_new in TH as (v & TH). cbn [check_groups]. rewrite (same_sigs _ _ _ _ m VX), !bind_Ok, app_nil_r.
  apply accepted in TH as [(k' & T)|(cs & T)].
  - assert (k' = k) as ->. { destruct T as [_ (nn & _ & ->)]. cbn [t_thold] in TK. injection TK as TK. lia. }
    rewrite (satisfy_numeric_eq k t _ T) in He. rewrite (satisfy_numeric_eq k t _ T). injection He as He. apply andb_true_iff in He as (E1 & _). rewrite E1. cbn [andb].
    replace (k <=? len (map fst (repeat (i_index x, i_ondex x) m))) with true; [reflexivity|]. symmetry. apply N.leb_le. unfold len. rewrite map_length, repeat_length. exact L.
  - exfalso. rewrite (wt_thold _ _ T) in TK. discriminate TK.
Qed.
