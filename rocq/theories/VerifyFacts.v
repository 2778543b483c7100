(** Facts about the verification of key events, used by the theorems. *)
From Coq Require Import String.
From Coq Require Import NArith ZArith Bool List Lia.
From Verif Require Import Base Tables Matter Indexer Prims Json Tholder Common Saider Diger Sadder Signer Prefixer Pather Short Verify.
From Verif Require Import SpecLog BaseFacts.
Import ListNotations.
Open Scope N_scope.

Section Facts.
Variable canon : bytes -> option bytes.
Variable hash : bytes -> bytes -> bytes.
Variable cr : crypto.
Variable mo : bytes -> R (list message).

(** What is checked about the event before. *)
Definition deeper (f : nat) (st : store) (event : bytes) (pe : sadder) (psaid : bytes) (deep : option bool) (seen seen' : list bytes) : Prop :=
  or_else deep false && negb (has_code seen psaid) = true /\
    (exists rest value r, from_str event (len (d_raw pe)) = Ok rest /\ first_group mo rest = Ok (GQuadlets value) /\
      verify_key_event canon hash cr mo f st pe value deep (psaid :: seen) = Ok r /\ seen' = snd r) \/
  or_else deep false && negb (has_code seen psaid) = false /\ seen' = seen.
Definition prior_part (f : nat) (st : store) (e : sadder) (pre : bytes) (sn : N) (verfers : list matter) (found : list (N * N)) (deep : option bool) (seen seen' : list bytes) : Prop :=
  exists n event pe psaid, before sn = Ok n /\ get_key_event st pre n = Ok event /\ serder_with_raw canon event = Ok pe /\ sad_said pe = Ok psaid /\
    text_at (d_ked e) (s! "p") = Ok psaid /\ check_rotation canon hash st e pe pre sn verfers found = Ok tt /\ deeper f st event pe psaid deep seen seen'.
Record accepts (f : nat) (st : store) (e : sadder) (g : list group) (deep : option bool) (seen : list bytes) (ex : bool) (seen' : list bytes)
    (pre : bytes) (p : matter) (sn : N) (ilk said : bytes) (keys : list matter * tholder) (found : list (N * N)) : Prop := {
  a_pre : serder_pre e = Ok pre;
  a_prefixer : prefixer_with_qb64 hash pre = Ok p;
  a_sn : serder_sn e = Ok sn;
  a_ilk : text_at (d_ked e) (s! "t") = Ok ilk;
  a_said : sad_said e = Ok said;
  a_place : place_event hash st e p pre said sn (beq ilk (s! "icp")) = Ok ex;
  a_keys : keys_for canon st e pre sn = Ok keys;
  a_found : check_groups cr (fst keys) (d_raw e) g = Ok found;
  a_enough : satisfy (snd keys) (map fst found) = Ok true;
  a_labels : exists labels, labels_of ilk = Ok labels /\ verify_ked_labels (d_ked e) labels = Ok true;
  a_prior : beq ilk (s! "icp") = true /\ seen' = seen \/ beq ilk (s! "icp") = false /\ prior_part f st e pre sn (fst keys) found deep seen seen';
  a_stored : ex = true -> check_stored canon st pre said sn = Ok tt }.

Lemma verify_unfold f st e g deep seen : verify_key_event canon hash cr mo (S f) st e g deep seen =
    let* pre := serder_pre e in
    let* prefixer := prefixer_with_qb64 hash pre in
    let* sn := serder_sn e in
    let* ilk := text_at (d_ked e) (s! "t") in
    let* said := sad_said e in
    let inceptive := beq ilk (s! "icp") in
    let* existing := place_event hash st e prefixer pre said sn inceptive in
    let* keys := keys_for canon st e pre sn in
    let* found := check_groups cr (fst keys) (d_raw e) g in
    let* enough := satisfy (snd keys) (map fst found) in
    if negb enough then Err EVerification
    else
      let* labels := labels_of ilk in
      let* complete := verify_ked_labels (d_ked e) labels in
      if negb complete then Err EValidation
      else
        let* seen :=
          if inceptive then Ok seen
          else
            let* n := before sn in
            let* event := get_key_event st pre n in
            let* pserder := serder_with_raw canon event in
            let* psaid := sad_said pserder in
            let* p := text_at (d_ked e) (s! "p") in
            if negb (beq psaid p) then Err EValidation
            else
              let* _u := check_rotation canon hash st e pserder pre sn (fst keys) found in
              if or_else deep false && negb (has_code seen psaid) then
                let* rest := from_str event (len (d_raw pserder)) in
                let* g := first_group mo rest in
                match g with
                | GQuadlets value => let* r := verify_key_event canon hash cr mo f st pserder value deep (psaid :: seen) in Ok (snd r)
                | _ => Err EDecoding
                end
              else Ok seen in
        let* _u := if existing then check_stored canon st pre said sn else Ok tt in
        Ok (existing, seen).
Proof. reflexivity. Qed.

Ltac binds H := repeat (let x := fresh "x" in let X := fresh "X" in apply bind_ok in H as (x & X & H)).

Lemma accepted_inv fuel st e g deep seen ex seen' : verify_key_event canon hash cr mo fuel st e g deep seen = Ok (ex, seen') ->
  exists f pre p sn ilk said keys found, fuel = S f /\ accepts f st e g deep seen ex seen' pre p sn ilk said keys found.
Proof.
  destruct fuel as [|f]; [discriminate|]. rewrite verify_unfold. intros H. apply bind_ok in H as (pre & Hpre & H). apply bind_ok in H as (p & Hp & H).
  apply bind_ok in H as (sn & Hsn & H). apply bind_ok in H as (ilk & Hilk & H). apply bind_ok in H as (said & Hsaid & H). cbv zeta in H.
  apply bind_ok in H as (ex0 & Hex & H). apply bind_ok in H as (keys & Hkeys & H). apply bind_ok in H as (found & Hfound & H). apply bind_ok in H as (enough & He & H).
  destruct enough; [|discriminate]. cbn [negb] in H. apply bind_ok in H as (labels & Hl & H). apply bind_ok in H as (c & Hc & H). destruct c; [|discriminate]. cbn [negb] in H.
  apply bind_ok in H as (seen1 & Hs & H). apply bind_ok in H as (u & Hu & H). injection H as -> ->.
  exists f, pre, p, sn, ilk, said, keys, found. split; [reflexivity|]. split; auto.
  - eauto.
  - destruct (beq ilk (s! "icp")) eqn:B; [left; injection Hs as ->; auto|]. right. split; auto.
    apply bind_ok in Hs as (n & Hn & H). apply bind_ok in H as (event & Hev & H). apply bind_ok in H as (pe & Hpe & H). apply bind_ok in H as (psaid & Hps & H).
    apply bind_ok in H as (q & Hq & H). destruct (beq psaid q) eqn:Bq; [|discriminate]. apply beq_eq in Bq. subst q. cbn [negb] in H. apply bind_ok in H as (u' & Hr & H). destruct u'.
    exists n, event, pe, psaid. repeat (split; [assumption|]).
    destruct (or_else deep false && negb (has_code seen psaid)) eqn:D.
    + left. split; auto. apply bind_ok in H as (rest & Hrest & H). apply bind_ok in H as (gg & Hg & H). destruct gg; try discriminate. apply bind_ok in H as (r & Hv & H). injection H as <-. eauto 8.
    + right. split; auto. now injection H as ->.
  - intros ->. destruct u. exact Hu.
Qed.
Lemma accepted_intro f st e g deep seen ex seen' pre p sn ilk said keys found :
  accepts f st e g deep seen ex seen' pre p sn ilk said keys found -> verify_key_event canon hash cr mo (S f) st e g deep seen = Ok (ex, seen').
Proof.
  intros [H1 H2 H3 H4 H5 H6 H7 H8 H9 (labels & L1 & L2) H11 H12]. rewrite verify_unfold. rewrite H1, bind_Ok, H2, bind_Ok, H3, bind_Ok, H4, bind_Ok, H5, bind_Ok. cbv zeta.
  rewrite H6, bind_Ok, H7, bind_Ok, H8, bind_Ok, H9, bind_Ok. cbn [negb]. rewrite L1, bind_Ok, L2, bind_Ok. cbn [negb].
  assert ((if ex then check_stored canon st pre said sn else Ok tt) = Ok tt) as HS by (destruct ex; auto).
  destruct H11 as [(-> & ->)|(-> & n & event & pe & psaid & P1 & P2 & P3 & P4 & P5 & P6 & D)].
  - rewrite bind_Ok, HS. reflexivity.
  - rewrite P1, bind_Ok, P2, bind_Ok, P3, bind_Ok, P4, bind_Ok, P5, bind_Ok, beq_refl. cbn [negb]. rewrite P6, bind_Ok.
    destruct D as [(-> & rest & value & r & D1 & D2 & D3 & ->)|(-> & ->)].
    + rewrite D1, bind_Ok, D2, bind_Ok, D3, !bind_Ok, HS. reflexivity.
    + rewrite bind_Ok, HS. reflexivity.
Qed.

End Facts.

(** ** The parts *)
Lemma before_ok sn n : before sn = Ok n <-> 1 <= sn mod 4294967296 /\ n = sn mod 4294967296 - 1.
Proof. unfold before, u32_sub, as_u32. destruct (N.leb_spec 1 (sn mod 4294967296)); split; [intros [= <-]; auto|intros (_ & ->); auto|discriminate|lia]. Qed.
Lemma before_small sn n : sn <= 4294967296 -> before sn = Ok n -> n = sn - 1 /\ 1 <= sn.
Proof.
  intros L H. apply before_ok in H as (H & ->). destruct (N.eq_dec sn 4294967296) as [->|]; [cbn in H; lia|]. rewrite N.mod_small in * by lia. auto.
Qed.

Lemma place_ok hash st e p pre said sn inc ex : place_event hash st e p pre said sn inc = Ok ex -> serder_pre e = Ok pre ->
  exists count, count_key_events st pre = Ok count /\
  (inc = true /\ prefixer_verify hash p (d_ked e) (Some true) = Ok true /\ sn = 0 /\ said = pre /\ ex = negb (count =? 0) \/
   inc = false /\ said_verify hash (d_saider e) (d_ked e) (Some false) (Some true) None None [] = Ok true /\ 1 <= sn /\ sn <= count /\ ex = negb (sn =? count)).
Proof.
  unfold place_event. intros H P. apply bind_ok in H as (count & C & H). exists count. split; auto. destruct inc.
  - left. apply bind_ok in H as (ok & V & H). destruct ok; [|discriminate]. cbn [negb] in H. destruct (N.eqb_spec sn 0); [|discriminate]. cbn [negb] in H.
    apply bind_ok in H as (own & O & H). rewrite P in O. injection O as <-. destruct (beq said pre) eqn:B; [|discriminate]. apply beq_eq in B. cbn [negb] in H. injection H as <-. auto 8.
  - right. apply bind_ok in H as (ok & V & H). destruct ok; [|discriminate]. cbn [negb] in H. destruct (N.ltb_spec sn 1); [discriminate|]. destruct (N.ltb_spec count sn); [discriminate|].
    injection H as <-. auto 8.
Qed.
Lemma stored_ok canon st pre said sn : check_stored canon st pre said sn = Ok tt -> exists event e, get_key_event st pre (as_u32 sn) = Ok event /\ serder_with_raw canon event = Ok e /\ sad_said e = Ok said.
Proof.
  unfold check_stored. intros H. apply bind_ok in H as (event & E & H). apply bind_ok in H as (e & S & H). apply bind_ok in H as (q & Q & H).
  destruct (beq said q) eqn:B; [|discriminate]. apply beq_eq in B. subst q. eauto.
Qed.
Lemma labels_ok ilk labels : labels_of ilk = Ok labels -> (ilk = s! "icp" /\ labels = icp_labels) \/ (ilk = s! "rot" /\ labels = rot_labels) \/ (ilk = s! "ixn" /\ labels = ixn_labels).
Proof.
  unfold labels_of. destruct (beq ilk (s! "icp")) eqn:A; [apply beq_eq in A; intros [= <-]; auto|]. destruct (beq ilk (s! "rot")) eqn:B; [apply beq_eq in B; intros [= <-]; auto|].
  destruct (beq ilk (s! "ixn")) eqn:C; [apply beq_eq in C; intros [= <-]; auto|]. discriminate.
Qed.

(** Signatures that count. *)
Lemma sigs_ok cr verfers raw sigs found : check_sigs cr verfers raw sigs = Ok found ->
  Forall (fun x => i_index x < len verfers) sigs /\ exists good, those (verifies cr verfers raw) sigs good /\ found = map (fun x => (i_index x, i_ondex x)) good.
Proof.
  revert found. induction sigs as [|x r IH]; intros found H.
  { cbn in H. injection H as <-. split; [constructor|]. exists []. split; [constructor|reflexivity]. }
  cbn [check_sigs] in H. destruct (N.ltb_spec (len verfers) (i_index x)); [discriminate|]. destruct (nth_error verfers (N.to_nat (i_index x))) as [v|] eqn:V; [|discriminate].
  apply bind_ok in H as (ok & K & H). apply bind_ok in H as (l & L & H). apply IH in L as (B & good & T & ->). split.
  { constructor; auto. assert (N.to_nat (i_index x) < length verfers)%nat by (apply nth_error_Some; congruence). unfold len. lia. }
  exists (if ok then x :: good else good). destruct ok; injection H as <-.
  - split; [|reflexivity]. constructor; auto. exists v. auto.
  - split; [|reflexivity]. constructor; auto. intros (v' & V' & K'). congruence.
Qed.
Fixpoint all_sigs (groups : list group) : list indexer := match groups with GSigs l :: r => l ++ all_sigs r | _ :: r => all_sigs r | [] => [] end.
Lemma sigs_app cr verfers raw a b : check_sigs cr verfers raw (a ++ b) = let* x := check_sigs cr verfers raw a in let* y := check_sigs cr verfers raw b in Ok (x ++ y).
Proof.
  induction a as [|x r IH]; cbn [app check_sigs]. { rewrite bind_Ok. destruct (check_sigs cr verfers raw b); reflexivity. }
  destruct (_ <? _); [reflexivity|]. destruct (nth_error _ _); [|reflexivity]. destruct (verfer_verify _ _ _ _) as [ok| |]; [|reflexivity|reflexivity]. rewrite !bind_Ok, IH.
  destruct (check_sigs cr verfers raw r) as [l| |]; [|reflexivity|reflexivity]. rewrite !bind_Ok. destruct (check_sigs cr verfers raw b) as [l'| |]; [|reflexivity|reflexivity]. rewrite !bind_Ok.
  destruct ok; reflexivity.
Qed.
Lemma groups_ok cr verfers raw groups found : check_groups cr verfers raw groups = Ok found -> (forall g, In g groups -> exists l, g = GSigs l) /\ check_sigs cr verfers raw (all_sigs groups) = Ok found.
Proof.
  revert found. induction groups as [|g r IH]; intros found H; [split; [intros g []|exact H]|]. destruct g; try discriminate. cbn [check_groups] in H.
  apply bind_ok in H as (a & A & H). apply bind_ok in H as (b & B & H). injection H as <-. apply IH in B as (I & B). split; [intros g [<-|G]; eauto|].
  cbn [all_sigs]. rewrite sigs_app, A, bind_Ok, B. reflexivity.
Qed.

Lemma attached_all groups : (forall g, In g groups -> exists l, g = GSigs l) -> attached groups (all_sigs groups).
Proof.
  induction groups as [|g r IH]; intros H; [exists []; auto|]. destruct (H g) as (l & ->); [now left|]. destruct IH as (ls & E & F); [intros g' G; apply H; now right|].
  exists (l :: ls). cbn [all_sigs map concat]. rewrite <- E, <- F. auto.
Qed.
Lemma attached_sigs groups sigs : attached groups sigs -> sigs = all_sigs groups.
Proof. intros (ls & -> & ->). induction ls as [|l r IH]; [reflexivity|]. cbn. now rewrite IH. Qed.
