(** Proofs of the theorems on registries and credentials. *)
From Coq Require Import String.
From Coq Require Import NArith ZArith QArith Bool List Lia.
From Verif Require Import Base Tables Matter Indexer Prims Json Tholder Common Saider Diger Sadder Signer Prefixer Pather Short Verify Ingest Events.
From Verif Require Import Spec SpecPrims SpecJson SpecCommon SpecTholder SpecSaider SpecSadder SpecPrefixer SpecSigner SpecLog SpecIngest SpecCred World Forgery.
From Verif Require Import BaseFacts MatterFacts MatterText PrimsFacts JsonFacts JsonThms CommonFacts SaiderFacts SaiderThms SignerThms SadderFacts SadderThms PrefixerThms DigerThms TholderThms StaleThms VerifyFacts VerifyThms LogThms IngestThms.
Import ListNotations.
Open Scope N_scope.

Section Inversion.
Variable canon : bytes -> option bytes.
Variable hash : bytes -> bytes -> bytes.
Variable cr : crypto.
Variable mo : bytes -> R (list message).

Lemma anchor_inv fuel st owner sq sd e deep seen seen' : verify_anchor canon hash cr mo fuel st owner sq sd e deep seen = Ok (true, seen') ->
  exists n t anchor pre h said, seqner_sn sq = Ok n /\ infil sd = Ok t /\ logged canon st owner (asked_for n) anchor t /\ serder_pre e = Ok pre /\ text_at (d_ked e) (s! "s") = Ok h /\ sad_said e = Ok said /\ sealed (d_ked anchor) pre h said.
Proof.
  unfold verify_anchor. intros H. apply bind_ok in H as (n & Hn & H). apply bind_ok in H as (event & HE & H). apply bind_ok in H as (a & HA & H). apply bind_ok in H as (asaid & HS & H). apply bind_ok in H as (t & HT & H).
  destruct (beq asaid t) eqn:B; cbn [negb] in H; [|discriminate]. apply beq_eq in B. subst t. apply bind_ok in H as (v & HV & H). apply bind_ok in H as (seals & HL & H). destruct seals as [|seal [|]]; try discriminate.
  apply bind_ok in H as (spre & H1 & H). apply bind_ok in H as (ssn & H2 & H). apply bind_ok in H as (sdig & H3 & H). apply bind_ok in H as (seen1 & _ & H). apply bind_ok in H as (h & Hh & H).
  destruct (beq ssn h) eqn:B; cbn [negb] in H; [|discriminate]. apply beq_eq in B. subst ssn. apply bind_ok in H as (pre & HP & H). destruct (beq spre pre) eqn:B; cbn [negb] in H; [|discriminate]. apply beq_eq in B. subst spre.
  apply bind_ok in H as (said & HD & H). injection H as B _. apply beq_eq in B. subst sdig. exists n, asaid, a, pre, h, said. split; auto. split; auto. split; [exists event; rewrite <- asked_mod; auto|]. repeat (split; [assumption|]).
  exists seal. rewrite <- !text_field. split; [|auto]. unfold to_vec in HL. destruct v; try discriminate. injection HL as ->. now apply index_field.
Qed.

(** What an accepted registry event satisfies. *)
Lemma tel_inv fuel st e c deep seen there seen' : verify_transaction_event canon hash cr mo fuel st e c deep seen = Ok (there, seen') ->
  exists f pre p sn ilk said ri labels count apre sq sd seen1, fuel = S f /\ c = [(sq, sd)] /\ serder_pre e = Ok pre /\ prefixer_with_qb64 hash pre = Ok p /\ serder_sn e = Ok sn /\ text_at (d_ked e) (s! "t") = Ok ilk /\
    sad_said e = Ok said /\ registry_of ilk e = Ok ri /\ transaction_labels ilk = Ok labels /\ verify_ked_labels (d_ked e) labels = Ok true /\ count_transaction_events st pre = Ok count /\
    anchoring canon hash st e p ilk ri = Ok apre /\ verify_anchor canon hash cr mo f st apre sq sd e deep seen = Ok (true, seen1) /\
    (there = true -> check_stored_transaction canon st pre said sn = Ok tt) /\
    (beq ilk (s! "vcp") || beq ilk (s! "iss") = true /\ sn = 0 /\ there = negb (count =? 0) \/
     beq ilk (s! "vcp") || beq ilk (s! "iss") = false /\ 1 <= sn /\ sn <= count /\ there = negb (sn =? count) /\
     exists n event pe psaid, before sn = Ok n /\ get_transaction_event st pre n = Ok event /\ serder_with_raw canon event = Ok pe /\ sad_said pe = Ok psaid /\ text_at (d_ked e) (s! "p") = Ok psaid /\
       (or_else deep true = true -> In psaid seen1 \/ exists rest value r, from_str event (len (d_raw pe)) = Ok rest /\ first_group mo rest = Ok (GSources value) /\ verify_transaction_event canon hash cr mo f st pe value deep (psaid :: seen1) = Ok r)).
Proof.
  destruct fuel as [|f]; intros H; [discriminate|]. cbn [verify_transaction_event] in H. apply bind_ok in H as (pre & HP & H). apply bind_ok in H as (p & HX & H). apply bind_ok in H as (sn & SN & H).
  apply bind_ok in H as (ilk & HI & H). apply bind_ok in H as (said & S & H). apply bind_ok in H as (ri & HR & H). destruct c as [|(sq & sd) [|]]; try discriminate. apply bind_ok in H as (labels & HL & H). apply bind_ok in H as (ok & HV & H).
  destruct ok; cbn [negb] in H; [|discriminate]. cbv zeta in H. apply bind_ok in H as (count & C & H). apply bind_ok in H as (apre & HA & H). apply bind_ok in H as ((an & seen1) & AN & H). cbn [fst snd] in H. destruct an; cbn [negb] in H; [|discriminate].
  apply bind_ok in H as ((there' & seen2) & ES & H). cbn [fst snd] in H. apply bind_ok in H as (u & U & H). injection H as -> ->. exists f, pre, p, sn, ilk, said, ri, labels, count, apre, sq, sd, seen1. repeat (split; [assumption||reflexivity|]).
  split. { intros ->. destruct u. exact U. }
  destruct (beq ilk (s! "vcp") || beq ilk (s! "iss")).
  - left. split; auto. destruct (N.eqb_spec sn 0) as [->|]; [|discriminate]. injection ES as <- _. auto.
  - right. split; auto. destruct (N.ltb_spec sn 1); [discriminate|]. destruct (N.ltb_spec count sn); [discriminate|]. apply bind_ok in ES as (n & Hn & ES).
    apply bind_ok in ES as (event & A & ES). apply bind_ok in ES as (pe & B & ES). apply bind_ok in ES as (psaid & D & ES). apply bind_ok in ES as (seen3 & S1 & ES). apply bind_ok in ES as (q & Q & ES).
    destruct (beq psaid q) eqn:BQ; cbn [negb] in ES; [|discriminate]. apply beq_eq in BQ. subst q. injection ES as <- _. repeat (split; [assumption||reflexivity|]). exists n, event, pe, psaid. repeat (split; [assumption|]).
    intros DP. rewrite DP in S1. cbn [andb] in S1. destruct (has_code seen1 psaid) eqn:HC; cbn [negb] in S1; [left; now apply has_code_In|]. right. apply bind_ok in S1 as (rest & R1 & S1). apply bind_ok in S1 as (g & G & S1).
    destruct g as [|value| | |]; try discriminate. apply bind_ok in S1 as (r & V & _). exists rest, value, r. auto.
Qed.
Lemma registry_types ilk labels : transaction_labels ilk = Ok labels <-> In (ilk, labels) registry_required.
Proof.
  unfold transaction_labels, registry_required. split.
  - intros H. destruct (beq ilk (s! "vcp")) eqn:B1; [apply beq_eq in B1; subst; injection H as <-; now left|]. destruct (beq ilk (s! "iss")) eqn:B2; [apply beq_eq in B2; subst; injection H as <-; right; now left|].
    destruct (beq ilk (s! "rev")) eqn:B3; [apply beq_eq in B3; subst; injection H as <-; right; right; now left|discriminate].
  - intros [H|[H|[H|[]]]]; injection H as <- <-; reflexivity.
Qed.
Lemma anchoring_owned st e p ilk ri apre : text_at (d_ked e) (s! "t") = Ok ilk -> registry_of ilk e = Ok ri -> anchoring canon hash st e p ilk ri = Ok apre -> owned canon st e apre.
Proof.
  intros T R H. apply type_text in T. unfold anchoring in H. unfold registry_of in R. destruct (beq ilk (s! "vcp")) eqn:B1.
  - apply beq_eq in B1. subst ilk. apply bind_ok in H as (ok & _ & H). destruct (negb ok); [discriminate|]. left. split; auto. now apply text_field.
  - destruct (beq ilk (s! "iss") || beq ilk (s! "rev")) eqn:B2; [|discriminate]. apply bind_ok in H as (ok & _ & H). destruct (negb ok); [discriminate|]. apply bind_ok in H as (text & A & H). apply bind_ok in H as (e0 & B & H).
    right. split. { apply orb_prop in B2 as [B2|B2]; apply beq_eq in B2; subst ilk; auto. }
    exists ri, e0. rewrite <- !text_field. split; auto. split; auto. exists text. auto.
Qed.
Lemma stored_recorded st pre said sn : check_stored_transaction canon st pre said sn = Ok tt -> exists e, recorded canon st pre (asked_for sn) e /\ sad_said e = Ok said.
Proof.
  unfold check_stored_transaction. intros H. apply bind_ok in H as (text & A & H). apply bind_ok in H as (e & B & H). apply bind_ok in H as (s & C & H). destruct (beq said s) eqn:D; cbn [negb] in H; [|discriminate]. apply beq_eq in D. subst s.
  exists e. split; auto. exists text. rewrite <- asked_mod. auto.
Qed.
End Inversion.

(*# C129_anchored
   An accepted registry event comes with one couple of a number and an identifier. The log of the registry's owner holds under that number a key event with that identifier, and this event holds one seal and no
   more: with prefix, number and identifier of the registry event. The owner is named in field ii of the registry's inception.
##
Example C129_case : let l := fst (take_in empty (s! "issued")) in l_tel l rpre0 <> [] /\ l_tel l csaid0 <> [] /\
  verify_transaction_event no_floats mix toy runic 9 (view no_floats l) iss0 [couple 2 anchor2] None [] = Ok (true, []) /\
  verify_transaction_event no_floats mix toy runic 9 (view no_floats l) iss0 [couple 1 anchor1] None [] = Err EVerification.
Proof. split; [vm_compute; discriminate|]. split; [vm_compute; discriminate|]. split; vm_compute; reflexivity. Qed.
#*)
Lemma C129_l (canon : bytes -> option bytes) (hash : bytes -> bytes -> bytes) (cr : crypto) (messages_of : bytes -> R (list message)) (fuel : nat) (st : store) (e : sadder)
    (couples : list (matter * matter)) (deep : option bool) (seen seen' : list bytes) (there : bool) :
  verify_transaction_event canon hash cr messages_of fuel st e couples deep seen = Ok (there, seen') ->
  exists seqner saider owner pre number said n t anchor, couples = [(seqner, saider)] /\ seqner_sn seqner = Ok n /\ infil saider = Ok t /\
    field_of (d_ked e) (s! "i") (VStr pre) /\ field_of (d_ked e) (s! "s") (VStr number) /\ sad_said e = Ok said /\
    owned canon st e owner /\ logged canon st owner (asked_for n) anchor t /\ sealed (d_ked anchor) pre number said.
Proof.
  intros H. apply tel_inv in H as (f & pre & p & sn & ilk & said & ri & labels & count & apre & sq & sd & seen1 & -> & -> & HP & _ & _ & T & HS & R & _ & _ & _ & A & V & _).
  apply anchor_inv in V as (n & t & anchor & pre' & h & said' & A1 & A2 & A3 & A4 & A5 & A6 & A7). assert (pre' = pre) as -> by congruence. assert (said' = said) as -> by congruence.
  exists sq, sd, apre, pre, h, said, n, t, anchor. rewrite <- pre_field, <- text_field. repeat (split; [assumption||reflexivity|]). split; auto. now apply (anchoring_owned canon hash st e p ilk ri).
Qed.

Lemma taken l stream : reached no_floats mix toy runic rune_of (fun _ _ => Ok true) (fun _ => Ok 0%Z) (fun _ _ => true) l ->
  reached no_floats mix toy runic rune_of (fun _ _ => Ok true) (fun _ => Ok 0%Z) (fun _ _ => true) (fst (take_in l stream)).
Proof. intros R. eapply (reached_more _ _ _ _ _ _ _ _ l 9 stream (Some false) None _ (snd (take_in l stream))); [exact R|discriminate|]. unfold take_in at 1. apply surjective_pairing. Qed.

(*# C129_only_owner_revokes_refuted
   False that only the owner of the registry in which a credential was issued can revoke it: a revocation is judged by the registry it names itself. Here another party's revocation, in that party's own registry, is
   taken into the log of a credential issued by the first party, whose key events hold no seal for it.
#*)
Lemma C129_no_l : correct toy /\ sized_hash mix /\ exists l iss rev said owner1 owner2, reached no_floats mix toy runic rune_of (fun _ _ => Ok true) (fun _ => Ok 0%Z) (fun _ _ => true) l /\
  length (l_tel l said) = 2%nat /\ recorded no_floats (view no_floats l) said 0 iss /\ of_type (d_ked iss) (s! "iss") /\ owned no_floats (view no_floats l) iss owner1 /\
  current no_floats (view no_floats l) said rev /\ of_type (d_ked rev) (s! "rev") /\ owned no_floats (view no_floats l) rev owner2 /\ owner1 <> owner2 /\
  forall text e pre number d, In text (l_kel l owner1) -> serder_with_raw no_floats text = Ok e -> sad_said rev = Ok d -> ~ sealed (d_ked e) pre number d.
Proof.
  split; [exact toy_correct|]. split; [exact mix_sized|]. set (l1 := fst (take_in empty (s! "issued"))). set (l2 := fst (take_in l1 (s! "takedown"))). exists l2, iss0, rev_m, csaid0, pre0, pre_m.
  split. { apply taken, taken, reached_empty. }
  assert (length (l_tel l2 csaid0) = 2%nat /\ get_transaction_event (view no_floats l2) csaid0 0 = Ok (d_raw iss0 ++ s! "f") /\ get_latest_transaction_event (view no_floats l2) csaid0 = Ok (d_raw rev_m ++ s! "s") /\
    get_transaction_event (view no_floats l2) rpre0 0 = Ok (d_raw reg0 ++ s! "e") /\ get_transaction_event (view no_floats l2) rpre_m 0 = Ok (d_raw reg_m ++ s! "q") /\
    l_kel l2 pre0 = [d_raw event0 ++ s! "a"; d_raw anchor1 ++ s! "a"; d_raw anchor2 ++ s! "a"]) as (E1 & E2 & E3 & E4 & E5 & E6).
  { repeat (match goal with |- _ /\ _ => split; [vm_compute; reflexivity|] end). vm_compute. reflexivity. }
  assert (serder_with_raw no_floats (d_raw reg0 ++ s! "e") = Ok reg0 /\ serder_with_raw no_floats (d_raw reg_m ++ s! "q") = Ok reg_m /\ serder_with_raw no_floats (d_raw iss0 ++ s! "f") = Ok iss0 /\ serder_with_raw no_floats (d_raw rev_m ++ s! "s") = Ok rev_m /\
    serder_with_raw no_floats (d_raw event0 ++ s! "a") = Ok event0 /\ serder_with_raw no_floats (d_raw anchor1 ++ s! "a") = Ok anchor1 /\ serder_with_raw no_floats (d_raw anchor2 ++ s! "a") = Ok anchor2) as (R1 & R2 & R3 & R4 & R5 & R6 & R7).
  { repeat (match goal with |- _ /\ _ => split; [vm_compute; reflexivity|] end). vm_compute. reflexivity. }
  split; [exact E1|]. split; [eexists; split; [exact E2|exact R3]|]. split; [apply type_text; vm_compute; reflexivity|].
  split. { right. split; [left; apply type_text; vm_compute; reflexivity|]. exists rpre0, reg0. split; [apply text_field; vm_compute; reflexivity|]. split; [eexists; split; [exact E4|exact R1]|]. apply text_field. vm_compute. reflexivity. }
  split; [eexists; split; [exact E3|exact R4]|]. split; [apply type_text; vm_compute; reflexivity|].
  split. { right. split; [right; apply type_text; vm_compute; reflexivity|]. exists rpre_m, reg_m. split; [apply text_field; vm_compute; reflexivity|]. split; [eexists; split; [exact E5|exact R2]|]. apply text_field. vm_compute. reflexivity. }
  split; [discriminate|]. intros text e pre number d I R D (seal & S1 & _ & _ & S2). rewrite E6 in I.
  assert (index_str (d_ked e) (s! "a") = Ok (VArr [seal])) as X by now apply index_field. apply text_field in S2.
  destruct I as [<-|[<-|[<-|[]]]].
  - rewrite R5 in R. injection R as <-. assert (index_str (d_ked event0) (s! "a") = Ok (VArr [])) as Y by (vm_compute; reflexivity). congruence.
  - rewrite R6 in R. injection R as <-. assert (index_str (d_ked anchor1) (s! "a") = Ok (VArr [seal_of reg0])) as Y by (vm_compute; reflexivity). rewrite Y in X. injection X as <-.
    assert (text_at (seal_of reg0) (s! "d") = Ok rpre0 /\ sad_said rev_m <> Ok rpre0) as (Y1 & Y2) by (split; [vm_compute; reflexivity|vm_compute; discriminate]). congruence.
  - rewrite R7 in R. injection R as <-. assert (index_str (d_ked anchor2) (s! "a") = Ok (VArr [seal_of iss0])) as Y by (vm_compute; reflexivity). rewrite Y in X. injection X as <-.
    assert (text_at (seal_of iss0) (s! "d") = sad_said iss0 /\ sad_said rev_m <> sad_said iss0) as (Y1 & Y2) by (split; [vm_compute; reflexivity|vm_compute; discriminate]). congruence.
Qed.

(*# C130_registry_continuity
   An accepted registry event has the fields of its type. Inceptions and issuances have number 0; a revocation follows the event stored under the number before it, whose identifier is in its field p.
   It was there already exactly if its number is below the length of the log, and then the store holds an event with its identifier under its number.
##
Example C130_case : let l := fst (take_in (fst (take_in empty (s! "issued"))) (s! "revoked")) in
  verify_transaction_event no_floats mix toy runic 9 (view no_floats l) rev0 [couple 3 anchor3] None [] <> Panic /\
  exists seen, verify_transaction_event no_floats mix toy runic 9 (view no_floats l) rev0 [couple 3 anchor3] None [] = Ok (true, seen).
Proof. split; [vm_compute; discriminate|]. eexists. vm_compute. reflexivity. Qed.
#*)
Lemma C130_l (canon : bytes -> option bytes) (hash : bytes -> bytes -> bytes) (cr : crypto) (messages_of : bytes -> R (list message)) (fuel : nat) (st : store) (e : sadder)
    (couples : list (matter * matter)) (deep : option bool) (seen seen' : list bytes) (there : bool) :
  verify_transaction_event canon hash cr messages_of fuel st e couples deep seen = Ok (there, seen') ->
  exists pre n said ilk labels count, field_of (d_ked e) (s! "i") (VStr pre) /\ ordinal (d_ked e) n /\ sad_said e = Ok said /\ of_type (d_ked e) ilk /\
    In (ilk, labels) registry_required /\ Forall (has_field (d_ked e)) labels /\ count_transaction_events st pre = Ok count /\ n <= count /\
    (there = true <-> n < count) /\ (there = true -> exists e', recorded canon st pre (asked_for n) e' /\ sad_said e' = Ok said) /\
    (ilk <> s! "rev" -> n = 0) /\
    (ilk = s! "rev" -> 1 <= n /\ 1 <= asked_for n /\ exists before p, recorded canon st pre (asked_for n - 1) before /\ sad_said before = Ok p /\ field_of (d_ked e) (s! "p") (VStr p)).
Proof.
  intros H. apply tel_inv in H as (f & pre & p & sn & ilk & said & ri & labels & count & apre & sq & sd & seen1 & -> & -> & HP & _ & SN & T & HS & R & HL & HV & HC & _ & _ & ST & D).
  exists pre, sn, said, ilk, labels, count. rewrite <- pre_field, <- sn_field. unfold of_type. rewrite <- text_field. apply registry_types in HL. apply labels_required in HV as (HV & _). repeat (split; [assumption|]).
  assert (there = true -> exists e', recorded canon st pre (asked_for sn) e' /\ sad_said e' = Ok said) as G by (intros X; apply stored_recorded; auto).
  destruct D as [(B & -> & ->)|(B & L1 & L2 & -> & n & event & pe & psaid & P1 & P2 & P3 & P4 & P5 & _)].
  - split; [lia|]. split. { destruct (N.eqb_spec count 0); cbn [negb]; split; try discriminate; try lia; auto. }
    split; [exact G|]. split; [auto|]. intros ->. discriminate.
  - split; [lia|]. split. { destruct (N.eqb_spec sn count); cbn [negb]; split; try discriminate; try lia; auto. }
    split; [exact G|]. split. { intros NR. destruct HL as [E|[E|[E|[]]]]; injection E as <- _; try discriminate. congruence. }
    intros _. apply before_ok in P1 as (P1 & ->). split; [exact L1|]. split; [exact P1|]. exists pe, psaid. split; [exists event; auto|]. split; auto. now apply text_field.
Qed.

(** ** Credentials *)
Lemma tel_type canon hash cr mo fuel st e c deep seen r n : verify_transaction_event canon hash cr mo fuel st e c deep seen = Ok r -> ordinal (d_ked e) n -> (of_type (d_ked e) (s! "rev") <-> 1 <= n).
Proof.
  intros H O. destruct r as (there & seen'). destruct (C130_l _ _ _ _ _ _ _ _ _ _ _ _ H) as (pre & n' & said & ilk & labels & count & _ & O' & _ & T & _ & _ & _ & _ & _ & _ & N1 & N2).
  assert (n' = n) as ->. { enough (Ok n' = Ok n) by congruence. rewrite <- (proj2 (sn_field e n') O'). now apply sn_field. }
  split.
  - intros TR. assert (ilk = s! "rev") as E by exact (type_once _ _ _ T TR). apply N2 in E. tauto.
  - intros L. destruct (list_eq_dec Byte.byte_eq_dec ilk (s! "rev")) as [->|NE]; auto. apply N1 in NE. lia.
Qed.

(*# C131_revocation_is_final
   Once a revocation stands in the log of a credential, in a store built by taking in streams, the last event in this log is a revocation forever after, and the credential is refused, whatever is taken in.
##
Example C131_case : let l := fst (take_in (fst (take_in empty (s! "issued"))) (s! "revoked")) in reached no_floats mix toy runic rune_of (fun _ _ => Ok true) (fun _ => Ok 0%Z) (fun _ _ => true) l /\
  In (d_raw rev0 ++ s! "g") (l_tel l csaid0) /\ sad_said cred0 = Ok csaid0 /\
  verify_acdc no_floats mix toy runic (fun _ _ => Ok true) (fun _ => Ok 0%Z) 9 (view no_floats (fst (take_in empty (s! "issued")))) cred0 [GPaths [csigs0]] (Some false) [] = Ok (true, []).
Proof. split; [apply taken, taken, reached_empty|]. split; [vm_compute; right; left; reflexivity|]. split; vm_compute; reflexivity. Qed.
#*)
Lemma C131_l (canon : bytes -> option bytes) (hash : bytes -> bytes -> bytes) (cr : crypto) (messages_of : bytes -> R (list message)) (group_text : group -> R bytes)
    (schema_check : bytes -> bytes -> R bool) (age : bytes -> R Z) (seen_said : ledger -> bytes -> bool) (l l' : ledger) (said text : bytes) (e : sadder) :
  finds_all canon seen_said -> textual group_text -> reached canon hash cr messages_of group_text schema_check age seen_said l -> reached canon hash cr messages_of group_text schema_check age seen_said l' -> extends l l' ->
  In text (l_tel l said) -> serder_with_raw canon text = Ok e -> of_type (d_ked e) (s! "rev") ->
  (exists e', current canon (view canon l') said e' /\ of_type (d_ked e') (s! "rev")) /\
  (forall c fuel g deep seen r, sad_said c = Ok said -> verify_acdc canon hash cr messages_of schema_check age fuel (view canon l') c g deep seen <> Ok r).
Proof.
  intros FA TX R R' X I HE TY.
  assert (exists e', current canon (view canon l') said e' /\ of_type (d_ked e') (s! "rev")) as C.
  { destruct X as (_ & X & _). destruct (X said) as (more & M). apply In_nth_error in I as (k & K).
    destruct (C126r_l _ _ _ _ _ _ _ _ _ _ _ _ FA TX R K) as (l0 & e0 & v0 & rest0 & fu & de & se & se' & _ & _ & _ & _ & HE0 & _ & O0 & V0). assert (e0 = e) as -> by congruence.
    apply (tel_type _ _ _ _ _ _ _ _ _ _ _ _ V0 O0) in TY. destruct (exists_last (l := l_tel l' said)) as (front & x & E). { rewrite M. intros Z. apply app_eq_nil in Z as (Z & _). rewrite Z in K. destruct k; discriminate. }
    assert (nth_error (l_tel l' said) (length front) = Some x) as NX by (rewrite E, nth_error_app2, Nat.sub_diag by lia; reflexivity).
    assert (k < length (l_tel l said))%nat as LK by (apply nth_error_Some; congruence). assert (length (l_tel l' said) = S (length front)) as LF by (rewrite E, app_length; cbn; lia). rewrite M, app_length in LF.
    destruct (C126r_l _ _ _ _ _ _ _ _ _ _ _ _ FA TX R' NX) as (l1 & e1 & v1 & rest1 & fu1 & de1 & se1 & se1' & _ & _ & _ & _ & HE1 & _ & O1 & V1).
    exists e1. split; [|apply (tel_type _ _ _ _ _ _ _ _ _ _ _ _ V1 O1); lia]. exists x. split; auto. cbn. rewrite E. clear. induction front as [|y f IH]; [reflexivity|]. cbn [app last_of]. now rewrite IH. }
  split; [exact C|]. destruct C as (e' & (t' & G & HE') & TY'). intros c fuel g deep seen r S H. destruct fuel as [|fuel]; [discriminate|]. cbn [verify_acdc] in H. apply bind_ok in H as (status & _ & H). destruct status; [|discriminate].
  apply bind_ok in H as (vcid & VC & H). assert (vcid = said) as -> by congruence. apply bind_ok in H as (schema & _ & H). apply bind_ok in H as (prov & _ & H). apply bind_ok in H as (saider & _ & H). apply bind_ok in H as (ok & _ & H). destruct (negb ok); [discriminate|].
  apply bind_ok in H as (event & A & H). rewrite G in A. injection A as <-. apply bind_ok in H as (state & B & H). assert (state = e') as -> by congruence. apply bind_ok in H as (dt & _ & H). apply bind_ok in H as (secs & _ & H). destruct (_ <? _)%Z; [discriminate|].
  apply bind_ok in H as (ssaid & _ & H). apply bind_ok in H as (seen1 & _ & H). apply bind_ok in H as (t & T & H). apply type_text in T. assert (t = s! "rev") as -> by exact (type_once _ _ _ T TY'). cbn in H. discriminate.
Qed.

(** ** The pieces of the verification of a credential *)
Section Pieces.
Variable canon : bytes -> option bytes.
Variable hash : bytes -> bytes -> bytes.
Variable cr : crypto.
Variable mo : bytes -> R (list message).
Variable schema_check : bytes -> bytes -> R bool.
Variable age : bytes -> R Z.

Definition nodes_of (fuel : nat) (st : store) (creder : sadder) (deep : option bool) : list (bytes * value) -> list bytes -> R (list bytes) :=
  fix each_node (nodes : list (bytes * value)) (seen : list bytes) : R (list bytes) :=
    match nodes with
    | [] => Ok seen
    | (label, node) :: nodes =>
      if has_code [s! "d"; s! "o"] label then each_node nodes seen
      else
        let* n := check_node canon schema_check st creder node in
        let '(node_said, message, pacdc) := n in
        let* seen :=
          if or_else deep true && negb (has_code seen node_said) then
            let* rest := from_str message (len (d_raw pacdc)) in
            let* g := first_group mo rest in
            match g with
            | GQuadlets value => let* r := verify_acdc canon hash cr mo schema_check age fuel st pacdc value deep (node_said :: seen) in Ok (snd r)
            | _ => Err EDecoding
            end
          else Ok seen in
        each_node nodes seen
    end.
Definition edges_of (fuel : nat) (st : store) (creder : sadder) (deep : option bool) : list value -> list bytes -> R (list bytes) :=
  fix each_edge (edges : list value) (seen : list bytes) : R (list bytes) :=
    match edges with
    | [] => Ok seen
    | edge :: edges =>
      let* map := to_map edge in
      let* seen := nodes_of fuel st creder deep map seen in
      each_edge edges seen
    end.
Definition state_of (fuel : nat) (st : store) (event : bytes) (state : sadder) (deep : option bool) (ssaid : bytes) (seen : list bytes) : R (list bytes) :=
  if or_else deep true && negb (has_code seen ssaid) then
    let* rest := from_str event (len (d_raw state)) in
    let* g := first_group mo rest in
    match g with
    | GSources value => let* r := verify_transaction_event canon hash cr mo fuel st state value deep (ssaid :: seen) in Ok (snd r)
    | _ => Err EDecoding
    end
  else Ok seen.
Definition there_of (st : store) (vcid : bytes) : R bool :=
  match get_acdc st vcid with
  | Ok message =>
    let* e := creder_with_raw canon message in
    let* esaid := sad_said e in
    if negb (beq vcid esaid) then Err EProgrammer else Ok true
  | Err _ => Ok false
  | Panic => Panic
  end.
(** What an accepted credential satisfies. *)
Record passed (f : nat) (st : store) (c : sadder) (g : list group) (deep : option bool) (seen seen' : list bytes) (there : bool)
    (status vcid schema event : bytes) (prov : value) (saider : matter) (state : sadder) (secs : Z) (ssaid t : bytes) (edges : list value) (seen1 seen2 : list bytes) : Prop := Passed {
  c_status : creder_status c = Ok (Some status);
  c_vcid : sad_said c = Ok vcid;
  c_schema : creder_schema c = Ok schema;
  c_prov : creder_chains c = Ok prov;
  c_saider : said_of_qb64 vcid = Ok saider;
  c_said : said_verify hash saider (d_ked c) (Some false) (Some true) (Some (s! "JSON")) None [] = Ok true;
  c_event : get_latest_transaction_event st vcid = Ok event;
  c_state : serder_with_raw canon event = Ok state;
  c_age : exists dt, text_at (d_ked state) (s! "dt") = Ok dt /\ age dt = Ok secs /\ (secs <= 36000000000)%Z;
  c_ssaid : sad_said state = Ok ssaid;
  c_deep : state_of f st event state deep ssaid seen = Ok seen1;
  c_type : text_at (d_ked state) (s! "t") = Ok t /\ ~ In t [s! "rev"; s! "brv"];
  c_valid : from_utf8 (d_raw c) = Ok (d_raw c) /\ schema_check schema (d_raw c) = Ok true;
  c_paths : check_path_groups canon hash cr mo f st c deep g false seen1 = Ok (true, seen2);
  c_edges : match prov with VObj _ => edges = [prov] | VArr l => edges = l | _ => False end;
  c_nodes : edges_of f st c deep edges seen2 = Ok seen';
  c_there : there_of st vcid = Ok there }.

Lemma passed_iff f st c g deep seen there seen' : verify_acdc canon hash cr mo schema_check age (S f) st c g deep seen = Ok (there, seen') <->
  exists status vcid schema event prov saider state secs ssaid t edges seen1 seen2, passed f st c g deep seen seen' there status vcid schema event prov saider state secs ssaid t edges seen1 seen2.
Proof.
  split.
  - intros H. cbn [verify_acdc] in H. apply bind_ok in H as (status & H1 & H). destruct status as [status|]; [|discriminate]. apply bind_ok in H as (vcid & H2 & H).
    apply bind_ok in H as (schema & H3 & H). apply bind_ok in H as (prov & H4 & H). apply bind_ok in H as (saider & H5 & H). apply bind_ok in H as (ok & H6 & H). destruct ok; cbn [negb] in H; [|discriminate].
    apply bind_ok in H as (event & H7 & H). apply bind_ok in H as (state & H8 & H). apply bind_ok in H as (dt & H9 & H). apply bind_ok in H as (secs & H10 & H). destruct (Z.ltb_spec 36000000000 secs); [discriminate|].
    apply bind_ok in H as (ssaid & H11 & H). apply bind_ok in H as (seen1 & H12 & H). apply bind_ok in H as (t & H13 & H). destruct (has_code [s! "rev"; s! "brv"] t) eqn:HT; [discriminate|].
    apply bind_ok in H as (text & H14 & H). pose proof (utf8_from _ _ H14). subst text. apply bind_ok in H as (valid & H15 & H). destruct valid; cbn [negb] in H; [|discriminate]. apply bind_ok in H as ((rooted & seen2) & H16 & H). cbn [fst snd] in H.
    destruct rooted; cbn [negb] in H; [|discriminate]. apply bind_ok in H as (edges & H17 & H). apply bind_ok in H as (seen3 & H18 & H).
    assert (there_of st vcid = Ok there /\ seen3 = seen') as (H19 & ->).
    { unfold there_of. destruct (get_acdc st vcid) as [message| |]; [|injection H as <- <-; auto|discriminate]. apply bind_ok in H as (e & -> & H). apply bind_ok in H as (es & E & H). rewrite bind_Ok, E, bind_Ok. destruct (negb (beq vcid es)); [discriminate|]. injection H as <- <-. auto. }
    exists status, vcid, schema, event, prov, saider, state, secs, ssaid, t, edges, seen1, seen2. split; auto.
    + exists dt. auto.
    + split; auto. intros I. apply has_code_In in I. congruence.
    + destruct prov; try discriminate; injection H17 as <-; auto.
  - intros (status & vcid & schema & event & prov & saider & state & secs & ssaid & t & edges & seen1 & seen2 & [H1 H2 H3 H4 H5 H6 H7 H8 (dt & H9 & H10 & HA) H11 H12 (H13 & HT) (H14 & H15) H16 H17 H18 H19]).
    cbn [verify_acdc]. rewrite H1, bind_Ok, H2, bind_Ok, H3, bind_Ok, H4, bind_Ok, H5, bind_Ok, H6, bind_Ok. cbn [negb]. rewrite H7, bind_Ok, H8, bind_Ok, H9, bind_Ok, H10, bind_Ok. destruct (Z.ltb_spec 36000000000 secs); [lia|].
    rewrite H11, bind_Ok. unfold state_of in H12. rewrite H12, bind_Ok, H13, bind_Ok. destruct (has_code [s! "rev"; s! "brv"] t) eqn:E; [apply has_code_In in E; contradiction|]. rewrite H14, bind_Ok, H15, bind_Ok. cbn [negb]. rewrite H16, bind_Ok. cbn [fst snd negb].
    assert ((match prov with VObj _ => Ok [prov] | VArr l => Ok l | _ => Err EVerification end : R (list value)) = Ok edges) as -> by (destruct prov; try contradiction; subst; reflexivity).
    rewrite bind_Ok. unfold edges_of, nodes_of in H18. rewrite H18, bind_Ok. unfold there_of in H19. destruct (get_acdc st vcid) as [message| |]; [|injection H19 as <-; reflexivity|discriminate].
    apply bind_ok in H19 as (e & -> & H19). apply bind_ok in H19 as (es & E1 & H19). rewrite bind_Ok, E1, bind_Ok. destruct (negb (beq vcid es)); [discriminate|]. injection H19 as <-. reflexivity.
Qed.

(** Without depth. *)
Lemma path_shallow f f' st c deep g seen o : check_path_sig canon hash cr mo f st c deep g seen = Ok o -> exists o', check_path_sig canon hash cr mo f' st c (Some false) g [] = Ok o' /\ (o = None <-> o' = None) /\ (o' <> None -> o' = Some []).
Proof.
  unfold check_path_sig. intros H. apply bind_ok in H as (path & -> & H). rewrite bind_Ok. destruct (negb (beq path (s! "-"))); [injection H as <-; exists None; split; [auto|split; [tauto|congruence]]|].
  apply bind_ok in H as (pre & -> & H). apply bind_ok in H as (n & -> & H). rewrite !bind_Ok. apply bind_ok in H as (event & -> & H). rewrite bind_Ok. apply bind_ok in H as (e & -> & H). rewrite bind_Ok. apply bind_ok in H as (said & -> & H). rewrite bind_Ok. apply bind_ok in H as (want & -> & H). rewrite bind_Ok.
  destruct (negb (beq said want)); [discriminate|]. apply bind_ok in H as (seen1 & _ & H). cbn [or_else andb]. rewrite bind_Ok. apply bind_ok in H as (v & -> & H). rewrite bind_Ok. apply bind_ok in H as (found & -> & H). rewrite bind_Ok. apply bind_ok in H as (t & -> & H). rewrite bind_Ok.
  destruct t as [t|]; [|discriminate]. apply bind_ok in H as (ok & -> & H). rewrite bind_Ok. destruct (negb ok); [discriminate|]. injection H as <-. exists (Some []). split; auto. split; [split; discriminate|auto].
Qed.
Lemma paths_shallow f f' st c deep : forall gs rooted seen r, check_path_sigs canon hash cr mo f st c deep gs rooted seen = Ok r -> check_path_sigs canon hash cr mo f' st c (Some false) gs rooted [] = Ok (fst r, []).
Proof.
  induction gs as [|g gs IH]; intros rooted seen r H; cbn [check_path_sigs] in *; [injection H as <-; reflexivity|]. apply bind_ok in H as (o & O & H). destruct (path_shallow f f' _ _ _ _ _ _ O) as (o' & -> & N & S). rewrite bind_Ok.
  destruct o as [seen1|]; destruct o' as [seen1'|]; [| | |now apply (IH _ _ _ H)].
  - assert (seen1' = []) as -> by (assert (Some seen1' = Some []) as E by (apply S; discriminate); congruence). now apply (IH _ _ _ H).
  - destruct N as (_ & N). discriminate (N eq_refl).
  - destruct N as (N & _). discriminate (N eq_refl).
Qed.
Lemma groups_shallow f f' st c deep : forall gs rooted seen r, check_path_groups canon hash cr mo f st c deep gs rooted seen = Ok r -> check_path_groups canon hash cr mo f' st c (Some false) gs rooted [] = Ok (fst r, []).
Proof.
  induction gs as [|g gs IH]; intros rooted seen r H; cbn [check_path_groups] in *; [injection H as <-; reflexivity|]. destruct g; try discriminate. apply bind_ok in H as (o & O & H). rewrite (paths_shallow f f' _ _ _ _ _ _ _ O), bind_Ok. cbn [fst snd]. now apply (IH _ _ _ H).
Qed.
Lemma nodes_shallow f f' st c deep : forall nodes seen seen', nodes_of f st c deep nodes seen = Ok seen' -> nodes_of f' st c (Some false) nodes [] = Ok [].
Proof.
  induction nodes as [|(label, node) nodes IH]; intros seen seen' H; cbn [nodes_of] in *; [reflexivity|]. destruct (has_code [s! "d"; s! "o"] label); [now apply (IH _ _ H)|].
  apply bind_ok in H as (((nsaid, msg), pa) & -> & H). rewrite bind_Ok. apply bind_ok in H as (seen1 & _ & H). cbn [or_else andb]. rewrite bind_Ok. now apply (IH _ _ H).
Qed.
Lemma edges_shallow f f' st c deep : forall edges seen seen', edges_of f st c deep edges seen = Ok seen' -> edges_of f' st c (Some false) edges [] = Ok [].
Proof.
  induction edges as [|edge edges IH]; intros seen seen' H; cbn [edges_of] in *; [reflexivity|]. apply bind_ok in H as (m & -> & H). apply bind_ok in H as (seen1 & N & H). rewrite bind_Ok, (nodes_shallow f f' _ _ _ _ _ _ N), bind_Ok. now apply (IH _ _ H).
Qed.
Lemma acdc_shallow fuel st c g deep seen r : verify_acdc canon hash cr mo schema_check age fuel st c g deep seen = Ok r -> verify_acdc canon hash cr mo schema_check age 1 st c g (Some false) [] = Ok (fst r, []).
Proof.
  destruct fuel as [|f]; intros H; [discriminate|]. destruct r as (there & seen'). cbn [fst].
  apply passed_iff in H as (status & vcid & schema & event & prov & saider & state & secs & ssaid & t & edges & seen1 & seen2 & [H1 H2 H3 H4 H5 H6 H7 H8 HA H11 H12 H13 H14 H16 H17 H18 H19]).
  apply passed_iff. exists status, vcid, schema, event, prov, saider, state, secs, ssaid, t, edges, [], []. split; auto.
  - now apply (groups_shallow f 0 _ _ _ _ _ _ _ H16).
  - now apply (edges_shallow f 0 _ _ _ _ _ _ H18).
Qed.

(** Signatures. *)
Lemma sig_eqb_eq x y : sig_eqb x y = true <-> x = y.
Proof.
  unfold sig_eqb. rewrite !andb_true_iff, !beq_eq, !N.eqb_eq. destruct x, y; cbn. split; [intros (((-> & ->) & ->) & ->); auto|intros [= -> -> -> ->]; auto].
Qed.
Lemma distinct_ok : forall l acc, NoDup acc -> NoDup (distinct acc l) /\ forall x, In x (distinct acc l) <-> In x acc \/ In x l.
Proof.
  induction l as [|y l IH]; intros acc N; cbn [distinct]. { split; auto. intros x. cbn. tauto. }
  destruct (existsb (sig_eqb y) acc) eqn:E.
  - destruct (IH acc N) as (A & B). split; auto. intros x. rewrite B. cbn. apply existsb_exists in E as (z & Z & E). apply sig_eqb_eq in E. subst z. split; [tauto|]. intros [|[<-|]]; auto.
  - destruct (IH (acc ++ [y])) as (A & B).
    { apply NoDup_rev in N. rewrite <- (rev_involutive (acc ++ [y])). apply NoDup_rev. rewrite rev_app_distr. cbn. constructor; auto. rewrite <- in_rev. intros I. assert (existsb (sig_eqb y) acc = true) by (apply existsb_exists; exists y; split; auto; now apply sig_eqb_eq). congruence. }
    split; auto. intros x. rewrite B, in_app_iff. cbn. tauto.
Qed.
Lemma path_ok f st c deep g seen o : check_path_sig canon hash cr mo f st c deep g seen = Ok o -> (o <> None <-> bext_of (sp_pather g) = Ok (s! "-")) /\ (o <> None -> exists pre, vouched canon cr st (d_raw c) g pre).
Proof.
  unfold check_path_sig. intros H. apply bind_ok in H as (path & -> & H). destruct (beq path (s! "-")) eqn:B; cbn [negb] in H.
  2:{ injection H as <-. split; [|congruence]. split; [congruence|]. intros [= ->]. rewrite beq_refl in B. discriminate. }
  apply beq_eq in B. subst path. apply bind_ok in H as (pre & H1 & H). apply bind_ok in H as (n & H2 & H). apply bind_ok in H as (event & H3 & H). apply bind_ok in H as (e & H4 & H). apply bind_ok in H as (said & H5 & H). apply bind_ok in H as (want & H6 & H).
  destruct (beq said want) eqn:B; cbn [negb] in H; [|discriminate]. apply beq_eq in B. subst want. apply bind_ok in H as (seen1 & _ & H). apply bind_ok in H as (v & H7 & H). apply bind_ok in H as (found & H8 & H). apply bind_ok in H as (t & H9 & H).
  destruct t as [t|]; [|discriminate]. apply bind_ok in H as (ok & H10 & H). destruct ok; cbn [negb] in H; [|discriminate]. injection H as <-. split; [split; [auto|discriminate]|]. intros _. apply sigs_ok in H8 as (HI & good & T & ->).
  destruct (distinct_ok (sp_sigers g) [] (NoDup_nil _)) as (D1 & D2). exists pre, n, said, e, v, t, (distinct [] (sp_sigers g)), good. repeat (split; [assumption|]). split; [exists event; rewrite <- asked_mod; auto|]. repeat (split; [assumption|]).
  split. { intros x. rewrite D2. cbn. tauto. } split; auto. split; auto. rewrite map_map in H10. exact H10.
Qed.
Lemma paths_ok f st c deep : forall gs rooted seen r, check_path_sigs canon hash cr mo f st c deep gs rooted seen = Ok r ->
  (forall g, In g gs -> bext_of (sp_pather g) = Ok (s! "-") -> exists pre, vouched canon cr st (d_raw c) g pre) /\ (fst r = true -> rooted = true \/ exists g, In g gs /\ bext_of (sp_pather g) = Ok (s! "-")).
Proof.
  induction gs as [|g gs IH]; intros rooted seen r H; cbn [check_path_sigs] in H; [injection H as <-; split; [intros g []|auto]|]. apply bind_ok in H as (o & O & H). apply path_ok in O as (O1 & O2).
  assert (forall rooted seen, check_path_sigs canon hash cr mo f st c deep gs rooted seen = Ok r -> (rooted = true -> o <> None \/ rooted = true) -> forall g', In g' (g :: gs) -> bext_of (sp_pather g') = Ok (s! "-") -> exists pre, vouched canon cr st (d_raw c) g' pre) as G.
  { intros ro se E _ g' [<-|I] B; [now apply O2, O1|]. now apply (IH _ _ _ E). }
  destruct o as [seen1|].
  - split; [apply (G _ _ H); auto|]. intros _. right. exists g. split; [now left|]. apply O1. discriminate.
  - split; [apply (G _ _ H); auto|]. intros E. destruct (proj2 (IH _ _ _ H) E) as [|(g' & I & B)]; [now left|]. right. exists g'. split; auto. now right.
Qed.
Lemma path_groups_ok f st c deep : forall gs rooted seen r, check_path_groups canon hash cr mo f st c deep gs rooted seen = Ok r ->
  (forall x, In x gs -> exists l, x = GPaths l) /\ (forall g, about_all gs g -> exists pre, vouched canon cr st (d_raw c) g pre) /\ (fst r = true -> rooted = true \/ exists g, about_all gs g).
Proof.
  induction gs as [|x gs IH]; intros rooted seen r H; cbn [check_path_groups] in H. { injection H as <-. split; [intros x []|]. split; [intros g (l & [] & _)|auto]. }
  destruct x as [| |l| |]; try discriminate. apply bind_ok in H as (o & O & H). apply paths_ok in O as (O1 & O2). apply IH in H as (A & B & C). split; [intros x [<-|I]; eauto|]. split.
  - intros g (l' & [E|I] & J & K); [injection E as <-; now apply O1|]. apply B. exists l'. auto.
  - intros E. apply C in E as [E|(g & l' & I & J & K)]; [|right; exists g, l'; split; [now right|auto]]. apply O2 in E as [|(g & I & K)]; [now left|]. right. exists g, l. split; [now left|auto].
Qed.

(** Edges. *)
Lemma edges_in c prov : creder_chains c = Ok prov -> forall node, edge (d_ked c) node <->
  exists label es, In (label, node) es /\ label <> s! "d" /\ label <> s! "o" /\ (prov = VObj es \/ exists l, prov = VArr l /\ In (VObj es) l).
Proof.
  unfold creder_chains, edge. intros H node. apply bind_ok in H as (m & M & H). unfold to_map in M. destruct (d_ked c) as [| | | | | |m'] eqn:K; try discriminate. injection M as ->. injection H as <-.
  assert (forall x, field_of (VObj m) (s! "e") x <-> assoc (s! "e") m = Some x) as F by (intros x; apply field_assoc).
  split; intros (label & es & I & N1 & N2 & D); exists label, es; repeat (split; [assumption|]).
  - destruct D as [D|(l & D & J)]; apply F in D; rewrite D; [now left|right; exists l; auto].
  - destruct (assoc (s! "e") m) as [x|] eqn:A.
    + destruct D as [->|(l & -> & J)]; [left; now apply F|right; exists l; split; auto; now apply F].
    + destruct D as [D|(l & D & _)]; [injection D as <-; contradiction|discriminate].
Qed.
Lemma nodes_each f st c deep : forall nodes seen seen', nodes_of f st c deep nodes seen = Ok seen' -> forall label node, In (label, node) nodes -> label <> s! "d" -> label <> s! "o" -> exists x, check_node canon schema_check st c node = Ok x.
Proof.
  induction nodes as [|(label, node) nodes IH]; intros seen seen' H lb nd I N1 N2; [destruct I|]. cbn [nodes_of] in H. destruct (has_code [s! "d"; s! "o"] label) eqn:HC.
  - destruct I as [E|I]; [|now apply (IH _ _ H _ _ I)]. injection E as -> ->. apply has_code_In in HC. destruct HC as [|[|[]]]; congruence.
  - apply bind_ok in H as (((nsaid, msg), pa) & N & H). apply bind_ok in H as (seen1 & _ & H). destruct I as [E|I]; [injection E as <- <-; eauto|now apply (IH _ _ H _ _ I)].
Qed.
Lemma edges_each f st c deep prov edges seen seen' : creder_chains c = Ok prov -> match prov with VObj _ => edges = [prov] | VArr l => edges = l | _ => False end -> edges_of f st c deep edges seen = Ok seen' ->
  forall node, edge (d_ked c) node -> exists x, check_node canon schema_check st c node = Ok x.
Proof.
  intros P E H node D. apply (edges_in _ _ P) in D as (label & es & I & N1 & N2 & D). assert (In (VObj es) edges) as J. { destruct D as [->|(l & -> & J)]; subst edges; auto. now left. }
  clear E D. revert seen seen' H J. induction edges as [|x edges IH]; intros seen seen' H J; [destruct J|]. cbn [edges_of] in H. apply bind_ok in H as (m & M & H). apply bind_ok in H as (seen1 & N & H). destruct J as [->|J]; [|now apply (IH _ _ H)].
  injection M as <-. now apply (nodes_each _ _ _ _ _ _ _ N label node).
Qed.
Lemma texts_ok l ts : Verify.texts l = Ok ts -> l = map VStr ts.
Proof.
  revert ts. induction l as [|v l IH]; intros ts H; cbn [Verify.texts] in H; [injection H as <-; reflexivity|]. destruct v; try discriminate. cbn in H. apply bind_ok in H as (r & R & H). injection H as <-. now rewrite (IH _ R).
Qed.
Lemma filter_those f (P : bytes -> Prop) l : (forall x, f x = true <-> P x) -> those P l (filter f l).
Proof.
  intros E. induction l as [|x l IH]; cbn [filter]; [constructor|]. destruct (f x) eqn:F; constructor; auto; [now apply E|]. intros Q. apply E in Q. congruence.
Qed.
Lemma node_ok st c node nsaid msg pa : check_node canon schema_check st c node = Ok (nsaid, msg, pa) ->
  leads node nsaid /\ get_acdc st nsaid = Ok msg /\ creder_with_raw canon msg = Ok pa /\
  (forall schema, field_of node (s! "s") (VStr schema) -> schema_check schema (d_raw pa) = Ok true) /\
  exists ops subject, operators node ops /\ ~ In (s! "NOT") ops /\ field_of (d_ked pa) (s! "a") subject /\
    (issuer_to_issuer ops subject /\ (exists issuer, field_of (d_ked c) (s! "i") (VStr issuer) /\ field_of subject (s! "i") (VStr issuer)) \/ not_issuer_to_issuer ops subject).
Proof.
  unfold check_node. intros H. apply bind_ok in H as (m & M & H). unfold to_map in M. destruct node as [| | | | | |m']; try discriminate. injection M as ->. apply bind_ok in H as (n & N & H). unfold entry in N. destruct (assoc (s! "n") m) as [x|] eqn:A; [|discriminate]. injection N as ->.
  apply bind_ok in H as (ns & NS & H). destruct n as [| | | |t| |]; try discriminate. injection NS as ->. apply bind_ok in H as (msg' & G & H). apply bind_ok in H as (pa' & C & H). apply bind_ok in H as (ok & K & H). destruct ok; cbn [negb] in H; [|discriminate].
  apply bind_ok in H as (ops & OP & H). apply bind_ok in H as (subject & SU & H). apply bind_ok in H as (ms & MS & H). apply bind_ok in H as (op & O & H).
  assert (nsaid = ns /\ msg' = msg /\ pa' = pa /\ (beq op (s! "I2I") = true /\ (exists i issuer, entry ms (s! "i") = Ok i /\ to_string i = Ok issuer /\ creder_issuer c = Ok issuer) \/ beq op (s! "NI2I") = true)) as (-> & -> & -> & D).
  { destruct (beq op (s! "I2I")).
    - apply bind_ok in H as (i & I & H). apply bind_ok in H as (holder & HO & H). apply bind_ok in H as (issuer & IS & H). destruct (beq holder issuer) eqn:B; cbn [negb] in H; [|discriminate]. apply beq_eq in B. subst holder. injection H as <- <- <-. repeat (split; [reflexivity|]). left. split; auto. exists i, issuer. auto.
    - destruct (beq op (s! "NI2I")); [|discriminate]. injection H as <- <- <-. auto. }
  clear H. assert (forall k x, field_of (VObj m) k x <-> assoc k m = Some x) as F by (intros k x; apply field_assoc).
  split; [now apply F|]. split; auto. split; auto. split. { intros schema S. apply F in S. rewrite S in K. cbn in K. apply bind_ok in K as (text & T & K). apply utf8_from in T. now subst text. }
  unfold operators_of in OP. apply bind_ok in OP as (all & AL & OP). destruct (has_code all (s! "NOT")) eqn:HN; [discriminate|]. injection OP as <-.
  assert (operators (VObj m) all) as OK.
  { destruct (assoc (s! "o") m) as [v|] eqn:Q; [|injection AL as <-; left; split; auto; intros x X; apply F in X; congruence]. right. destruct v; try discriminate; cbn in AL.
    - injection AL as <-. left. exists s. split; auto. now apply F.
    - right. apply texts_ok in AL. rewrite <- AL. now apply F. }
  exists all, subject. split; auto. split. { intros I. apply has_code_In in I. congruence. }
  unfold creder_subject in SU. apply index_field in SU. split; [exact SU|]. unfold to_map in MS. destruct subject as [| | | | | |ms']; try discriminate. injection MS as ->.
  assert (forall x, field_of (VObj ms) (s! "i") x <-> assoc (s! "i") ms = Some x) as FS by (intros x; apply field_assoc).
  pose proof (filter_those (has_code [s! "I2I"; s! "NI2I"; s! "DI2I"]) unary all (fun x => has_code_In _ _)) as TH. unfold operator_of in O. unfold issuer_to_issuer, not_issuer_to_issuer.
  remember (filter (has_code [s! "I2I"; s! "NI2I"; s! "DI2I"]) all) as chosen eqn:EC. clear EC.
  assert (beq op (s! "I2I") = true -> those unary all [s! "I2I"] \/ those unary all [] /\ (exists x, field_of (VObj ms) (s! "i") x)) as G1.
  { intros B. apply beq_eq in B. subst op. destruct chosen as [|o [|]]; [|injection O as ->; now left|discriminate]. destruct (contains_key (s! "i") ms) eqn:CK; [|discriminate]. right. split; auto. unfold contains_key in CK. destruct (assoc (s! "i") ms) as [x|] eqn:AX; [|discriminate]. exists x. now apply FS. }
  assert (beq op (s! "NI2I") = true -> those unary all [s! "NI2I"] \/ those unary all [] /\ lacks (VObj ms) (s! "i")) as G2.
  { intros B. apply beq_eq in B. subst op. destruct chosen as [|o [|]]; [|injection O as ->; now left|discriminate]. destruct (contains_key (s! "i") ms) eqn:CK; [discriminate|]. right. split; auto. unfold contains_key in CK. intros x X. apply FS in X. rewrite X in CK. discriminate. }
  destruct D as [(B & i & issuer & I & IT & IC)|B]; [left|right; auto]. split; auto. exists issuer. split; [now apply text_field|]. unfold entry in I. destruct (assoc (s! "i") ms) as [x|] eqn:AX; [|discriminate]. injection I as ->.
  destruct i; try discriminate. injection IT as ->. now apply FS.
Qed.
End Pieces.

(*# C132_credential_checked
   An accepted credential has a registry; its identifier verifies over its data; the last event in the log of its identifier is no revocation and not older than 36000000000 seconds; its schema accepts it. All attached groups are
   of signatures on parts of it. There is one on the whole of it, and each on the whole of it counts: the log of the identifier in the group holds an event, with the number and identifier in the group, whose
   keys made enough signatures on the credential's bytes.
##
Example C132_case : let l := fst (take_in empty (s! "issued")) in about_all [GPaths [csigs0]] csigs0 /\ length (sp_sigers csigs0) = 2%nat /\
  verify_acdc no_floats mix toy runic (fun _ _ => Ok true) (fun _ => Ok 0%Z) 9 (view no_floats l) cred0 [GPaths [csigs0]] (Some false) [] = Ok (true, []).
Proof. split; [exists [csigs0]; split; [now left|]; split; [now left|]; vm_compute; reflexivity|]. split; vm_compute; reflexivity. Qed.
#*)
Lemma C132_l (canon : bytes -> option bytes) (hash : bytes -> bytes -> bytes) (cr : crypto) (messages_of : bytes -> R (list message)) (schema_check : bytes -> bytes -> R bool) (age : bytes -> R Z)
    (fuel : nat) (st : store) (e : sadder) (g : list group) (deep : option bool) (seen : list bytes) (r : bool * list bytes) :
  verify_acdc canon hash cr messages_of schema_check age fuel st e g deep seen = Ok r ->
  exists registry said schema state ilk dt secs, field_of (d_ked e) (s! "ri") (VStr registry) /\ sad_said e = Ok said /\ field_of (d_ked e) (s! "s") (VStr schema) /\
    (exists saider, said_of_qb64 said = Ok saider /\ said_verify hash saider (d_ked e) (Some false) (Some true) (Some (s! "JSON")) None [] = Ok true) /\
    current canon st said state /\ of_type (d_ked state) ilk /\ ilk <> s! "rev" /\ ilk <> s! "brv" /\ field_of (d_ked state) (s! "dt") (VStr dt) /\ age dt = Ok secs /\ (secs <= 36000000000)%Z /\
    schema_check schema (d_raw e) = Ok true /\ Forall (fun x => exists l, x = GPaths l) g /\ (exists p, about_all g p) /\ (forall p, about_all g p -> exists pre, vouched canon cr st (d_raw e) p pre).
Proof.
  destruct fuel as [|f]; intros H; [discriminate|]. destruct r as (there & seen').
  apply passed_iff in H as (status & vcid & schema & event & prov & saider & state & secs & ssaid & t & edges & seen1 & seen2 & [H1 H2 H3 H4 H5 H6 H7 H8 (dt & HA1 & HA2 & HA3) H11 H12 (H13 & H13') (H14 & H14') H16 H17 H18 H19]).
  apply (path_groups_ok canon hash cr messages_of schema_check age) in H16 as (P1 & P2 & P3). exists status, vcid, schema, state, t, dt, secs.
  split. { unfold creder_status in H1. apply bind_ok in H1 as (m & M & H1). unfold to_map in M. destruct (d_ked e) as [| | | | | |m']; try discriminate. injection M as ->. destruct (assoc (s! "ri") m) as [v|] eqn:A; [|discriminate].
    apply bind_ok in H1 as (x & X & H1). injection H1 as ->. destruct v; try discriminate. injection X as ->. now apply field_assoc. }
  split; auto. split; [now apply text_field|]. split; [exists saider; auto|]. split; [exists event; auto|]. split; [now apply type_text|]. split; [intros ->; apply H13'; now left|]. split; [intros ->; apply H13'; right; now left|].
  split; [now apply text_field|]. split; [exact HA2|]. split; [exact HA3|]. split; [exact H14'|]. split; [apply Forall_forall; exact P1|]. split; [|exact P2]. destruct (P3 eq_refl) as [P|P]; [discriminate|exact P].
Qed.

(*# C132_issued_by_issuer_refuted
   False that an accepted credential was issued or signed by its issuer: nothing compares the issuer it names with the identifier in the signature group, or the registry it names, or this registry's owner, with those of
   the issuance event. Here a credential that names one party as its issuer is taken into a store that has never had any event of that party or of its registry: it is issued and signed by another.
#*)
Lemma C132_no_l : correct toy /\ sized_hash mix /\ exists l e said issuer registry state owner g, reached no_floats mix toy runic rune_of (fun _ _ => Ok true) (fun _ => Ok 0%Z) (fun _ _ => true) l /\
  held no_floats (view no_floats l) said e /\ field_of (d_ked e) (s! "i") (VStr issuer) /\ field_of (d_ked e) (s! "ri") (VStr registry) /\ l_kel l issuer = [] /\ l_tel l registry = [] /\
  verify_acdc no_floats mix toy runic (fun _ _ => Ok true) (fun _ => Ok 0%Z) 9 (view no_floats l) e [GPaths [g]] None [] <> Err EVerification /\
  (exists seen, verify_acdc no_floats mix toy runic (fun _ _ => Ok true) (fun _ => Ok 0%Z) 9 (view no_floats l) e [GPaths [g]] None [] = Ok (true, seen)) /\
  current no_floats (view no_floats l) said state /\ owned no_floats (view no_floats l) state owner /\ infil (sp_prefixer g) = Ok owner /\ owner <> issuer.
Proof.
  split; [exact toy_correct|]. split; [exact mix_sized|]. set (l := fst (take_in empty (s! "forgery"))). exists l, cred_m, csaid_m, pre0, rpre0, iss_m, pre_m, csigs_m. split; [apply taken, reached_empty|].
  assert (get_acdc (view no_floats l) csaid_m = Ok (d_raw cred_m ++ s! "m") /\ get_latest_transaction_event (view no_floats l) csaid_m = Ok (d_raw iss_m ++ s! "r") /\ get_transaction_event (view no_floats l) rpre_m 0 = Ok (d_raw reg_m ++ s! "q") /\
    l_kel l pre0 = [] /\ l_tel l rpre0 = []) as (E1 & E2 & E3 & E4 & E5).
  { repeat (match goal with |- _ /\ _ => split; [vm_compute; reflexivity|] end). vm_compute. reflexivity. }
  split; [eexists; split; [exact E1|vm_compute; reflexivity]|]. split; [apply text_field; vm_compute; reflexivity|]. split; [apply text_field; vm_compute; reflexivity|]. split; auto. split; auto. split; [vm_compute; discriminate|].
  split; [eexists; vm_compute; reflexivity|]. split; [eexists; split; [exact E2|vm_compute; reflexivity]|].
  split. { right. split; [left; apply type_text; vm_compute; reflexivity|]. exists rpre_m, reg_m. split; [apply text_field; vm_compute; reflexivity|]. split; [eexists; split; [exact E3|vm_compute; reflexivity]|]. apply text_field. vm_compute. reflexivity. }
  split; [vm_compute; reflexivity|]. discriminate.
Qed.

(*# C133_said_binds_credential
   Two accepted credentials with one identifier have the same fields and values, the text of field d aside, or Blake3 has a collision.
##
Example C133_case : let l := fst (take_in empty (s! "issued")) in creder_with_raw no_floats (d_raw cred0) = Ok cred0 /\ sad_said cred0 = Ok csaid0 /\ float_free (d_ked cred0) /\ (exists m, d_ked cred0 = VObj m) /\
  verify_acdc no_floats mix toy runic (fun _ _ => Ok true) (fun _ => Ok 0%Z) 9 (view no_floats l) cred0 [GPaths [csigs0]] (Some false) [] = Ok (true, []).
Proof. split; [vm_compute; reflexivity|]. split; [vm_compute; reflexivity|]. split; [vm_compute; repeat constructor|]. split; [eexists; vm_compute; reflexivity|vm_compute; reflexivity]. Qed.
#*)
Lemma C133_l (canon : bytes -> option bytes) (hash : bytes -> bytes -> bytes) (cr1 cr2 : crypto) (messages_of1 messages_of2 : bytes -> R (list message)) (schema_check1 schema_check2 : bytes -> bytes -> R bool) (age1 age2 : bytes -> R Z)
    (fuel1 fuel2 : nat) (st1 st2 : store) (raw1 raw2 : bytes) (e1 e2 : sadder) (g1 g2 : list group) (deep1 deep2 : option bool) (seen1 seen2 : list bytes) (r1 r2 : bool * list bytes) (said : bytes) (m1 m2 : list (bytes * value)) :
  sized_hash hash -> creder_with_raw canon raw1 = Ok e1 -> creder_with_raw canon raw2 = Ok e2 -> float_free (d_ked e1) -> float_free (d_ked e2) -> d_ked e1 = VObj m1 -> d_ked e2 = VObj m2 ->
  verify_acdc canon hash cr1 messages_of1 schema_check1 age1 fuel1 st1 e1 g1 deep1 seen1 = Ok r1 -> verify_acdc canon hash cr2 messages_of2 schema_check2 age2 fuel2 st2 e2 g2 deep2 seen2 = Ok r2 ->
  sad_said e1 = Ok said -> sad_said e2 = Ok said -> without [s! "d"] m1 = without [s! "d"] m2 \/ collision hash (s! "E").
Proof.
  intros SH R1 R2 F1 F2 M1 M2 V1 V2 S1 S2.
  destruct (C132_l _ _ _ _ _ _ _ _ _ _ _ _ _ V1) as (? & said1 & ? & ? & ? & ? & ? & _ & A1 & _ & (sd1 & B1 & C1) & _). destruct (C132_l _ _ _ _ _ _ _ _ _ _ _ _ _ V2) as (? & said2 & ? & ? & ? & ? & ? & _ & A2 & _ & (sd2 & B2 & C2) & _).
  assert (said1 = said) as -> by congruence. assert (said2 = said) as -> by congruence. assert (sd2 = sd1) as -> by congruence. rewrite M1 in C1. rewrite M2 in C2.
  assert (forall raw e, creder_with_raw canon raw = Ok e -> float_free (d_ked e) -> data (d_ked e) /\ m_code (d_saider e) = s! "E" /\ exists q, exfil q = Ok (d_saider e)) as RD.
  { intros raw e R F. split. { destruct (C87_l creder_new canon None None None raw [] None None None None e) as (_ & _ & T & _); [cbn; auto|exact R|]. now destruct (C81_l _ _ _ T F). }
    destruct (C57_l creder_new canon None (Some raw) None None e) as (t & _ & X & C & _); [cbn; auto|exact R|]. split; [exact C|]. exists t. exact X. }
  destruct (RD _ _ R1 F1) as (D1 & K1 & q & Q). destruct (RD _ _ R2 F2) as (D2 & _ & _). rewrite M1 in D1. rewrite M2 in D2.
  destruct (C59a_l hash sd1 m1 m2 (Some false) (Some false) (Some (s! "JSON")) (Some (s! "JSON")) (s! "d") SH D1 D2) as [E|E]; auto.
  right. destruct (exfil_infil _ _ _ Q S1) as (W & _). destruct (wf_round _ W) as (t1 & b1 & T1 & _ & X1 & _). apply SadderFacts.said_text in B1 as (B1 & _). unfold sad_said in S1.
  assert (sd1 = d_saider e1) as -> by congruence. rewrite K1 in E. exact E.
Qed.
