(** Proofs of C101 and C102: what saidify leaves as it was, and the remaining fields of events and credentials. *)
From Coq Require Import String.
From Coq Require Import NArith ZArith Bool List Lia.
From Verif Require Import Base BaseFacts B64 B64Facts Tables Matter MatterFacts MatterMore MatterThms Prims PrimsFacts Json JsonFacts JsonThms Common CommonFacts CommonThms Tholder TholderFacts Saider SaiderFacts
  SaiderThms Diger Sadder Spec SpecPrims SpecJson SpecCommon SpecSaider SpecSadder SadderFacts SadderThms PrimsThms.
Import ListNotations.
Open Scope N_scope.

Lemma b64_plain l : is_b64s l = true -> forallb plain l = true.
Proof.
  assert (forallb (fun c => implb (is_b64 c) (plain c)) all_bytes = true) as A by (vm_compute; reflexivity).
  unfold is_b64s. rewrite !forallb_forall. intros H c I. specialize (H c I). pose proof (forall_byte _ A c) as B. cbn beta in B. rewrite H in B. exact B.
Qed.
Lemma said_text hash code ser s q : sized_hash hash -> has_code said_codes code = true -> matter_of_code_raw code (hash code ser) = Ok s -> infil s = Ok q ->
  forallb plain q = true /\ len q = said_fs code /\ exfil q = Ok s.
Proof.
  intros SH HC M I. destruct (said_built hash code ser SH HC) as (M' & W). rewrite M in M'. injection M' as ->.
  destruct (wf_forms _ W) as (z & Hz & Wr & I' & _). rewrite I in I'. injection I' as ->. destruct (wf_round _ W) as (t & b & T & _ & X & _). rewrite I in T. injection T as <-.
  split; [apply b64_plain; now apply mtext_b64|]. split; [|exact X]. rewrite len_mtext by auto. unfold mfs. cbn [m_code m_size] in *.
  destruct (said_sizage code HC) as (z' & E & F). apply sizage_of_ok in E. rewrite Hz in E. injection E as <-.
  apply has_code_in in HC. cbn in HC. repeat (destruct HC as [<-|HC]; [vm_compute in Hz; injection Hz as <-; exact F|]). destruct HC.
Qed.
Lemma json_len_k k m t t' : assoc k m = Some (VStr t) -> forallb plain t = true -> forallb plain t' = true -> len t = len t' ->
  len (to_json (VObj (insert k (VStr t') m))) = len (to_json (VObj m)).
Proof.
  intros A P P' L. destruct (assoc_split _ _ _ A) as (m1 & m2 & -> & N). rewrite insert_at by auto. rewrite !to_json_str by auto. rewrite !len_app, L. reflexivity.
Qed.
Lemma dummy_plain n : forallb plain (repeat x23 n) = true.
Proof. now apply forallb_repeat. Qed.

(*# C101_saidify_output
   The data saidify returns have the labels of the data given, in the same order. The label field holds the SAID's text and the SAID has
   the code asked for (E if none is). If there is a version string, it becomes one of the same protocol announcing the size of the
   returned data's JSON (modulo 2^32). Every other field is as it was.
##
Example C101_case : exists s o, saidify pretend (VObj [(s! "v", VStr (s! "KERI10JSON000000_")); (s! "d", VStr []); (s! "a", VInt 3)]) None None None [] = Ok (s, o) /\
  get (s! "v") [(s! "v", VStr (s! "KERI10JSON000000_")); (s! "d", VStr []); (s! "a", VInt 3)] = Some (VStr (s! "KERI10JSON000000_")).
Proof. eexists. eexists. split; [vm_compute; reflexivity|]. reflexivity. Qed.
#*)
Lemma C101_output_l (hash : bytes -> bytes -> bytes) (m : list (bytes * value)) (code kind label : option bytes) (ignore : list bytes) (s : matter) (out : value) :
  sized_hash hash -> saidify hash (VObj m) code kind label ignore = Ok (s, out) ->
  let l := match label with Some l => l | None => s! "d" end in
  exists o t, out = VObj o /\ map fst o = map fst m /\ m_code s = (match code with Some c => c | None => s! "E" end) /\
  infil s = Ok t /\ get l o = Some (VStr t) /\ l <> s! "v" /\
  (forall k, k <> l -> k <> s! "v" -> get k o = get k m) /\
  (forall x, get (s! "v") m = Some x -> exists vs proto n vs', x = VStr vs /\ version_string vs proto 1 0 n /\
     get (s! "v") o = Some (VStr vs') /\ version_string vs' proto 1 0 (len (to_json out) mod 2 ^ 32)).
Proof.
  intros SH H. cbv zeta.
  change (saidify hash (VObj m) code kind label ignore) with (saidify hash (VObj m) (Some (or_else code (s! "E"))) kind (Some (or_else label (s! "d"))) ignore) in H.
  assert (match code with Some c => c | None => s! "E" end = or_else code (s! "E")) as -> by (now destruct code).
  assert (match label with Some c => c | None => s! "d" end = or_else label (s! "d")) as -> by (now destruct label).
  generalize dependent (or_else label (s! "d")). generalize dependent (or_else code (s! "E")). clear code label. intros code l H.
  destruct (saidify_ok _ _ _ _ _ _ _ _ H) as (m' & md & k' & ser & q & E & CL & HC & P & S & D & M & MC & Q & ->). injection E as <-.
  destruct (said_text _ _ _ _ _ SH HC M Q) as (PQ & LQ & _). destruct (prepared_v _ _ _ _ _ _ P) as (LV & VS & CV). pose proof (prepared_label _ _ _ _ _ _ P) as AL.
  assert (map fst md = map fst m) as KM.
  { destruct P as [(C & -> & _)|(C & z & Z & K & _)]; [now rewrite insert_keys, CL|].
    destruct (sizeify_ked _ _ _ Z) as (vs & proto & n & A & V & L & K' & _). rewrite K' in K. injection K as <-. rewrite insert_keys, C, insert_keys, CL. reflexivity. }
  assert (len (to_json (VObj (insert l (VStr q) md))) = len (to_json (VObj md))) as LEN.
  { eapply json_len_k; [exact AL|apply dummy_plain|exact PQ|]. rewrite len_repeat, LQ. lia. }
  exists (insert l (VStr q) md), q. split; [reflexivity|]. split.
  { rewrite insert_keys. unfold contains_key. now rewrite AL, KM. }
  split; [exact MC|]. split; [exact Q|]. split; [rewrite get_assoc, assoc_insert, beq_refl; reflexivity|]. split; [exact LV|]. split.
  - intros k N1 N2. rewrite !get_assoc, assoc_insert. destruct (beq l k) eqn:E; [apply beq_eq in E; congruence|]. eapply assoc_prepared; eauto.
  - intros x X. rewrite get_assoc in X. rewrite get_assoc, assoc_insert. destruct (beq l (s! "v")) eqn:E; [apply beq_eq in E; congruence|]. clear E.
    destruct P as [(C & -> & _)|(C & z & Z & K & _)].
    { rewrite contains_insert in C. unfold contains_key in C. rewrite X, orb_true_r in C. discriminate. }
    destruct (sizeify_ked _ _ _ Z) as (vs & proto & n & A & V & L & K' & _). rewrite K' in K. injection K as <-.
    rewrite assoc_insert in A. destruct (beq l (s! "v")) eqn:E; [apply beq_eq in E; congruence|]. rewrite X in A. injection A as ->.
    assert (In proto idents) as IP by (apply idents_or; apply V). pose proof (vtext_string proto _ IP L) as V2.
    exists vs, proto, n. eexists. split; [reflexivity|]. split; [exact V|]. split; [rewrite assoc_insert, beq_refl; reflexivity|].
    rewrite LEN. change (2 ^ 32) with 4294967296.
    match goal with |- version_string _ _ _ _ (?a mod _) => assert (a = len (to_json (VObj (insert l (dummy code) m)))) as ->; [|exact V2] end.
    destruct (version_string_plain _ _ _ _ _ V) as (P1 & _). destruct (version_string_plain _ _ _ _ _ V2) as (P2 & _).
    destruct (version_string_rever _ _ _ _ _ V) as (L1 & _). destruct (version_string_rever _ _ _ _ _ V2) as (L2 & _).
    apply (json_len_k _ _ vs); auto; [|exact (eq_trans L1 (eq_sym L2))]. rewrite assoc_insert, E. exact X.
Qed.

(*# C101_new_from_data
   Saider::new given data recomputes the SAID that saidify would give. Given the returned data alone it finds the digest algorithm from the
   SAID in them and yields the same SAID. Given the original data without a code, it takes the algorithm of the text in the label field,
   or E if that text is empty.
##
Example C101_new_case : exists s o, saidify pretend (VObj [(s! "d", VStr []); (s! "a", VInt 3)]) (Some (s! "F")) None None [] = Ok (s, o) /\
  said_new pretend (Some o) None None [] None None None None None = Ok s /\
  is_ok (said_new pretend (Some (VObj [(s! "d", VStr []); (s! "a", VInt 3)])) None None [] None None None None None) = true.
Proof. eexists. eexists. split; [vm_compute; reflexivity|]. split; vm_compute; reflexivity. Qed.
#*)
Lemma C101_new_l (hash : bytes -> bytes -> bytes) (m : list (bytes * value)) (code x : bytes) (kind label : option bytes) (ignore : list bytes) (s : matter) (out : value) :
  sized_hash hash -> saidify hash (VObj m) (Some code) kind label ignore = Ok (s, out) ->
  let l := match label with Some l => l | None => s! "d" end in
  said_new hash (Some (VObj m)) label kind ignore (Some code) None None None None = Ok s /\
  said_new hash (Some out) label kind ignore None None None None None = Ok s /\
  (get l m = Some (VStr x) -> (x = [] /\ code = s! "E" \/ exists y, exfil x = Ok y /\ m_code y = code) ->
   said_new hash (Some (VObj m)) label kind ignore None None None None None = Ok s).
Proof.
  intros SH H. cbv zeta.
  change (saidify hash (VObj m) (Some code) kind label ignore) with (saidify hash (VObj m) (Some code) kind (Some (or_else label (s! "d"))) ignore) in H.
  assert (match label with Some c => c | None => s! "d" end = or_else label (s! "d")) as -> by (now destruct label).
  assert (forall sad code, said_new hash (Some sad) label kind ignore code None None None None = said_new hash (Some sad) (Some (or_else label (s! "d"))) kind ignore code None None None None) as X by (intros sad code0; reflexivity).
  rewrite !X. clear X. generalize dependent (or_else label (s! "d")). clear label. intros l H.
  destruct (saidify_ok _ _ _ _ _ _ _ _ H) as (m' & md & k' & ser & q & E & CL & HC & P & S & D & M & MC & Q & ->). injection E as <-.
  destruct (said_text _ _ _ _ _ SH HC M Q) as (PQ & LQ & XQ). pose proof (derive_intro hash m code kind l ignore md k' ser HC P S) as D1.
  assert (forall m0 c0, contains_key l m0 = true -> said_derive hash (VObj m0) (Some code) kind (Some l) ignore = Ok (hash code ser, VObj md) ->
    (c0 = Some code \/ c0 = None /\ exists x, assoc l m0 = Some (VStr x) /\ (x = [] /\ code = s! "E" \/ exists y, exfil x = Ok y /\ m_code y = code)) ->
    said_new hash (Some (VObj m0)) (Some l) kind ignore c0 None None None None = Ok s) as G.
  { intros m0 c0 C0 D0 K. unfold said_new. cbn [or_else to_map]. rewrite bind_Ok, C0. cbn [negb].
    assert (match c0 with Some c => Ok c | None => let* x := index_str (VObj m0) l in match to_string x with
       | Ok [] => Ok (s! "E") | Ok s => let* m := matter_new None None None (Some s) None in Ok (m_code m) | Err _ => Err EValidation | Panic => Panic end end = Ok code) as EC.
    { destruct K as [->|(-> & y & A & K)]; [reflexivity|]. cbn [index_str]. rewrite A, bind_Ok. cbn [to_string].
      destruct K as [(-> & ->)|(z & Z & <-)]; [reflexivity|]. destruct y; [vm_compute in Z; discriminate|]. cbn [matter_new]. now rewrite Z, bind_Ok. }
    assert (validate said_codes code = Ok tt) as V by (unfold validate; now rewrite HC).
    destruct c0 as [c0|].
    - injection EC as ->. rewrite bind_Ok, V, bind_Ok, D0, bind_Ok. cbn [bind fst snd matter_new]. exact M.
    - rewrite EC, bind_Ok, V, bind_Ok, D0, bind_Ok. cbn [bind fst snd matter_new]. exact M. }
  split; [apply G; auto|]. split.
  - apply G; [now rewrite contains_insert, beq_refl|now rewrite derive_label|]. right. split; auto. exists q. rewrite assoc_insert, beq_refl. split; auto. right. eauto.
  - intros A K. rewrite get_assoc in A. apply G; auto. right. split; eauto.
Qed.

(** ** Thresholds *)
Lemma hexdigits_iff d n : hex_val 0 d = Some n <-> (forall c, In c d -> In c (s! "0123456789abcdefABCDEF")) /\ hex_number (lowercase d) = n.
Proof.
  pose proof (hex_val_iff d 0) as H. fold (hex_number (lowercase d)) in H. destruct (hex_val 0 d) as [v|]; split.
  - intros [= ->]. destruct H as (A & B). split; auto.
  - intros (A & B). destruct H as (_ & H). f_equal. congruence.
  - discriminate.
  - intros (A & _). now elim H.
Qed.
Lemma signed_hex lo hi h n : hex_reading h n -> n <= hi -> signed lo hi (hex_val 0) h = Some (Z.of_N n) /\ (forall r, h <> x5b :: r) /\ h <> [].
Proof.
  intros (sign & d & -> & S & NE & C & V) L. pose proof (proj2 (hexdigits_iff d n) (conj C V)) as HV.
  destruct d as [|c d]; [congruence|]. assert (In c (s! "0123456789abcdefABCDEF")) as Hc by (apply C; now left).
  assert (Byte.eqb c x2b = false /\ Byte.eqb c x2d = false /\ c <> x5b) as (E1 & E2 & E3) by (cbn in Hc; intuition (subst; (reflexivity || discriminate))).
  destruct S as [-> | ->].
  - cbn [app]. rewrite signed_cons. cbv zeta. rewrite E1, E2, HV. destruct (n <=? hi) eqn:Q; [|lia]. repeat split; congruence.
  - change (s! "+" ++ c :: d) with (x2b :: c :: d). rewrite signed_cons. cbv zeta. change (Byte.eqb x2b x2b) with true. cbv iota beta. rewrite HV. destruct (n <=? hi) eqn:Q; [|lia].
    repeat split; discriminate.
Qed.
Lemma unweighted n : n < 2 ^ 32 -> exists t, process_unweighted (Z.of_N n) = Ok t /\ t_weighted t = false /\ tholder_num t = Ok (Some n).
Proof.
  intros L. unfold process_unweighted. destruct (Z.of_N n <? 0)%Z eqn:A; [lia|]. destruct (Z.of_N u32_max <? Z.of_N n)%Z eqn:B; [unfold u32_max in B; lia|].
  destruct (C34_l (Z.to_N (Z.of_N n))) as (m & _ & _ & M & _); [rewrite N2Z.id; eapply N.lt_trans; [exact L|reflexivity]|]. rewrite M, bind_Ok.
  eexists. split; [reflexivity|]. split; [reflexivity|]. unfold tholder_num. cbn [t_weighted t_thold to_i64]. rewrite bind_Ok, A, B, N2Z.id. reflexivity.
Qed.
Lemma sith_text canon s : (forall r, s <> x5b :: r) -> process_sith canon (VStr s) = match parse_i64_hex s with Some z => process_unweighted z | None => Err EForeign end.
Proof. intros N. cbn [process_sith to_i64 to_string]. destruct s as [|c r]; auto. destruct c; auto. now elim (N r). Qed.

(*# C102_threshold_texts
   A threshold given as a text that is a hexadecimal numeral, or as an integer, is the numeric threshold of that number, up to 32 bits. A
   text that does not open a bracket gives no other threshold, except that minus zero in hexadecimal counts as zero.
##
Example C102_texts_case : hex_reading (s! "1F") 31 /\ exists t, tholder_new (fun _ => None) None None (Some (VStr (s! "1F"))) = Ok t.
Proof.
  split; [|eexists; vm_compute; reflexivity]. exists [], (s! "1F"). split; [reflexivity|]. split; [now left|]. split; [discriminate|]. split; [|reflexivity].
  intros c H. cbn in H. cbn. intuition.
Qed.
#*)
Lemma C102_texts_l (canon : bytes -> option bytes) (h : bytes) (n : N) (t : tholder) :
  (hex_reading h n -> n < 2 ^ 32 -> exists t, tholder_new canon None None (Some (VStr h)) = Ok t /\ tholder_num t = Ok (Some n)) /\
  (n < 2 ^ 32 -> exists t, tholder_new canon None None (Some (VInt (Z.of_N n))) = Ok t /\ tholder_num t = Ok (Some n)) /\
  (tholder_new canon None None (Some (VStr h)) = Ok t -> ~ prefix (s! "[") h ->
   exists k, tholder_num t = Ok (Some k) /\ k < 2 ^ 32 /\
     (hex_reading h k \/ k = 0 /\ exists d, h = s! "-" ++ d /\ ~ prefix (s! "+") d /\ hex_reading d 0)).
Proof.
  assert (forall v z, process_sith canon v = process_unweighted z -> tholder_new canon None None (Some v) = process_unweighted z) as T.
  { intros v z E. unfold tholder_new. rewrite !bind_Ok, E. destruct (process_unweighted z); reflexivity. }
  split; [|split].
  - intros H L. destruct (signed_hex 9223372036854775808 9223372036854775807 h n H) as (P & NB & _). { apply N.lt_le_incl. eapply N.lt_trans; [exact L|reflexivity]. }
    destruct (unweighted n L) as (u & U & _ & M). exists u. split; auto. erewrite T; [exact U|]. rewrite sith_text by auto. unfold parse_i64_hex. now rewrite P.
  - intros L. destruct (unweighted n L) as (u & U & _ & M). exists u. split; auto. erewrite T; [exact U|]. reflexivity.
  - intros H NB. assert (forall r, h <> x5b :: r) as NB'. { intros r ->. apply NB. now exists r. }
    unfold tholder_new in H. rewrite !bind_Ok in H. apply bind_ok in H as (o & H & E). apply bind_ok in H as (t' & H & E'). injection E' as <-. injection E as ->.
    rewrite sith_text in H by auto. destruct (parse_i64_hex h) as [z|] eqn:P; [|discriminate].
    assert (0 <= z /\ z <= Z.of_N u32_max)%Z as (Z1 & Z2).
    { unfold process_unweighted in H. destruct (z <? 0)%Z eqn:A; [discriminate|]. destruct (Z.of_N u32_max <? z)%Z eqn:B; [discriminate|]. lia. }
    assert (Z.to_N z < 2 ^ 32) as L by (unfold u32_max in Z2; change (2 ^ 32) with 4294967296; lia).
    destruct (unweighted (Z.to_N z) L) as (u & U & _ & M). rewrite Z2N.id in U by auto. rewrite H in U. injection U as <-. exists (Z.to_N z). split; auto. split; auto.
    unfold parse_i64_hex in P. destruct h as [|c r]; [discriminate|]. rewrite signed_cons in P. cbv zeta beta in P.
    assert (forall (bound : N) (sg : Z -> Z) (d : bytes) (z : Z), match d with [] => None | _ :: _ => match hex_val 0 d with Some v => if v <=? bound then Some (sg (Z.of_N v)) else None | None => None end end = Some z ->
       exists v, z = sg (Z.of_N v) /\ d <> [] /\ (forall c, In c d -> In c (s! "0123456789abcdefABCDEF")) /\ hex_number (lowercase d) = v) as K.
    { intros bound sg d z0 Q. destruct d as [|c0 d0]; [discriminate|]. destruct (hex_val 0 (c0 :: d0)) as [v|] eqn:HV; [|discriminate]. destruct (v <=? bound); [|discriminate].
      injection Q as <-. apply hexdigits_iff in HV as (A & B). exists v. repeat split; auto. discriminate. }
    destruct (Byte.eqb c x2b) eqn:E1; [|destruct (Byte.eqb c x2d) eqn:E2].
    + apply byte_eqb_eq in E1. subst c. apply (K _ (fun z => z)) in P as (v & -> & NE & C & V). left. rewrite N2Z.id. exists (s! "+"), r. repeat split; auto.
    + apply byte_eqb_eq in E2. subst c. apply (K _ Z.opp) in P as (v & -> & NE & C & V). assert (v = 0) by lia. subst v. right. split; [lia|]. exists r. split; [reflexivity|]. split.
      * intros (r' & ->). assert (In x2b (s! "0123456789abcdefABCDEF")) as X by (apply C; now left). cbn in X. intuition discriminate.
      * exists [], r. repeat split; auto; lia.
    + apply (K _ (fun z => z) (c :: r)) in P as (v & -> & NE & C & V). left. rewrite N2Z.id. exists [], (c :: r). repeat split; auto.
Qed.

(*# C102_event_thresholds
   The current and the next threshold of an event are the thresholds given by its fields kt and nt, read as Tholder reads them; an event
   without the field has none.
##
Example C102_thresholds_case : exists s t, serder_new (fun _ => None) None None None
    (Some (VObj [(s! "v", VStr (s! "KERI10JSON000000_")); (s! "d", VStr (s! "EAAAAAAAAAAAAAAAAAAAAAAAAAAAAAAAAAAAAAAAAAAA"));
                 (s! "kt", VStr (s! "2")); (s! "nt", VArr [VStr (s! "1/2"); VStr (s! "1/2")])])) None = Ok s /\
  serder_tholder (fun _ => None) s = Ok (Some t) /\ tholder_num t = Ok (Some 2) /\ is_ok (serder_ntholder (fun _ => None) s) = true.
Proof. eexists. eexists. split; [vm_compute; reflexivity|]. split; [vm_compute; reflexivity|]. split; vm_compute; reflexivity. Qed.
#*)
Lemma C102_thresholds_l (canon : bytes -> option bytes) (s : sadder) (o : option tholder) :
  (exists m, d_ked s = VObj m) ->
  (serder_tholder canon s = Ok o <->
     (exists v t, field_of (d_ked s) (s! "kt") v /\ tholder_new canon None None (Some v) = Ok t /\ o = Some t) \/ lacks (d_ked s) (s! "kt") /\ o = None) /\
  (serder_ntholder canon s = Ok o <->
     (exists v t, field_of (d_ked s) (s! "nt") v /\ tholder_new canon None None (Some v) = Ok t /\ o = Some t) \/ lacks (d_ked s) (s! "nt") /\ o = None).
Proof.
  intros (m & M). assert (forall k, threshold_at canon k s = Ok o <->
     (exists v t, field_of (d_ked s) k v /\ tholder_new canon None None (Some v) = Ok t /\ o = Some t) \/ lacks (d_ked s) k /\ o = None) as G; [|split; apply G].
  intros k. unfold threshold_at. rewrite M. cbn [to_map]. rewrite bind_Ok. destruct (contains_key k m) eqn:C.
  - apply contains_field in C as (x & F). pose proof F as F'. apply index_field in F'. rewrite F', bind_Ok. split.
    + intros H. apply bind_ok in H as (t & T & H). injection H as <-. left. eauto.
    + intros [(v & t & F2 & T & ->)|(N & _)]; [|now elim (N x)]. pose proof (field_unique _ _ _ _ F F2). subst v. now rewrite T.
  - assert (lacks (VObj m) k) as N by (intros x F; rewrite (proj2 (contains_field k m) (ex_intro _ x F)) in C; discriminate). split.
    + intros [= <-]. right. auto.
    + intros [(v & t & F & _)|(_ & ->)]; [now elim (N v)|reflexivity].
Qed.

Lemma index_panics v k : index_str v k = Panic <-> lacks v k.
Proof.
  split.
  - intros H x F. apply index_field in F. congruence.
  - intros N. destruct v; auto. cbn [index_str]. destruct (assoc k l) as [x|] eqn:A; auto. elim (N x). now apply field_assoc.
Qed.

(*# C102_first_seen
   The first-seen number of an event is the number whose primitive text (not hexadecimal digits) the field f holds; without the field it is a
   validation error, so that an event recording it in hexadecimal, as sequence numbers are, is not read.
##
Example C102_first_seen_case : exists s, serder_new (fun _ => None) None None None
    (Some (VObj [(s! "v", VStr (s! "KERI10JSON000000_")); (s! "d", VStr (s! "EAAAAAAAAAAAAAAAAAAAAAAAAAAAAAAAAAAAAAAAAAAA")); (s! "f", VStr (s! "MAAF"))])) None = Ok s /\
  serder_fn s = Ok 5 /\ is_err (serder_fn (Sd (s! "E") [] (VObj [(s! "f", VStr (s! "5"))]) [] [] 0 (Ver 1 0) (Mt [] 0 []))) = true.
Proof. eexists. split; [vm_compute; reflexivity|]. split; vm_compute; reflexivity. Qed.
#*)
Lemma C102_first_seen_l (s : sadder) (n : N) :
  (exists m, d_ked s = VObj m) ->
  (serder_fn s = Ok n <-> exists t m w, field_of (d_ked s) (s! "f") (VStr t) /\ exfil t = Ok m /\ In (m_code m, w) number_sizes /\ len (m_raw m) = w /\ be_val (m_raw m) = n) /\
  (lacks (d_ked s) (s! "f") -> serder_fner s = Ok None /\ serder_fn s = Err EValidation).
Proof.
  intros (m & M). unfold serder_fn, serder_fner. rewrite M. cbn [to_map]. rewrite bind_Ok. split.
  - assert (forall y, number_num y = Ok n <-> exists w, In (m_code y, w) number_sizes /\ len (m_raw y) = w /\ be_val (m_raw y) = n) as NN.
    { intros y. unfold number_num. split.
      - assert (forall w, (if len (m_raw y) =? w then Ok (be_val (m_raw y)) else Panic) = Ok n -> len (m_raw y) = w /\ be_val (m_raw y) = n) as K.
        { intros w. destruct (len (m_raw y) =? w) eqn:E; [|discriminate]. intros [= <-]. split; auto. lia. }
        destruct (beq (m_code y) (s! "M")) eqn:E1; [intros H; apply K in H; apply beq_eq in E1; exists 2; rewrite E1; split; auto; cbn; tauto|].
        destruct (beq (m_code y) (s! "0H")) eqn:E2; [intros H; apply K in H; apply beq_eq in E2; exists 4; rewrite E2; split; auto; cbn; tauto|].
        destruct (beq (m_code y) (s! "N")) eqn:E3; [intros H; apply K in H; apply beq_eq in E3; exists 8; rewrite E3; split; auto; cbn; tauto|].
        destruct (beq (m_code y) (s! "0A")) eqn:E4; [intros H; apply K in H; apply beq_eq in E4; exists 16; rewrite E4; split; auto; cbn; tauto|]. discriminate.
      - intros (w & I & L & V). cbn in I. destruct I as [I|[I|[I|[I|[]]]]]; apply pair_equal_spec in I as (I & <-); rewrite <- I; cbn [beq]; rewrite L, V; reflexivity. }
    destruct (contains_key (s! "f") m) eqn:C.
    + apply contains_field in C as (x & F). pose proof F as F'. apply index_field in F'. rewrite F', bind_Ok. split.
      * intros H. apply bind_ok in H as (o & H & N). apply bind_ok in H as (t & T & H). apply bind_ok in H as (y & Y & H). injection H as <-.
        destruct x; try discriminate. injection T as ->. unfold number_new in Y. cbn [is_none andb or_else] in Y. change (validate number_codes (s! "M")) with (@Ok unit tt) in Y. rewrite bind_Ok in Y.
        cbn [matter_new] in Y. apply NN in N as (w & A & B & D). exists t, y, w. auto.
      * intros (t & y & w & F2 & E & A & B & D). pose proof (field_unique _ _ _ _ F F2). subst x. cbn [to_string]. rewrite bind_Ok.
        unfold number_new. cbn [is_none andb or_else]. change (validate number_codes (s! "M")) with (@Ok unit tt). rewrite bind_Ok. cbn [matter_new]. rewrite E. cbn [bind]. apply NN. eauto.
    + split; [discriminate|]. intros (t & _ & _ & F & _). rewrite (proj2 (contains_field _ m) (ex_intro _ _ F)) in C. discriminate.
  - intros N. destruct (contains_key (s! "f") m) eqn:C; [|auto]. apply contains_field in C as (x & F). now elim (N x).
Qed.

(*# C102_credential_fields
   The issuer and the schema of a credential are the texts of its fields i and s, the subject is its field a, the status registry is the text of
   ri if present, and the chained credentials are the field e, or an empty map. A missing i, s or a panics; a field that should be text and
   is not is an error.
##
Example C102_credential_case : exists s, creder_new (fun _ => None) None None None
    (Some (VObj [(s! "v", VStr (s! "ACDC10JSON000000_")); (s! "d", VStr (s! "EAAAAAAAAAAAAAAAAAAAAAAAAAAAAAAAAAAAAAAAAAAA")); (s! "i", VStr (s! "me")); (s! "a", VInt 3)])) None = Ok s /\
  creder_issuer s = Ok (s! "me") /\ creder_schema s = Panic /\ creder_subject s = Ok (VInt 3) /\ creder_status s = Ok None /\ creder_chains s = Ok (VObj []).
Proof. eexists. split; [vm_compute; reflexivity|]. repeat split; vm_compute; reflexivity. Qed.
#*)
Lemma C102_credential_l (c : sadder) (t : bytes) (v : value) :
  (exists m, d_ked c = VObj m) ->
  (creder_issuer c = Ok t <-> field_of (d_ked c) (s! "i") (VStr t)) /\ (creder_issuer c = Panic <-> lacks (d_ked c) (s! "i")) /\
  (creder_schema c = Ok t <-> field_of (d_ked c) (s! "s") (VStr t)) /\ (creder_schema c = Panic <-> lacks (d_ked c) (s! "s")) /\
  (creder_subject c = Ok v <-> field_of (d_ked c) (s! "a") v) /\ (creder_subject c = Panic <-> lacks (d_ked c) (s! "a")) /\
  (creder_status c = Ok (Some t) <-> field_of (d_ked c) (s! "ri") (VStr t)) /\ (creder_status c = Ok None <-> lacks (d_ked c) (s! "ri")) /\
  (creder_chains c = Ok v <-> field_of (d_ked c) (s! "e") v \/ lacks (d_ked c) (s! "e") /\ v = VObj []).
Proof.
  intros (m & M). unfold creder_issuer, creder_schema, creder_subject, creder_status, creder_chains.
  assert (forall k, ((let* x := index_str (d_ked c) k in to_string x) = Ok t <-> field_of (d_ked c) k (VStr t)) /\
                    ((let* x := index_str (d_ked c) k in to_string x) = Panic <-> lacks (d_ked c) k)) as G.
  { intros k. split; split.
    - intros H. apply bind_ok in H as (x & X & H). apply index_field in X. destruct x; try discriminate. now injection H as ->.
    - intros F. apply index_field in F. now rewrite F.
    - intros H. apply index_panics. destruct (index_str (d_ked c) k) as [x|e|]; auto; [|discriminate]. destruct x; discriminate.
    - intros L. apply index_panics in L. now rewrite L. }
  assert (forall k, assoc k m = None <-> lacks (d_ked c) k) as N.
  { intros k. rewrite <- index_panics, M. cbn [index_str]. destruct (assoc k m); split; congruence. }
  assert (forall k x, assoc k m = Some x <-> field_of (d_ked c) k x) as F.
  { intros k x. rewrite <- index_field, M. cbn [index_str]. destruct (assoc k m); split; congruence. }
  split; [apply G|]. split; [apply G|]. split; [apply G|]. split; [apply G|]. split; [apply index_field|]. split; [apply index_panics|].
  rewrite M in *. cbn [to_map]. rewrite !bind_Ok. rewrite <- !N, <- !F. split; [|split].
  - destruct (assoc (s! "ri") m) as [x|]; split; try discriminate.
    + intros H. apply bind_ok in H as (y & Y & H). injection H as ->. destruct x; try discriminate. now injection Y as ->.
    + now intros [= ->].
  - destruct (assoc (s! "ri") m) as [x|]; split; try discriminate; auto. intros H. apply bind_ok in H as (y & Y & H). discriminate.
  - destruct (assoc (s! "e") m) as [x|]; split.
    + intros [= ->]. now left.
    + intros [[= ->]|(X & _)]; [reflexivity|discriminate].
    + intros [= <-]. now right.
    + intros [X|(_ & ->)]; [discriminate|reflexivity].
Qed.

(*# C102_said
   The SAID an event reports, if it can be printed, is a prefix of the text in its field d, and is that text whenever that text is as long as a
   SAID; the digest algorithm of the event is the SAID's. This holds for events built from data or read from a stream.
##
Example C102_said_case : exists s, serder_new (fun _ => None) None None None
    (Some (VObj [(s! "v", VStr (s! "KERI10JSON000000_")); (s! "d", VStr (s! "EAAAAAAAAAAAAAAAAAAAAAAAAAAAAAAAAAAAAAAAAAAA and more"))])) None = Ok s /\
  sad_said s = Ok (s! "EAAAAAAAAAAAAAAAAAAAAAAAAAAAAAAAAAAAAAAAAAAA").
Proof. eexists. split; [vm_compute; reflexivity|]. vm_compute; reflexivity. Qed.
#*)
Lemma C102_said_l (new : constructor) (canon : bytes -> option bytes) (code raw kind : option bytes) (ked : option value) (s : sadder) :
  In new constructors -> new canon code raw kind ked None = Ok s ->
  d_code s = m_code (d_saider s) /\
  exists q, field_of (d_ked s) (s! "d") (VStr q) /\ exfil q = Ok (d_saider s) /\ forall t, sad_said s = Ok t -> prefix t q /\ (len q = len t -> q = t).
Proof.
  intros I H.
  assert (exists code', sadder_new canon code' raw kind ked None = Ok s) as (c & H').
  { cbn in I. destruct I as [<-|[<-|[<-|[]]]]; [eauto| |]; unfold serder_new, creder_new in H; apply bind_ok in H as (s' & H & E); destruct (negb _); try discriminate; injection E as ->; eauto. }
  clear H I new. unfold sadder_new in H'.
  assert (forall q y, said_of_qb64 q = Ok y -> exfil q = Ok y) as Q.
  { intros q y E. unfold said_of_qb64, said_new in E. apply bind_ok in E as (y' & E & V). apply bind_ok in V as (u & _ & V). injection V as ->. exact E. }
  assert (forall q, exfil q = Ok (d_saider s) -> forall t, sad_said s = Ok t -> prefix t q /\ (len q = len t -> q = t)) as P.
  { intros q E t T. pose proof (C09_l _ _ _ E T) as X. split; auto. destruct X as (r & ->). intros L. rewrite len_app in L. assert (len r = 0) as L0 by lia. apply len_0_nil in L0. subst r. apply app_nil_r. }
  destruct raw as [raw|]; [|destruct ked as [ked|]; [|discriminate]].
  - unfold populate_from_raw in H'. apply bind_ok in H' as ((k & i) & _ & H). apply bind_ok in H as (own & _ & H). apply bind_ok in H as (d & D & H). apply bind_ok in H as (q & T & H).
    apply bind_ok in H as (y & Y & H). destruct (beq (or_else c (s! "E")) (m_code y)) eqn:E; cbn [negb] in H; [|discriminate]. injection H as <-. cbn [d_code d_saider d_ked] in *.
    apply beq_eq in E. split; auto. destruct d; try discriminate. injection T as ->. exists q. apply index_field in D. split; auto.
  - unfold populate_from_ked in H'. apply bind_ok in H' as (z & _ & H). apply bind_ok in H as (d & D & H). apply bind_ok in H as (q & T & H).
    apply bind_ok in H as (y & Y & H). destruct (beq (or_else c (s! "E")) (m_code y)) eqn:E; cbn [negb] in H; [|discriminate]. injection H as <-. cbn [d_code d_saider d_ked] in *.
    apply beq_eq in E. split; auto. destruct d; try discriminate. injection T as ->. exists q. apply index_field in D. split; auto.
Qed.
