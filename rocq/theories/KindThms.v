(** Proofs about the kinds of primitives and about constructors given several encodings (C40, C78). *)
From Coq Require Import String.
From Coq Require Import NArith ZArith List Bool Lia.
From Verif Require Import Base BaseFacts Tables Matter Indexer Counter Prims Json Saider Diger Prefixer Signer Pather
  Spec SpecPrims SpecSaider SpecPrefixer SpecSigner SpecKinds MatterFacts MatterMore MatterThms PrimsFacts PrimsThms SaiderFacts.
Import ListNotations.
Open Scope N_scope.

Lemma has_codes (c : bytes) a b : forallb (fun x => existsb (beq x) b) a = true -> In c a -> In c b.
Proof.
  intros H I. rewrite forallb_forall in H. specialize (H c I). apply existsb_exists in H as (x & X & E). apply beq_eq in E. now subst.
Qed.
Ltac codes := split; (apply has_codes; vm_compute; reflexivity).
Lemma keys_codes c : In c verfer_codes <-> In c keys. Proof. codes. Qed.
Lemma seeds_codes c : In c seed_codes <-> In c seeds. Proof. codes. Qed.
Lemma digest_codes c : In c diger_codes <-> In c digests. Proof. codes. Qed.
Lemma digest_said_codes c : In c said_codes <-> In c digests. Proof. codes. Qed.
Lemma signature_codes c : In c cigar_codes <-> In c signatures. Proof. codes. Qed.
Lemma indexed_codes c : In c siger_codes <-> In c indexed_signatures. Proof. codes. Qed.
Lemma numbers_codes c : In c number_codes <-> In c numbers. Proof. codes. Qed.
Lemma text_codes c : In c bexter_codes <-> In c base64_texts. Proof. codes. Qed.
Lemma prefixes_codes c : In c prefix_codes <-> In c prefixes. Proof. codes. Qed.

Lemma checked {A} (r : R A) codes (code : A -> bytes) (x : A) :
  (let* m := r in let* _u := validate codes (code m) in Ok m) = Ok x <-> r = Ok x /\ In (code x) codes.
Proof.
  split.
  - intros H. apply bind_ok in H as (m & -> & H). apply bind_ok in H as (u & V & H). injection H as <-. apply validate_ok in V as (V & _). auto.
  - intros (-> & V). rewrite bind_Ok. assert (validate codes (code x) = Ok tt) as -> by (apply validate_ok; auto). reflexivity.
Qed.
Lemma checked_with {A B} (r : R A) codes (code : A -> bytes) (b : B) (x : A) (y : B) :
  (let* m := r in let* _u := validate codes (code m) in Ok (m, b)) = Ok (x, y) <-> r = Ok x /\ In (code x) codes /\ y = b.
Proof.
  split.
  - intros H. apply bind_ok in H as (m & -> & H). apply bind_ok in H as (u & V & H). injection H as <- <-. apply validate_ok in V as (V & _). auto.
  - intros (-> & V & ->). rewrite bind_Ok. assert (validate codes (code x) = Ok tt) as -> by (apply validate_ok; auto). reflexivity.
Qed.
Lemma no_code c a b d : matter_new c None a b d = matter_new None None a b d.
Proof. reflexivity. Qed.
Lemma given_some a b d : first None a b d <> None -> is_none (@None bytes) && is_none a && is_none b && is_none d = false.
Proof. destruct a, b, d; cbn; congruence. Qed.

(*# C40_kinds_partial
   A primitive is parsed as a key, digest, signature, indexed signature, sequence number, date-time, base64 text, path or identifier exactly if it parses at all and its code is
   one of the kind, whatever encoding it comes in and whatever the other arguments are; as a seed, if moreover it has a public key. Full statement: as a number, salt or prefix,
   too; see the refuted statements below.
##
Example C40_case : exists m, verfer_new None None None (Some (s! "DAAAAAAAAAAAAAAAAAAAAAAAAAAAAAAAAAAAAAAAAAAA")) None = Ok m /\
  diger_new (fun _ _ => []) None None None None (Some (s! "DAAAAAAAAAAAAAAAAAAAAAAAAAAAAAAAAAAAAAAAAAAA")) None = Err EUnexpectedCode.
Proof. eexists. split; vm_compute; reflexivity. Qed.
#*)
Lemma C40_l (hash : bytes -> bytes -> bytes) (cr : crypto) (code qb64b qb64 qb2 : option bytes) (m : matter) :
  first None qb64b qb64 qb2 <> None ->
  let parsed := matter_new None None qb64b qb64 qb2 = Ok m in
  (verfer_new code None qb64b qb64 qb2 = Ok m <-> parsed /\ In (m_code m) keys) /\
  (diger_new hash None code None qb64b qb64 qb2 = Ok m <-> parsed /\ In (m_code m) digests) /\
  (forall key k, cigar_new key code None qb64b qb64 qb2 = Ok (m, k) <-> parsed /\ In (m_code m) signatures /\ k = match key with Some k => k | None => Mt (s! "D") 0 [] end) /\
  (forall key index ondex x k, siger_new key index ondex code None qb64b qb64 qb2 = Ok (x, k) <->
     indexer_new None None None None qb64b qb64 qb2 = Ok x /\ In (i_code x) indexed_signatures /\ k = match key with Some k => k | None => Mt (s! "D") 0 [] end) /\
  (forall sn snh, seqner_new sn snh code None qb64b qb64 qb2 = Ok m <-> parsed /\ In (m_code m) sequence_numbers) /\
  (forall now dts, dater_new now dts code None qb64b qb64 qb2 = Ok m <-> parsed /\ In (m_code m) date_times) /\
  (bexter_new None code None qb64b qb64 qb2 = Ok m <-> parsed /\ In (m_code m) base64_texts) /\
  (forall path, pather_new path None code None qb64b qb64 qb2 = Ok m <-> parsed /\ In (m_code m) base64_texts) /\
  (forall label kind ignore, said_new hash None label kind ignore code None qb64b qb64 qb2 = Ok m <-> parsed /\ In (m_code m) digests) /\
  (forall transferable g, signer_new cr transferable code None qb64b qb64 qb2 = Ok g -> matter_new None None qb64b qb64 qb2 = Ok (g_seed g) /\ In (m_code (g_seed g)) seeds).
Proof.
  intros G parsed. pose proof (given_some _ _ _ G) as GS. pose proof GS as GS'. change (is_none (@None bytes)) with (is_none (@None bytes) && is_none (@None bytes)) in GS'. unfold parsed. clear parsed.
  split; [unfold verfer_new; rewrite checked, no_code, keys_codes; tauto|].
  split.
  { rewrite <- digest_codes. unfold diger_new. rewrite no_code. destruct (matter_new None None qb64b qb64 qb2) as [d| |]; [|split; [discriminate|intros (X & _); discriminate X]|split; [discriminate|intros (X & _); discriminate X]].
    split.
    - intros H. apply bind_ok in H as (u & V & H). injection H as <-. apply validate_ok in V as (V & _). auto.
    - intros (E & V). injection E as ->. assert (validate diger_codes (m_code m) = Ok tt) as -> by (apply validate_ok; auto). reflexivity. }
  split; [intros key k; unfold cigar_new; rewrite checked_with, no_code, signature_codes; destruct key; tauto|].
  split; [intros key index ondex x k; unfold siger_new; rewrite checked_with, indexed_codes; destruct key; tauto|].
  split; [intros sn snh; unfold seqner_new; rewrite GS, bind_Ok, checked, no_code; tauto|].
  split; [intros now dts; unfold dater_new; rewrite GS, checked, no_code; tauto|].
  split; [unfold bexter_new; rewrite GS'; rewrite checked, no_code, text_codes; tauto|].
  split; [intros path; unfold pather_new; rewrite GS'; rewrite checked, no_code, text_codes; tauto|].
  split; [intros label kind ignore; unfold said_new; rewrite checked, no_code, digest_said_codes; tauto|].
  intros transferable g H. unfold signer_new in H. assert (is_none qb64b && is_none qb64 && is_none qb2 = false) as X by (rewrite <- GS; reflexivity). rewrite X in H.
  apply bind_ok in H as (d & D & H). apply bind_ok in H as (k & _ & H). injection H as <-. apply (proj1 (checked _ _ _ _)) in D as (D & I). rewrite <- seeds_codes. auto.
Qed.

Lemma fixed_code code raw m : In code (map fst fixed_codes) -> matter_of_code_raw code raw = Ok m -> m_code m = code.
Proof.
  intros H E. apply in_map_iff in H as ((c & n) & <- & H). apply fixed_known in H as (z & Hz & Ev & En). cbn [fst] in *.
  rewrite (construct_fixed c z raw Hz Ev) in E. destruct (_ <? _); [discriminate|]. injection E as <-. reflexivity.
Qed.
(*# C40_made_of_kind
   Whatever combination of arguments a key, digest, signature, indexed signature, sequence number, date-time, base64 text, path, identifier or seed is made from, its code is one
   of its kind.
##
Example C40_made_case : exists m, said_new (fun _ _ => zeros 32) (Some (VObj [(s! "d", VStr [])])) None None [] None None None None None = Ok m /\ In (m_code m) digests.
Proof. eexists. split; [vm_compute; reflexivity|]. vm_compute. tauto. Qed.
#*)
Lemma C40_made_l (hash : bytes -> bytes -> bytes) (cr : crypto) (code raw qb64b qb64 qb2 : option bytes) (m : matter) :
  (verfer_new code raw qb64b qb64 qb2 = Ok m -> In (m_code m) keys) /\
  (forall ser, diger_new hash ser code raw qb64b qb64 qb2 = Ok m -> In (m_code m) digests) /\
  (forall key k, cigar_new key code raw qb64b qb64 qb2 = Ok (m, k) -> In (m_code m) signatures) /\
  (forall key index ondex x k, siger_new key index ondex code raw qb64b qb64 qb2 = Ok (x, k) -> In (i_code x) indexed_signatures) /\
  (forall sn snh, seqner_new sn snh code raw qb64b qb64 qb2 = Ok m -> In (m_code m) sequence_numbers) /\
  (forall now dts, dater_new now dts code raw qb64b qb64 qb2 = Ok m -> In (m_code m) date_times) /\
  (forall bext, bexter_new bext code raw qb64b qb64 qb2 = Ok m -> In (m_code m) base64_texts) /\
  (forall path bext, pather_new path bext code raw qb64b qb64 qb2 = Ok m -> In (m_code m) base64_texts) /\
  (forall sad label kind ignore, said_new hash sad label kind ignore code raw qb64b qb64 qb2 = Ok m -> In (m_code m) digests) /\
  (forall transferable g, signer_new cr transferable code raw qb64b qb64 qb2 = Ok g -> In (m_code (g_seed g)) seeds /\ In (m_code (g_verfer g)) keys).
Proof.
  split; [intros H; apply (proj1 (checked _ _ _ _)) in H as (_ & H); now rewrite <- keys_codes|].
  split.
  { intros ser H. rewrite <- digest_codes. unfold diger_new in H. destruct (matter_new code raw qb64b qb64 qb2) as [d| |]; [| |discriminate H].
    - apply bind_ok in H as (u & V & H). injection H as <-. now apply validate_ok in V as (V & _).
    - destruct ser as [ser|]; [|discriminate H]. apply bind_ok in H as (u & V & H). apply bind_ok in H as (dg & _ & H).
      apply validate_ok in V as (V & _). assert (In (or_else code (s! "E")) said_codes) as V' by (now rewrite digest_said_codes, <- digest_codes).
      apply has_code_In in V'. cbn [matter_new] in H. now rewrite (digest_matter _ _ _ V' H). }
  split; [intros key k H; apply (proj1 (checked_with _ _ _ _ _ _)) in H as (_ & H & _); now rewrite <- signature_codes|].
  split; [intros key index ondex x k H; apply (proj1 (checked_with _ _ _ _ _ _)) in H as (_ & H & _); now rewrite <- indexed_codes|].
  split; [intros sn snh H; unfold seqner_new in H; apply bind_ok in H as (r & _ & H); now apply (proj1 (checked _ _ _ _)) in H as (_ & H)|].
  split; [intros now dts H; now apply (proj1 (checked _ _ _ _)) in H as (_ & H)|].
  split; [intros bext H; apply (proj1 (checked _ _ _ _)) in H as (_ & H); now rewrite <- text_codes|].
  split; [intros path bext H; apply (proj1 (checked _ _ _ _)) in H as (_ & H); now rewrite <- text_codes|].
  split.
  { intros sad label kind ignore H. rewrite <- digest_said_codes. assert (forall c r, In c said_codes -> matter_new (Some c) (Some r) None None None = Ok m -> In (m_code m) said_codes) as K.
    { intros c r I E. apply has_code_In in I as I'. now rewrite (digest_matter _ _ _ I' E). }
    assert (forall sad' (o : option bytes), (let* x := (let* map := to_map sad' in if negb (contains_key (or_else label (s! "d")) map) then Err EValue else
      let* c := match o with Some c => Ok c | None => let* x := index_str sad' (or_else label (s! "d")) in match to_string x with Ok [] => Ok (s! "E") | Ok s => let* m := matter_new None None None (Some s) None in Ok (m_code m) | Err _ => Err EValidation | Panic => Panic end end in
      let* _u := validate said_codes c in let* d := said_derive hash sad' (Some c) kind (Some (or_else label (s! "d"))) ignore in Ok (c, fst d)) in
      matter_new (Some (fst x)) (Some (snd x)) None None None) = Ok m -> In (m_code m) said_codes) as KS.
    { intros sad' o E. apply bind_ok in E as (x & X & E). apply bind_ok in X as (mp & _ & X). destruct (negb _); [discriminate X|]. apply bind_ok in X as (c & _ & X). apply bind_ok in X as (u & V & X). apply bind_ok in X as (dd & _ & X).
      apply validate_ok in V as (V & _). injection X as <-. exact (K _ _ V E). }
    unfold said_new in H. destruct raw as [r|].
    - destruct code as [c|].
      + apply bind_ok in H as (x & X & H). apply bind_ok in X as (u & V & X). apply validate_ok in V as (V & _). injection X as <-. exact (K _ _ V H).
      + destruct sad as [sad|]; [|discriminate H]. exact (KS sad None H).
    - destruct sad as [sad|]; [|now apply (proj1 (checked _ _ _ _)) in H as (_ & H)].
      destruct code as [c|]; [exact (KS sad (Some c) H)|exact (KS sad None H)]. }
  intros transferable g H. unfold signer_new in H. apply bind_ok in H as (d & D & H). apply bind_ok in H as (k & K & H). injection H as <-. cbn [g_seed g_verfer]. split.
  - rewrite <- seeds_codes. destruct (is_none qb64b && is_none qb64 && is_none qb2); [|now apply (proj1 (checked _ _ _ _)) in D as (_ & D)].
    apply bind_ok in D as (u & V & D). apply bind_ok in D as (r & _ & D). apply validate_ok in V as (V & _).
    cbn [matter_new] in D. rewrite (fixed_code _ _ _ (has_codes _ seed_codes (map fst fixed_codes) eq_refl V) D). exact V.
  - unfold derive_verfer in K. apply bind_ok in K as (c & _ & K). apply bind_ok in K as (r & _ & K). apply (proj1 (checked _ _ _ _)) in K as (_ & K). now rewrite <- keys_codes.
Qed.

Lemma ok_inv {A} (r : R A) : is_ok r = true -> exists x, r = Ok x.
Proof. destruct r; try discriminate. eauto. Qed.
(*# C40_one_kind
   No text is accepted as more than one of key, digest, signature, sequence number, date-time, base64 text and seed.
##
Example C40_one_case : is_ok (seqner_new None None None None None (Some (s! "0AAAAAAAAAAAAAAAAAAAAAAB")) None) = true /\ is_ok (salter_new [] None None None None (Some (s! "0AAAAAAAAAAAAAAAAAAAAAAB")) None) = true.
Proof. split; vm_compute; reflexivity. Qed.
#*)
Lemma C40_one_l (hash : bytes -> bytes -> bytes) (cr : crypto) (t : bytes) (i j : nat) :
  let accepted := [ is_ok (verfer_new None None None (Some t) None); is_ok (diger_new hash None None None None (Some t) None); is_ok (cigar_new None None None None (Some t) None);
    is_ok (seqner_new None None None None None (Some t) None); is_ok (dater_new [] None None None None (Some t) None); is_ok (bexter_new None None None None (Some t) None);
    is_ok (signer_new cr None None None None (Some t) None) ] in
  nth i accepted false = true -> nth j accepted false = true -> i = j.
Proof.
  intros accepted. 
  set (lists := [keys; digests; signatures; sequence_numbers; date_times; base64_texts; seeds]).
  assert (forall n, nth n accepted false = true -> exists m, matter_new None None None (Some t) None = Ok m /\ In (m_code m) (nth n lists [])) as K.
  { intros n H. pose proof (fun m => C40_l hash cr None None (Some t) None m ltac:(discriminate)) as L. cbv zeta in L.
    unfold accepted, lists in *. clear accepted lists. destruct n as [|[|[|[|[|[|[|n]]]]]]]; cbn [nth] in *; try apply ok_inv in H as (x & H).
    - exists x. destruct (L x) as (A1 & A2 & A3 & _ & A5 & A6 & A7 & _ & _ & A10). apply A1 in H. exact H.
    - exists x. destruct (L x) as (A1 & A2 & A3 & _ & A5 & A6 & A7 & _ & _ & A10). apply A2 in H. exact H.
    - destruct x as (x & k). exists x. destruct (L x) as (A1 & A2 & A3 & _ & A5 & A6 & A7 & _ & _ & A10). apply A3 in H. tauto.
    - exists x. destruct (L x) as (A1 & A2 & A3 & _ & A5 & A6 & A7 & _ & _ & A10). apply A5 in H. exact H.
    - exists x. destruct (L x) as (A1 & A2 & A3 & _ & A5 & A6 & A7 & _ & _ & A10). apply A6 in H. exact H.
    - exists x. destruct (L x) as (A1 & A2 & A3 & _ & A5 & A6 & A7 & _ & _ & A10). apply A7 in H. exact H.
    - exists (g_seed x). destruct (L (g_seed x)) as (A1 & A2 & A3 & _ & A5 & A6 & A7 & _ & _ & A10). exact (A10 _ _ H).
    - destruct n; discriminate H. }
  intros A B. apply K in A as (m & M & A). apply K in B as (m' & M' & B). rewrite M in M'. injection M' as <-. clear K M accepted.
  assert (forall a b, (a < b)%nat -> In (m_code m) (nth a lists []) -> In (m_code m) (nth b lists []) -> False) as W.
  { clear. intros a b L A B. assert (forallb (fun p => forallb (fun c => negb (existsb (beq c) (nth (snd p) lists []))) (nth (fst p) lists []))
      (flat_map (fun x => map (fun y => (x, y)) (seq (S x) 7)) (seq 0 7)) = true) as Q by (vm_compute; reflexivity).
    assert (b < 7 \/ 7 <= b)%nat as [B7|B7] by lia; [|rewrite (nth_overflow lists) in B by exact B7; contradiction B].
    rewrite forallb_forall in Q. specialize (Q (a, b)). assert (In (a, b) (flat_map (fun x => map (fun y => (x, y)) (seq (S x) 7)) (seq 0 7))) as I.
    { apply in_flat_map. exists a. split; [apply in_seq; lia|]. apply in_map_iff. exists b. split; auto. apply in_seq. lia. }
    apply Q in I. cbn [fst snd] in I. rewrite forallb_forall in I. apply I in A. apply negb_true_iff in A. apply not_true_iff_false in A. apply A. apply existsb_exists. exists (m_code m). split; auto. apply beq_refl. }
  destruct (Nat.lt_trichotomy i j) as [L|[L|L]]; auto; exfalso; eauto.
Qed.

(*# C40_unchecked_refuted
   False as stated for numbers, salts and prefixes: the text of a verification key is accepted as a number and as a salt, and the text of a signature as a prefix.
#*)
Lemma C40_no_l : exists key sig m m' p, In (m_code m) keys /\ In (m_code p) signatures /\ number_new None None None None None (Some key) None = Ok m /\
  salter_new [] None None None None (Some key) None = Ok (m', s! "low") /\ m' = m /\ prefixer_new (fun _ _ => []) None None None None None (Some sig) None = Ok p.
Proof.
  exists (s! "DAAAAAAAAAAAAAAAAAAAAAAAAAAAAAAAAAAAAAAAAAAA"), (s! "0B" ++ repeat x41 86). eexists. eexists. eexists.
  split; [|split]; cycle 2. split; [vm_compute; reflexivity|]. split; [vm_compute; reflexivity|]. split; [reflexivity|vm_compute; reflexivity]. all: vm_compute; tauto.
Qed.

Lemma validate_iff codes c : validate codes c = Ok tt <-> In c codes.
Proof. rewrite validate_ok. tauto. Qed.
Lemma guarded {A} codes c (r : R A) x : (let* _u := validate codes c in r) = Ok x <-> In c codes /\ r = Ok x.
Proof.
  split.
  - intros H. apply bind_ok in H as (u & V & H). apply validate_ok in V as (V & _). auto.
  - intros (V & ->). apply validate_iff in V. rewrite V. reflexivity.
Qed.
(*# C40_unchecked_partial
   As a number, salt or prefix, anything is accepted that parses, if the code passed besides (if any) is one of the kind. A number of another kind has no value, and a prefix of
   another kind verifies no event. Full statement: only if its code is one of the kind; see C40_unchecked_refuted.
##
Example C40_unchecked_case : exists m, number_new None None (Some (s! "0H")) None None (Some (s! "MAAB")) None = Ok m /\ number_num m = Ok 1 /\
  number_new None None (Some (s! "D")) None None (Some (s! "MAAB")) None = Err EUnexpectedCode.
Proof. eexists. split; [vm_compute; reflexivity|]. split; vm_compute; reflexivity. Qed.
#*)
Lemma C40_unchecked_l (hash : bytes -> bytes -> bytes) (code qb64b qb64 qb2 : option bytes) (m : matter) :
  first None qb64b qb64 qb2 <> None ->
  let parsed := matter_new None None qb64b qb64 qb2 = Ok m in
  let of_kind kind := forall c, code = Some c -> In c kind in
  (forall num numh, number_new num numh code None qb64b qb64 qb2 = Ok m <-> parsed /\ of_kind numbers) /\
  (forall random tier t, salter_new random tier code None qb64b qb64 qb2 = Ok (m, t) <-> parsed /\ of_kind salts /\ t = match tier with Some t => t | None => s! "low" end) /\
  (forall ked allows, prefixer_new hash ked allows code None qb64b qb64 qb2 = Ok m <-> parsed /\ of_kind prefixes) /\
  (~ In (m_code m) numbers -> is_err (number_num m) = true) /\
  (~ In (m_code m) prefixes -> forall ked prefixed b, prefixer_verify hash m ked prefixed <> Ok b).
Proof.
  intros G parsed of_kind. unfold parsed, of_kind. clear parsed of_kind. pose proof (given_some _ _ _ G) as GS.
  assert (forall kind d, In d kind -> (In (or_else code d) kind <-> forall c, code = Some c -> In c kind)) as K.
  { intros kind d D. destruct code as [c|]; cbn [or_else]; split; auto; intros X; [intros c' E; injection E as <-; auto|congruence]. }
  split.
  { intros num numh. unfold number_new. rewrite GS, guarded, no_code, (K number_codes) by (vm_compute; tauto). setoid_rewrite numbers_codes. tauto. }
  split.
  { intros random tier t. unfold salter_new. rewrite GS, guarded, no_code, (K [s! "0A"]) by (vm_compute; tauto). destruct (matter_new None None qb64b qb64 qb2) as [d| |]; cbn [bind]; [|split; [intros (_ & X); discriminate|intros (X & _); discriminate]|split; [intros (_ & X); discriminate|intros (X & _); discriminate]].
    split.
    - intros (A & B). injection B as <- <-. destruct tier; auto.
    - intros (A & B & ->). injection A as ->. split; [exact B|]. destruct tier; reflexivity. }
  split.
  { intros ked allows. assert (prefixer_new hash ked allows code None qb64b qb64 qb2 = let* _u := validate prefix_codes (or_else code (s! "B")) in matter_new code None qb64b qb64 qb2) as ->.
    { unfold prefixer_new. destruct qb64b, qb64, qb2; try reflexivity. exfalso. now apply G. }
    rewrite guarded, no_code, (K prefix_codes) by (vm_compute; tauto). setoid_rewrite prefixes_codes. tauto. }
  split.
  - intros NI. unfold number_num. assert (forall c, In c numbers -> beq (m_code m) c = false) as B by (intros c I; apply not_true_iff_false; intros X; apply beq_eq in X; subst; contradiction).
    rewrite !B by (vm_compute; tauto). reflexivity.
  - intros NI ked prefixed b H. unfold prefixer_verify in H. apply bind_ok in H as (t & _ & H). apply bind_ok in H as (ilk & _ & H). destruct (negb _); [discriminate H|].
    assert (forall l, forallb (fun x => existsb (beq x) prefixes) l = true -> has_code l (m_code m) = false) as B.
    { intros l F. apply not_true_iff_false. intros X. apply has_code_In in X. apply NI. eapply has_codes; eauto. }
    rewrite !B in H by (vm_compute; reflexivity). discriminate H.
Qed.

(** ** Several encodings at once *)
(*# C78_precedence
   Given several encodings, the constructors of primitives, indexed signatures and counters give what they give for the first alone, in the order raw material, text bytes, text,
   binary (for counters: code, text bytes, text, binary), and an error if there is none.
##
Example C78_case : exists m, matter_new None None (Some (s! "MAAB")) (Some (s! "MAAC")) (Some (s! "xyz")) = Ok m /\ infil m = Ok (s! "MAAB") /\
  is_err (matter_new None None (Some (s! "MAA")) (Some (s! "MAAC")) None) = true.
Proof. eexists. split; [vm_compute; reflexivity|]. split; vm_compute; reflexivity. Qed.
#*)
Lemma C78_l (code : option bytes) (index ondex count : option N) (count_b64 : option bytes) :
  by_first (matter_new code) /\ by_first (indexer_new index ondex code) /\
  (forall qb64b qb64 qb2 e, first None qb64b qb64 qb2 = Some e -> counter_new count count_b64 None qb64b qb64 qb2 = with_only (fun _ => counter_new count count_b64 None) e) /\
  (forall c qb64b qb64 qb2, counter_new count count_b64 (Some c) qb64b qb64 qb2 = counter_new count count_b64 (Some c) None None None) /\
  is_err (matter_new code None None None None) = true /\ is_err (indexer_new index ondex code None None None None) = true /\ is_err (counter_new count count_b64 None None None None) = true.
Proof.
  repeat split.
  - intros [?|] [?|] [?|] [?|] e E; cbn in E; try discriminate E; injection E as <-; reflexivity.
  - intros [?|] [?|] [?|] [?|] e E; cbn in E; try discriminate E; injection E as <-; reflexivity.
  - intros [?|] [?|] [?|] e E; cbn in E; try discriminate E; injection E as <-; reflexivity.
Qed.

(*# C78_kinds
   The same holds of keys, digests, signatures, numbers, sequence numbers, date-times, base64 texts, paths, salts, prefixes and identifiers, whatever defaults are passed besides; a base64
   text passed besides (for base64 texts and paths) or data (for identifiers) come first.
##
Example C78_kinds_case : exists m, number_new (Some 7) None None None (Some (s! "MAAB")) None None = Ok m /\ number_num m = Ok 1.
Proof. eexists. split; vm_compute; reflexivity. Qed.
#*)
Lemma C78_kinds_l (hash : bytes -> bytes -> bytes) (code : option bytes) :
  by_first (verfer_new code) /\ (forall ser, by_first (diger_new hash ser code)) /\ (forall key, by_first (cigar_new key code)) /\
  (forall key index ondex, by_first (siger_new key index ondex code)) /\ (forall num numh, by_first (number_new num numh code)) /\
  (forall sn snh, by_first (seqner_new sn snh code)) /\ (forall now dts, by_first (dater_new now dts code)) /\ by_first (bexter_new None code) /\
  (forall path, by_first (pather_new path None code)) /\ (forall random tier, by_first (salter_new random tier code)) /\
  (forall ked allows, by_first (prefixer_new hash ked allows code)) /\ (forall label kind ignore, by_first (said_new hash None label kind ignore code)) /\
  (forall b raw qb64b qb64 qb2, bexter_new (Some b) code raw qb64b qb64 qb2 = bexter_new (Some b) code None None None None) /\
  (forall path b raw qb64b qb64 qb2, pather_new path (Some b) code raw qb64b qb64 qb2 = pather_new None (Some b) code None None None None) /\
  (forall sad label kind ignore raw qb64b qb64 qb2, said_new hash (Some sad) label kind ignore code raw qb64b qb64 qb2 =
     if match code, raw with Some _, Some _ => true | _, _ => false end then said_new hash None label kind ignore code raw None None None
     else said_new hash (Some sad) label kind ignore code None None None None).
Proof.
  repeat match goal with |- _ /\ _ => split end;
    try (intros; intros [?|] [?|] [?|] [?|] e E; cbn in E; try discriminate E; injection E as <-; reflexivity).
  - intros b [?|] [?|] [?|] [?|]; reflexivity.
  - intros path b [?|] [?|] [?|] [?|]; reflexivity.
  - intros. destruct code, raw; reflexivity.
Qed.

(*# C78_no_encoding
   Without any encoding: an error for keys, signatures, indexed signatures, and, if nothing else is given to make them from, digests, base64 texts, paths, prefixes and identifiers.
   A number is then the one passed, in hexadecimal or not, or zero; so is a sequence number; a date-time is the one passed or the present; a salt is drawn.
##
Example C78_none_case : exists m, number_new None None None None None None None = Ok m /\ number_num m = Ok 0.
Proof. eexists. split; vm_compute; reflexivity. Qed.
#*)
Lemma C78_none_l (hash : bytes -> bytes -> bytes) (code : option bytes) :
  is_err (verfer_new code None None None None) = true /\ is_err (diger_new hash None code None None None None) = true /\
  (forall key, is_err (cigar_new key code None None None None) = true) /\ (forall key index ondex, is_err (siger_new key index ondex code None None None None) = true) /\
  is_err (bexter_new None code None None None None) = true /\ is_err (pather_new None None code None None None None) = true /\
  (forall allows, is_err (prefixer_new hash None allows code None None None None) = true) /\ (forall label kind ignore, is_err (said_new hash None label kind ignore code None None None None) = true) /\
  (forall n numh, number_new (Some n) numh code None None None None = number_new (Some n) None None None None None None) /\
  (forall h n, hex_reading h n -> n < 2 ^ 128 -> number_new None (Some h) code None None None None = number_new (Some n) None None None None None None) /\
  number_new None None code None None None None = number_new (Some 0) None None None None None None /\
  (forall n snh, seqner_new (Some n) snh code None None None None = seqner_new (Some n) None code None None None None) /\
  seqner_new None None code None None None None = seqner_new (Some 0) None code None None None None /\
  (forall now, dater_new now None code None None None None = dater_new now (Some now) code None None None None) /\
  (forall random tier, salter_new random tier code None None None None = salter_new random tier code (Some random) None None None).
Proof.
  repeat match goal with |- _ /\ _ => split end; try reflexivity; intros; try reflexivity.
  - destruct h as [|c h]; [destruct H as (sg & d & E & S & D & _); destruct sg, d; try discriminate E; now contradiction D|].
    unfold number_new. cbn [is_none andb]. assert (u128_from_hex (c :: h) = Ok n) as -> by (apply u128_hex_iff; auto). reflexivity.
Qed.

(*# C78_signer_refuted
   False as stated for seeds: raw material and a text without a code are an error, although the raw material alone is a seed of the default code.
#*)
Lemma C78_no_l : exists raw text g, signer_new toy None None (Some raw) None None None = Ok g /\ signer_new toy None None (Some raw) None (Some text) None = Err EEmptyMaterial.
Proof. exists (repeat x07 32), (s! "AAAAAAAAAAAAAAAAAAAAAAAAAAAAAAAAAAAAAAAAAAAA"). eexists. split; vm_compute; reflexivity. Qed.

Lemma seed_of_code c raw m : matter_of_code_raw c raw = Ok m -> In (m_code m) seed_codes -> c = m_code m.
Proof.
  destruct c as [|b c]; [discriminate|]. unfold matter_of_code_raw. intros H I. apply bind_ok in H as (((c' & size) & rize) & T & H).
  destruct (len raw <? rize); [discriminate H|]. apply bind_ok in H as (r & _ & H). injection H as <-. cbn [m_code] in *.
  destruct (is_small_vrz b || is_large_vrz b); [|apply bind_ok in T as (z & _ & T); congruence].
  exfalso. assert (forall ls, ls < 3 -> forall l x, In l seed_codes -> l = small_vrz ls :: x \/ l = large_vrz ls :: x -> False) as K.
  { intros ls L l x J E. assert (ls = 0 \/ ls = 1 \/ ls = 2) as [->|[->| ->]] by lia; destruct J as [<-|[<-|[<-|[]]]]; destruct E as [E|E]; discriminate E. }
  specialize (K ((3 - as_u32 (len raw) mod 3) mod 3) ltac:(apply N.mod_lt; discriminate) c').
  revert T. set (ls := (3 - as_u32 (len raw) mod 3) mod 3) in *. clearbody ls. intros T. cbv zeta in T. destruct (is_small_vrz b).
  - destruct (_ <? 4096); [apply bind_ok in T as (x & _ & T); assert (c' = small_vrz ls :: x) by congruence; eauto|].
    destruct (_ <? 16777216); [|discriminate T]. apply bind_ok in T as (x & _ & T). assert (c' = large_vrz ls :: x41 :: x41 :: x) by congruence. eauto.
  - destruct (_ <? 16777216); [|discriminate T]. apply bind_ok in T as (x & _ & T). assert (c' = large_vrz ls :: x) by congruence. eauto.
Qed.
(*# C78_signer_partial
   With a code, or without raw material, the seed is the one of the first encoding; without any encoding it is drawn. Full statement: without a code, too; see C78_signer_refuted.
##
Example C78_signer_case : exists g, signer_new toy None (Some (s! "J")) (Some (repeat x07 32)) None (Some (s! "AAAAAAAAAAAAAAAAAAAAAAAAAAAAAAAAAAAAAAAAAAAA")) None = Ok g /\ m_code (g_seed g) = s! "J" /\ m_raw (g_seed g) = repeat x07 32.
Proof. eexists. split; [vm_compute; reflexivity|]. split; vm_compute; reflexivity. Qed.
#*)
Lemma C78_signer_l (cr : crypto) (transferable : option bool) (code raw qb64b qb64 qb2 : option bytes) (e : encoding) (g : signer) :
  first raw qb64b qb64 qb2 = Some e -> code <> None \/ raw = None ->
  (signer_new cr transferable code raw qb64b qb64 qb2 = Ok g <-> with_only (signer_new cr transferable code) e = Ok g) /\
  (forall c s d b sg, In (c, (s, d, b, sg)) seed_table -> signer_new cr transferable (Some c) None None None None = signer_new cr transferable (Some c) (Some (cr_random cr s)) None None None) /\
  signer_new cr transferable None None None None None = signer_new cr transferable (Some (s! "A")) (Some (cr_random cr Ed25519)) None None None.
Proof.
  intros F D. split; [|split].
  - destruct raw as [r|].
    + destruct D as [D|D]; [|discriminate D]. destruct code as [c|]; [|now contradiction D]. injection F as <-. unfold with_only.
      destruct (is_none qb64b && is_none qb64 && is_none qb2) eqn:Q; [unfold signer_new; rewrite Q; reflexivity|].
      unfold signer_new. rewrite Q. cbn [is_none andb or_else].
      assert (forall (k : matter -> R signer), (let* m := (let* m := matter_new (Some c) (Some r) qb64b qb64 qb2 in let* _u := validate seed_codes (m_code m) in Ok m) in k m) = Ok g <->
        (let* m := (let* _u := validate seed_codes c in let* raw := Ok r in matter_new (Some c) (Some raw) None None None) in k m) = Ok g) as K; [|apply K].
      intros k. rewrite bind_Ok. cbn [matter_new]. split; intros H; apply bind_ok in H as (m & M & H).
      * apply (proj1 (checked _ _ _ _)) in M as (M & I). assert (c = m_code m) as E by (eapply seed_of_code; eauto). rewrite <- E in I. apply validate_iff in I. rewrite I, bind_Ok, M, bind_Ok. exact H.
      * apply (proj1 (guarded _ _ _ _)) in M as (I & M). rewrite M, bind_Ok. assert (m_code m = c) as E by (eapply fixed_code; eauto; apply (has_codes _ seed_codes); auto). rewrite E. apply validate_iff in I. rewrite I, bind_Ok, bind_Ok. exact H.
    + destruct qb64b, qb64, qb2; try discriminate F; injection F as <-; reflexivity.
  - intros c s d b sg I. cbn in I. destruct I as [I|[I|[I|[]]]]; injection I as <- <- <- <- <-; reflexivity.
  - reflexivity.
Qed.
