(** Proofs of the properties of numbers, sequence numbers, date-times and base64 text. *)
From Coq Require Import String.
From Coq Require Import NArith ZArith Bool List Lia ZifyBool ZifyNat ZifyN.
From Verif Require Import Base BaseFacts B64 B64Facts Util UtilFacts Tables Matter MatterFacts MatterBin MatterText MatterMore Indexer Prims Spec MatterThms
  SpecPrims PrimsFacts.
Import ListNotations.
Open Scope N_scope.
Ltac Zify.zify_post_hook ::= Z.div_mod_to_equations.

Lemma Ok_inj {A} (a b : A) : Ok a = Ok b -> a = b. Proof. congruence. Qed.
Ltac in_list := vm_compute; tauto.

Lemma number_new_spec n : n <= u128_max -> exists code w, In (code, w) number_sizes /\ In (code, w) fixed_codes /\ n < 256 ^ w /\
  (forall c' w', In (c', w') number_sizes -> n < 256 ^ w' -> w <= w') /\
  number_new (Some n) None None None None None None = Ok (Mt code 0 (be_bytes (N.to_nat w) n)) /\ wf_matter (Mt code 0 (be_bytes (N.to_nat w) n)) /\
  (forall raw, number_num (Mt code 0 raw) = if len raw =? w then Ok (be_val raw) else Panic).
Proof.
  intros H. unfold u128_max in H. unfold number_new. cbn [is_none andb]. rewrite bind_Ok. cbv zeta. cbn [matter_new].
  change (256 ^ 2) with 65536. 
  assert (forall w', w' <= 16 -> 256 ^ w' <= 256 ^ 16) as _ by (intros; apply N.pow_le_mono_r; lia).
  destruct (n <? 65536) eqn:E1; [|destruct (n <? 4294967296) eqn:E2; [|destruct (n <? 18446744073709551616) eqn:E3]].
  - exists (s! "M"), 2. destruct (fixed_built (s! "M") 2 (be_bytes 2 n)) as (A & B); [in_list|now rewrite len_be_bytes|].
    split; [in_list|]. split; [in_list|]. split; [change (256 ^ 2) with 65536; lia|]. split.
    { intros c' w' Hin _. repeat (destruct Hin as [Hin|Hin]; [inversion Hin; subst; lia|]). destruct Hin. }
    split; [exact A|]. split; [exact B|]. reflexivity.
  - exists (s! "0H"), 4. destruct (fixed_built (s! "0H") 4 (be_bytes 4 n)) as (A & B); [in_list|now rewrite len_be_bytes|].
    split; [in_list|]. split; [in_list|]. split; [change (256 ^ 4) with 4294967296; lia|]. split.
    { intros c' w' Hin Hl. repeat (destruct Hin as [Hin|Hin]; [inversion Hin; subst; try lia; exfalso; change (256 ^ 2) with 65536 in Hl; lia|]). destruct Hin. }
    split; [exact A|]. split; [exact B|]. reflexivity.
  - exists (s! "N"), 8. destruct (fixed_built (s! "N") 8 (be_bytes 8 n)) as (A & B); [in_list|now rewrite len_be_bytes|].
    split; [in_list|]. split; [in_list|]. split; [change (256 ^ 8) with 18446744073709551616; lia|]. split.
    { intros c' w' Hin Hl. repeat (destruct Hin as [Hin|Hin]; [inversion Hin; subst; try lia; exfalso;
        change (256 ^ 2) with 65536 in Hl; change (256 ^ 4) with 4294967296 in Hl; lia|]). destruct Hin. }
    split; [exact A|]. split; [exact B|]. reflexivity.
  - exists (s! "0A"), 16. destruct (fixed_built (s! "0A") 16 (be_bytes 16 n)) as (A & B); [in_list|now rewrite len_be_bytes|].
    split; [in_list|]. split; [in_list|]. split; [change (256 ^ 16) with 340282366920938463463374607431768211456; lia|]. split.
    { intros c' w' Hin Hl. repeat (destruct Hin as [Hin|Hin]; [inversion Hin; subst; try lia; exfalso;
        change (256 ^ 2) with 65536 in Hl; change (256 ^ 4) with 4294967296 in Hl; change (256 ^ 8) with 18446744073709551616 in Hl; lia|]). destruct Hin. }
    split; [exact A|]. split; [exact B|]. reflexivity.
Qed.

Lemma number_parse qb64b qb64 qb2 : is_none qb64b && is_none qb64 && is_none qb2 = false ->
  number_new None None None None qb64b qb64 qb2 = matter_new (Some (s! "M")) None qb64b qb64 qb2.
Proof. intros H. unfold number_new. cbn [is_none andb]. rewrite H. reflexivity. Qed.

(*# C34_number_round_trip_minimal
   Every integer below 2^128 can be made into a number; it reads back, also after printing and parsing in each of the forms; the code is the smallest
   of the four sizes that fits.
##
Example C34_case : exists m, number_new (Some 65536) None None None None None None = Ok m /\ infil m = Ok (s! "0HAAAQAA") /\ m_code m = s! "0H".
Proof. exists (Mt (s! "0H") 0 [x00; x01; x00; x00]). repeat split; (vm_compute; reflexivity). Qed.
#*)
Lemma C34_l (n : N) : n < 2 ^ 128 ->
  exists m t b, number_new (Some n) None None None None None None = Ok m /\ number_num m = Ok n /\ number_positive m = Ok (0 <? n) /\
    infil m = Ok t /\ binfil m = Ok b /\
    number_new None None None None None (Some t) None = Ok m /\
    number_new None None None None (Some t) None None = Ok m /\
    number_new None None None None None None (Some b) = Ok m /\
    exists w, In (m_code m, w) number_sizes /\ n < 256 ^ w /\ forall c' w', In (c', w') number_sizes -> n < 256 ^ w' -> w <= w'.
Proof.
  intros H. destruct (number_new_spec n) as (code & w & H1 & H2 & H3 & H4 & H5 & H6 & H7).
  { unfold u128_max. change (2 ^ 128) with 340282366920938463463374607431768211456 in H. lia. }
  destruct (wf_round _ H6) as (t & b & I & B & T1 & T2 & T3). eexists; exists t, b. split; [exact H5|].
  assert (number_num (Mt code 0 (be_bytes (N.to_nat w) n)) = Ok n) as Hn.
  { rewrite H7, len_be_bytes, N2Nat.id, N.eqb_refl, be_val_be_bytes; auto. now rewrite N2Nat.id. }
  split; auto. split. { unfold number_positive. now rewrite Hn. }
  rewrite !number_parse by reflexivity. cbn [matter_new]. repeat (split; [now auto|]). exists w. auto.
Qed.

Lemma seqner_new_spec n : n <= u128_max -> seqner_new (Some n) None None None None None None = Ok (Mt (s! "0A") 0 (be_bytes 16 n)) /\
  wf_matter (Mt (s! "0A") 0 (be_bytes 16 n)) /\ seqner_sn (Mt (s! "0A") 0 (be_bytes 16 n)) = Ok n.
Proof.
  intros H. destruct (fixed_built (s! "0A") 16 (be_bytes 16 n)) as (A & B); [in_list|now rewrite len_be_bytes|].
  split; [|split; auto].
  - unfold seqner_new. cbn [is_none andb or_else]. rewrite !bind_Ok. cbn [matter_new]. rewrite A, bind_Ok. reflexivity.
  - unfold seqner_sn. cbn [m_raw]. rewrite slice_bytes_in by (rewrite ?len_be_bytes; lia). rewrite bind_Ok, drop_0, take_all by (rewrite len_be_bytes; lia).
    rewrite be_val_be_bytes; auto. unfold u128_max in H. change (256 ^ N.of_nat 16) with 340282366920938463463374607431768211456. lia.
Qed.
Lemma seqner_parse m qb64b qb64 qb2 : is_none qb64b && is_none qb64 && is_none qb2 = false -> matter_new (Some (s! "0A")) None qb64b qb64 qb2 = Ok m ->
  m_code m = s! "0A" -> seqner_new None None None None qb64b qb64 qb2 = Ok m.
Proof.
  intros H H1 H2. unfold seqner_new. cbn [is_none andb]. rewrite H. rewrite bind_Ok. cbn [or_else]. rewrite H1, bind_Ok.
  rewrite H2. reflexivity.
Qed.

(*# C35_sequence_number_round_trip
   Every integer below 2^128 can be made into a sequence number; it reads back, also after printing and parsing in each of the forms.
##
Example C35_case : exists m, seqner_new (Some 5) None None None None None None = Ok m /\ infil m = Ok (s! "0AAAAAAAAAAAAAAAAAAAAAAF").
Proof. exists (Mt (s! "0A") 0 (be_bytes 16 5)). repeat split; (vm_compute; reflexivity). Qed.
#*)
Lemma C35_round_l (n : N) : n < 2 ^ 128 ->
  exists m t b, seqner_new (Some n) None None None None None None = Ok m /\ seqner_sn m = Ok n /\ infil m = Ok t /\ binfil m = Ok b /\
    seqner_new None None None None None (Some t) None = Ok m /\
    seqner_new None None None None (Some t) None None = Ok m /\
    seqner_new None None None None None None (Some b) = Ok m.
Proof.
  intros H. destruct (seqner_new_spec n) as (H1 & H2 & H3).
  { unfold u128_max. change (2 ^ 128) with 340282366920938463463374607431768211456 in H. lia. }
  destruct (wf_round _ H2) as (t & b & I & B & T1 & T2 & T3). eexists; exists t, b. split; [exact H1|]. split; [exact H3|].
  split; auto. split; auto. repeat split; apply seqner_parse; auto.
Qed.

(*# C35_sequence_numbers_sort
   The lexicographic order of the raw bytes, and of the binary forms, of two sequence numbers is the numeric order.
#*)
Lemma C35_sort_l (x y : N) (mx my : matter) (bx by_ : bytes) : x < 2 ^ 128 -> y < 2 ^ 128 ->
  seqner_new (Some x) None None None None None None = Ok mx -> seqner_new (Some y) None None None None None None = Ok my ->
  binfil mx = Ok bx -> binfil my = Ok by_ ->
  lex (m_raw mx) (m_raw my) = (x ?= y) /\ lex bx by_ = (x ?= y).
Proof.
  intros Hx Hy Nx Ny Bx By. change (2 ^ 128) with 340282366920938463463374607431768211456 in *.
  destruct (seqner_new_spec x) as (Nx' & (zx & Lx & Wx) & _); [unfold u128_max; lia|]. destruct (seqner_new_spec y) as (Ny' & (zy & Ly & Wy) & _); [unfold u128_max; lia|].
  assert (mx = Mt (s! "0A") 0 (be_bytes 16 x)) by congruence. assert (my = Mt (s! "0A") 0 (be_bytes 16 y)) by congruence. subst mx my. clear Nx Ny Nx' Ny'.
  cbn [m_code] in Lx, Ly. assert (zy = zx) by congruence. subst zy.
  rewrite (binfil_wf (Mt (s! "0A") 0 (be_bytes 16 x)) zx Lx Wx) in Bx. rewrite (binfil_wf (Mt (s! "0A") 0 (be_bytes 16 y)) zx Ly Wy) in By. apply Ok_inj in Bx. apply Ok_inj in By. subst bx by_.
  cbn [m_raw]. assert (lex (be_bytes 16 x) (be_bytes 16 y) = (x ?= y)) as E.
  { rewrite lex_be_val by now rewrite !len_be_bytes. rewrite !be_val_be_bytes; auto; change (256 ^ N.of_nat 16) with 340282366920938463463374607431768211456; lia. }
  split; auto. unfold mbin. cbn [m_raw].
  assert (mboth (Mt (s! "0A") 0 (be_bytes 16 x)) zx = mboth (Mt (s! "0A") 0 (be_bytes 16 y)) zx) as -> by reflexivity.
  rewrite !app_assoc. rewrite lex_common. exact E.
Qed.

(*# C36_hex_round_trip
   The hexadecimal form of a number or sequence number is lower case without leading zeros, denotes the integer, and building from it gives the
   same number or sequence number.
##
Example C36_case : exists m, number_new (Some 48879) None None None None None None = Ok m /\ number_numh m = Ok (s! "beef") /\ hex_number (s! "beef") = 48879.
Proof. exists (Mt (s! "M") 0 [xbe; xef]). repeat split; (vm_compute; reflexivity). Qed.
#*)
Lemma C36_l (n : N) : n < 2 ^ 128 ->
  exists h m q, lower_hex h /\ hex_number h = n /\
    number_new (Some n) None None None None None None = Ok m /\ number_numh m = Ok h /\ number_new None (Some h) None None None None None = Ok m /\
    seqner_new (Some n) None None None None None None = Ok q /\ seqner_snh q = Ok h /\ seqner_new None (Some h) None None None None None = Ok q.
Proof.
  intros H. assert (n <= u128_max) as Hn.
  { unfold u128_max. change (2 ^ 128) with 340282366920938463463374607431768211456 in H. lia. }
  destruct (C34_l n H) as (m & t & b & M1 & M2 & _). destruct (seqner_new_spec n Hn) as (S1 & _ & S2).
  destruct (to_hex_lower n Hn) as (L1 & L2). pose proof (hex_round_trip n Hn) as Hr.
  exists (to_hex n), m; eexists. split; auto. split; auto. split; auto. split. { unfold number_numh. now rewrite M2. }
  split.
  { rewrite <- M1. unfold number_new. cbn [is_none andb]. destruct (to_hex n) as [|c d] eqn:E; [now destruct L1|]. rewrite Hr. reflexivity. }
  split; [exact S1|]. split. { unfold seqner_snh. now rewrite S2. }
  rewrite <- S1. unfold seqner_new. cbn [is_none andb]. rewrite Hr. reflexivity.
Qed.

(** *** Which texts are hexadecimal numerals *)
Lemma hex_digit_iff c : (hex_digit c = None <-> ~ In c (s! "0123456789abcdefABCDEF")) /\
  (forall d, hex_digit c = Some d -> d = index_of (if (65 <=? b2n c) && (b2n c <=? 90) then n2b (b2n c + 32) else c) hex_alphabet).
Proof.
  assert (forallb (fun c => match hex_digit c with
    | None => negb (existsb (Byte.eqb c) (s! "0123456789abcdefABCDEF"))
    | Some d => existsb (Byte.eqb c) (s! "0123456789abcdefABCDEF") && (d =? index_of (if (65 <=? b2n c) && (b2n c <=? 90) then n2b (b2n c + 32) else c) hex_alphabet)
    end) all_bytes = true) as A by (vm_compute; reflexivity).
  pose proof (forall_byte _ A c) as B. cbn beta in B.
  assert (existsb (Byte.eqb c) (s! "0123456789abcdefABCDEF") = true <-> In c (s! "0123456789abcdefABCDEF")) as X.
  { rewrite existsb_exists. split; [intros (x & I & E); apply byte_eqb_eq in E; now subst|intros I; exists c; split; auto; apply byte_eqb_refl]. }
  destruct (hex_digit c) as [d|].
  - apply andb_prop in B as (B1 & B2). apply N.eqb_eq in B2. split; [split; [discriminate|]|].
    + intros N. destruct N. now apply X.
    + intros d' [= <-]. exact B2.
  - apply negb_true_iff in B. split; [split; auto|discriminate]. intros _ I. apply X in I. congruence.
Qed.
Lemma hex_val_iff d : forall acc, match hex_val acc d with
  | Some n => (forall c, In c d -> In c (s! "0123456789abcdefABCDEF")) /\ n = fold_left (fun acc c => acc * 16 + index_of c hex_alphabet) (lowercase d) acc
  | None => ~ forall c, In c d -> In c (s! "0123456789abcdefABCDEF")
  end.
Proof.
  induction d as [|c d IH]; intros acc; cbn [hex_val].
  - split; [intros c []|reflexivity].
  - destruct (hex_digit_iff c) as (A & B). destruct (hex_digit c) as [v|] eqn:E.
    + rewrite (B v eq_refl). cbn [lowercase map fold_left]. specialize (IH (acc * 16 + index_of (if (65 <=? b2n c) && (b2n c <=? 90) then n2b (b2n c + 32) else c) hex_alphabet)).
      assert (In c (s! "0123456789abcdefABCDEF")) as Hc.
      { destruct (in_dec Byte.byte_eq_dec c (s! "0123456789abcdefABCDEF")) as [I|I]; auto. apply A in I. discriminate. }
      destruct (hex_val _ d).
      * destruct IH as (I1 & ->). split; [|reflexivity]. intros x [<-|I]; auto.
      * intros F. apply IH. intros x I. apply F. now right.
    + intros F. apply A; auto. apply F. now left.
Qed.
Lemma u128_hex_iff h n : u128_from_hex h = Ok n <-> hex_reading h n /\ n < 2 ^ 128.
Proof.
  assert (forall d, hex_val 0 d = Some n <-> (forall c, In c d -> In c (s! "0123456789abcdefABCDEF")) /\ hex_number (lowercase d) = n) as HV.
  { intros d. pose proof (hex_val_iff d 0) as H. fold (hex_number (lowercase d)) in H. destruct (hex_val 0 d) as [v|]; split.
    - intros [= ->]. destruct H; auto.
    - intros (_ & <-). destruct H as (_ & ->). reflexivity.
    - discriminate.
    - intros (F & _). contradiction. }
  assert (forall d, d <> [] -> (match d with [] => Err EForeign | _ => match hex_val 0 d with Some n => if n <=? u128_max then Ok n else Err EForeign | None => Err EForeign end end = Ok n
    <-> (forall c, In c d -> In c (s! "0123456789abcdefABCDEF")) /\ hex_number (lowercase d) = n /\ n < 2 ^ 128)) as HD.
  { intros d Hd. destruct d as [|c d]; [congruence|]. rewrite <- and_assoc, <- HV. change (2 ^ 128) with 340282366920938463463374607431768211456. unfold u128_max.
    destruct (hex_val 0 (c :: d)) as [v|].
    - destruct (v <=? 340282366920938463463374607431768211455) eqn:L.
      + apply N.leb_le in L. split; [intros [= ->]; split; [reflexivity|lia]|intros ([= ->] & _); reflexivity].
      + apply N.leb_gt in L. split; [discriminate|]. intros ([= ->] & G). lia.
    - split; [discriminate|]. intros (G & _). discriminate. }
  unfold u128_from_hex, hex_reading. split.
  - intros H. destruct h as [|c h]; [discriminate|]. destruct (Byte.byte_eq_dec c x2b) as [-> | Nc].
    + destruct h as [|c h]; [discriminate|]. apply (HD (c :: h)) in H as (A & B & C); [|discriminate]. split; auto. exists (s! "+"), (c :: h). repeat split; auto. discriminate.
    + replace (match c with x2b => h | _ => c :: h end) with (c :: h) in H by (destruct c; try reflexivity; congruence).
      apply (HD (c :: h)) in H as (A & B & C); [|discriminate]. split; auto. exists [], (c :: h). repeat split; auto. discriminate.
  - intros ((sign & d & -> & S & Hd & A & B) & C). destruct S as [-> | ->].
    + cbn [app]. destruct d as [|c d]; [congruence|]. assert (c <> x2b) as Nc. { intros ->. specialize (A x2b (or_introl eq_refl)). vm_compute in A. intuition discriminate. }
      replace (match c with x2b => d | _ => c :: d end) with (c :: d) by (destruct c; try reflexivity; congruence). apply (HD (c :: d)); auto.
    + change (s! "+" ++ d) with (x2b :: d). destruct d as [|c d]; [congruence|]. apply (HD (c :: d)); auto.
Qed.

(*# C36_only_hex_accepted
   A number or a sequence number is built from a non-empty text exactly when the text is a hexadecimal numeral below 2^128, and then it is the number
   or sequence number of the integer denoted.
##
Example C36_reading_case : hex_reading (s! "+bEef") 48879 /\ number_new None (Some (s! "beeg")) None None None None None = Err EForeign.
Proof.
  split; [|vm_compute; reflexivity]. exists (s! "+"), (s! "bEef"). split; [reflexivity|]. split; [now right|]. split; [discriminate|].
  split; [|vm_compute; reflexivity]. intros c H. cbn in H. intuition (subst; vm_compute; tauto).
Qed.
#*)
Lemma C36b_l (h : bytes) (m : matter) : h <> [] ->
  (number_new None (Some h) None None None None None = Ok m <->
    exists n, hex_reading h n /\ n < 2 ^ 128 /\ number_new (Some n) None None None None None None = Ok m) /\
  (seqner_new None (Some h) None None None None None = Ok m <->
    exists n, hex_reading h n /\ n < 2 ^ 128 /\ seqner_new (Some n) None None None None None None = Ok m).
Proof.
  intros Hh. unfold number_new, seqner_new. cbn [is_none andb or_else]. destruct h as [|c h]; [congruence|].
  assert (forall (k : N -> R matter), (let* x := u128_from_hex (c :: h) in k x) = Ok m <-> exists n, hex_reading (c :: h) n /\ n < 2 ^ 128 /\ (let* x := Ok n in k x) = Ok m) as G.
  { intros k. split.
    - intros H. apply bind_ok in H as (n & E & H). apply u128_hex_iff in E as (E1 & E2). exists n. rewrite bind_Ok. auto.
    - intros (n & E1 & E2 & H). rewrite bind_Ok in H. assert (u128_from_hex (c :: h) = Ok n) as -> by (apply u128_hex_iff; auto). now rewrite bind_Ok. }
  split; [apply G|]. rewrite bind_assoc. rewrite G. split; intros (n & E1 & E2 & H); exists n; (split; [exact E1|]); (split; [exact E2|]); rewrite !bind_Ok in *; exact H.
Qed.

(** ** Reading the integer of a parsed primitive *)
(*# C80_parsed_integer_readable_refuted
   False as stated: text carrying a base64 padding sign parses as a number (or sequence number) whose integer cannot be read without a panic.
#*)
Lemma C80_refuted_l :
  (exists m, number_new None None None None None (Some (s! "MAA=")) None = Ok m /\ number_num m = Panic) /\
  (exists m, seqner_new None None None None None (Some (s! "0AAAAAAAAAAAAAAAAAAAAAA=")) None = Ok m /\ seqner_sn m = Panic).
Proof.
  split; [exists (Mt (s! "M") 0 [x00])|exists (Mt (s! "0A") 0 (zeros 15))]; split; (vm_compute; reflexivity).
Qed.

(*# C80_parsed_integer_readable_partial
   What holds: without the padding sign, and for every binary form, reading the integer returns a value below 256 to the width of the code, or (a
   number whose code is not an integer code) an error. Missing: text with '=' (exactly which: C80_unreadable_exactly).
##
Example C80_case : exists m, number_new None None None None None (Some (s! "MAAF")) None = Ok m /\ number_num m = Ok 5.
Proof. exists (Mt (s! "M") 0 [x00; x05]). split; (vm_compute; reflexivity). Qed.
#*)
Lemma C80_partial_l (qb64b qb64 qb2 : option bytes) (m : matter) :
  (forall s, qb64b = Some s \/ qb64 = Some s -> no_padding_sign s) ->
  (number_new None None None None qb64b qb64 qb2 = Ok m ->
    (exists w n, In (m_code m, w) number_sizes /\ number_num m = Ok n /\ n < 256 ^ w /\ number_numh m = Ok (to_hex n)) \/
    (~ In (m_code m) (map fst number_sizes) /\ number_num m = Err EUnexpectedCode)) /\
  (seqner_new None None None None qb64b qb64 qb2 = Ok m -> exists n, seqner_sn m = Ok n /\ n < 2 ^ 128 /\ seqner_snh m = Ok (to_hex n)).
Proof.
  intros Hp.
  assert (forall c, matter_new c None qb64b qb64 qb2 = Ok m -> wf_matter m) as Hw.
  { intros c H. cbn [matter_new] in H. destruct qb64b as [s|].
    - unfold exfil_b in H. apply bind_ok in H as (u & Hu & H). unfold from_utf8 in Hu. destruct (utf8 s); [|discriminate]. inversion Hu; subst u.
      apply exfil_nopad_wf in H; auto. apply Hp. auto.
    - destruct qb64 as [s|]. { apply exfil_nopad_wf in H; auto. apply Hp. auto. }
      destruct qb2 as [b|]; [|discriminate]. apply bexfil_inv in H as (z & Hz & W & _). now exists z. }
  split; intros H.
  - assert (wf_matter m) as W.
    { unfold number_new in H. cbn [is_none andb] in H. destruct (is_none qb64b && is_none qb64 && is_none qb2) eqn:E.
      - rewrite bind_Ok in H. cbv zeta in H. assert (qb64 = None) as -> by (destruct qb64b, qb64; auto; discriminate).
        change (0 <? 65536) with true in H. cbv iota in H. cbn [matter_new] in H.
        destruct (fixed_built (s! "M") 2 (be_bytes 2 0)) as (A & B); [in_list|reflexivity|]. rewrite A in H. inversion H. exact B.
      - apply bind_ok in H as (u & _ & H). eapply Hw; eauto. }
    destruct (in_dec (list_eq_dec Byte.byte_eq_dec) (m_code m) (map fst number_sizes)) as [Hin|Hin].
    + left. apply in_map_iff in Hin as ((c & w) & Ec & Hin). cbn [fst] in Ec. subst c.
      assert (In (m_code m, w) fixed_codes) as Hf.
      { repeat (destruct Hin as [Hin|Hin]; [apply pair_equal_spec in Hin as [<- <-]; in_list|]). destruct Hin. }
      destruct (fixed_wf m w Hf W) as (_ & L). exists w, (be_val (m_raw m)). split; auto.
      assert (number_num m = Ok (be_val (m_raw m))) as Hn.
      { unfold number_num. repeat (destruct Hin as [Hin|Hin]; [apply pair_equal_spec in Hin as [<- <-]; rewrite L; reflexivity|]). destruct Hin. }
      split; auto. split; [rewrite <- L; apply be_val_lt|]. unfold number_numh. now rewrite Hn.
    + right. split; auto. unfold number_num.
      assert (forall c, In c (map fst number_sizes) -> beq (m_code m) c = false) as Hb.
      { intros c Hc. destruct (beq (m_code m) c) eqn:E; auto. apply beq_eq in E. congruence. }
      rewrite !Hb by in_list. reflexivity.
  - unfold seqner_new in H. cbn [is_none andb or_else] in H. apply bind_ok in H as (r & Hr & H). apply bind_ok in H as (m' & Hm & H).
    apply bind_ok in H as (u & Hu & H). inversion H; subst m'; clear H. apply validate_ok in Hu as (Hu & _).
    assert (wf_matter m) as W.
    { destruct (is_none qb64b && is_none qb64 && is_none qb2) eqn:E.
      - rewrite bind_Ok in Hr. apply Ok_inj in Hr. subst r. cbn [matter_new] in Hm.
        destruct (fixed_built (s! "0A") 16 (be_bytes 16 0)) as (A & B); [in_list|reflexivity|]. rewrite A in Hm. inversion Hm. exact B.
      - inversion Hr; subst r. eapply Hw; eauto. }
    destruct Hu as [Hu|[]]. destruct (fixed_wf m 16) as (_ & L); auto. { rewrite <- Hu. in_list. }
    exists (be_val (m_raw m)). assert (seqner_sn m = Ok (be_val (m_raw m))) as Hn.
    { unfold seqner_sn. rewrite slice_bytes_in by lia. rewrite bind_Ok, drop_0, take_all by lia. reflexivity. }
    split; auto. split. { pose proof (be_val_lt (m_raw m)) as Q. rewrite L in Q. exact Q. } unfold seqner_snh. now rewrite Hn.
Qed.

(** ** Date-times *)
Lemma iso_chars : forallb (fun c => let d := b64_to_iso_8601 (iso_8601_to_b64 [c]) in
  match d with [e] => Byte.eqb c e | _ => false end && is_b64s (iso_8601_to_b64 [c])) iso_alphabet = true.
Proof. vm_compute. reflexivity. Qed.
Lemma iso_over s : over iso_alphabet s -> b64_to_iso_8601 (iso_8601_to_b64 s) = s /\ is_b64s (iso_8601_to_b64 s) = true.
Proof.
  induction s as [|c s IH]; intros H. { split; reflexivity. }
  destruct IH as (I1 & I2). { intros x Hx. apply H. now right. }
  pose proof iso_chars as T. rewrite forallb_forall in T. specialize (T c (H c (or_introl eq_refl))). cbv zeta in T.
  apply andb_true_iff in T as (T1 & T2). unfold b64_to_iso_8601, iso_8601_to_b64, replace1 in *. cbn [map] in *.
  apply byte_eqb_eq in T1. cbn [is_b64s forallb] in *. apply andb_true_iff in T2 as (T2 & _). unfold is_b64s in *. cbn [forallb]. rewrite T2, I2. split; auto.
  rewrite I1. f_equal. symmetry. exact T1.
Qed.
Lemma len_iso s : len (iso_8601_to_b64 s) = len s.
Proof. unfold iso_8601_to_b64, replace1, len. now rewrite !map_length. Qed.
Lemma take_iso n s : take n (iso_8601_to_b64 s) = iso_8601_to_b64 (take n s).
Proof. unfold iso_8601_to_b64, replace1, take. now rewrite !firstn_map. Qed.
Lemma is_b64s_no_pad s : is_b64s s = true -> no_padding_sign s.
Proof. apply is_b64s_nopad. Qed.
Lemma over_take a n s : over a s -> over a (take n s).
Proof. intros H c Hc. apply H. eapply In_take; eauto. Qed.

Lemma dater_ok now dts : over iso_alphabet dts -> 32 <= len dts -> exists m, dater_new now (Some dts) None None None None None = Ok m /\ m_code m = s! "1AAG" /\
  wf_matter m /\ dater_dts m = Ok (take 32 dts).
Proof.
  intros Ho L. destruct (iso_over _ Ho) as (_ & Hb). set (b := iso_8601_to_b64 dts) in *.
  assert (len b = len dts) as Lb by apply len_iso.
  assert (len (take 32 b) = 32) as Lt by (rewrite len_take; lia).
  destruct (decode_total (take 32 b)) as (raw & Hd & Lr). { now apply is_b64s_take. } { rewrite Lt. reflexivity. }
  rewrite Lt in Lr. change (3 * (32 / 4)) with 24 in Lr.
  destruct (fixed_built (s! "1AAG") 24 raw) as (A & W); [in_list|auto|]. set (m := Mt (s! "1AAG") 0 raw) in *.
  destruct W as (z & Hz & W). assert (z = Szg 4 0 36 0) as Ez. { cbn [m_code m] in Hz. vm_compute in Hz. congruence. }
  assert (mtext m z = s! "1AAG" ++ take 32 b) as Em.
  { rewrite Ez. unfold mtext, mboth, pad. cbn [hs ss fs ls var m_code m m_raw]. change ((4 + 0) mod 4) with 0. change (var (Szg 4 0 36 0)) with false. cbv iota.
    rewrite drop_0, app_nil_r. change (zeros (0 + 0)) with (@nil byte). cbn [app]. f_equal. now apply encode_decode. }
  exists m. split; [|split; [reflexivity|split; [now exists z|]]].
  - unfold dater_new. cbn [is_none andb or_else matter_new]. fold b.
    replace (s! "1AAG" ++ b) with (mtext m z ++ drop 32 b) by (rewrite Em, <- app_assoc, take_drop; reflexivity).
    rewrite exfil_mtext; auto. apply utf8_ascii, ascii_drop. now apply is_b64s_ascii.
  - unfold dater_dts. cbn [m_code m]. change (m_code m) with (s! "1AAG") in Hz. rewrite (proj2 (sizage_of_ok _ _) Hz), bind_Ok.
    fold m. rewrite (infil_wf m z Hz W), bind_Ok, Em, Ez. cbn [hs].
    assert (ascii (s! "1AAG" ++ take 32 b) = true) as Ha.
    { rewrite <- Em. now apply mtext_ascii. }
    rewrite from_str_ascii by (auto; rewrite len_app, Lt; change (len (s! "1AAG")) with 4; lia). rewrite bind_Ok.
    rewrite (drop_app_exact 4) by reflexivity. unfold b. rewrite take_iso. f_equal. apply iso_over. now apply over_take.
Qed.

(*# C37_date_time_round_trip_refuted
   False as stated: a string longer than 32 characters is accepted and silently cut, and the letters c, d and p come back as other characters.
#*)
Lemma C37_refuted_l (now : bytes) :
  (exists m, dater_new now (Some (s! "2020-08-22T17:50:09.988921+00:00:30")) None None None None None = Ok m /\
     dater_dts m = Ok (s! "2020-08-22T17:50:09.988921+00:00")) /\
  (exists m, dater_new now (Some (s! "2020-08-22T17:50:09.988921p00:00")) None None None None None = Ok m /\
     dater_dts m = Ok (s! "2020-08-22T17:50:09.988921+00:00")).
Proof.
  split; exists (Mt (s! "1AAG") 0 [xdb; x4d; xb4; xfb; x4f; x3e; xdb; x64; xf5; xed; xce; x74; x73; x4f; x5d; xf7; xcf; x3d; xdb; x5a; x74; xd1; xcd; x34]).
  all: split; (vm_compute; reflexivity).
Qed.

(*# C37_date_time_round_trip_partial
   What holds: a string of exactly 32 characters, none of them c, d or p, reads back the same, also through qb64, qb64b and qb2. Missing: the
   strings of the refutation.
##
Example C37_case : over iso_alphabet (s! "2020-08-22T17:50:09.988921+00:00") /\ len (s! "2020-08-22T17:50:09.988921+00:00") = 32.
Proof. split; [|reflexivity]. intros c H. repeat (destruct H as [<-|H]; [vm_compute; tauto|]). destruct H. Qed.
#*)
Lemma C37_partial_l (now dts : bytes) : over iso_alphabet dts -> len dts = 32 ->
  exists m t b, dater_new now (Some dts) None None None None None = Ok m /\ dater_dts m = Ok dts /\ infil m = Ok t /\ binfil m = Ok b /\
    dater_new now None None None None (Some t) None = Ok m /\
    dater_new now None None None (Some t) None None = Ok m /\
    dater_new now None None None None None (Some b) = Ok m.
Proof.
  intros Ho L. destruct (dater_ok now dts Ho) as (m & D1 & D2 & W & D3); [lia|]. rewrite take_all in D3 by lia.
  destruct (wf_round m W) as (t & b & I & B & T1 & T2 & T3). exists m, t, b. repeat (split; [now auto|]).
  unfold dater_new. cbn [is_none andb or_else matter_new]. rewrite T1, T2, T3, !bind_Ok, D2. repeat split; reflexivity.
Qed.

(*# C37_date_time_truncation
   Over those characters acceptance is exactly a matter of length: at least 32 characters are needed, and the first 32 are what is kept.
##
Example C37_truncation_case : dater_new [] (Some (s! "2020-08-22T17:50:09+00:00")) None None None None None = Err EShortage.
Proof. vm_compute. reflexivity. Qed.
#*)
Lemma C37_truncation_l (now dts : bytes) : over iso_alphabet dts ->
  (32 <= len dts -> exists m, dater_new now (Some dts) None None None None None = Ok m /\ dater_dts m = Ok (take 32 dts)) /\
  (len dts < 32 -> exists e, dater_new now (Some dts) None None None None None = Err e).
Proof.
  intros Ho. split; intros L. { destruct (dater_ok now dts Ho L) as (m & D1 & _ & _ & D3). eauto. }
  destruct (iso_over _ Ho) as (_ & Hb). unfold dater_new. cbn [is_none andb or_else matter_new].
  set (b := iso_8601_to_b64 dts) in *. assert (is_b64s (s! "1AAG" ++ b) = true) as Hs by (rewrite is_b64s_app, Hb; reflexivity).
  destruct (exfil (s! "1AAG" ++ b)) as [m|e|] eqn:E.
  - exfalso. apply exfil_inv in E as (z & rest & Hz & _ & Es & Lm). pose proof (take_mtext_hs m z Hz) as Hc.
    pose proof (lookup_facts _ _ Hz) as F. destruct (tf_first _ _ F) as (f & r & i & Ec & Hh & _).
    assert (f = x31) as ->. { unfold mtext, mboth in Es. rewrite Ec in Es. inversion Es. reflexivity. }
    assert (hs z = 4) as H4. { change (hardage x31) with (@Ok N 4) in Hh. congruence. }
    assert (m_code m = s! "1AAG") as Hm.
    { rewrite <- Hc, H4. assert (4 <= len (mtext m z)). { unfold mtext. rewrite len_app, len_mboth by auto. lia. }
      replace (take 4 (mtext m z)) with (take 4 (s! "1AAG" ++ b)) by (rewrite Es; now rewrite take_app_le by lia). reflexivity. }
    rewrite Hm in Hz. assert (z = Szg 4 0 36 0) as Ez. { vm_compute in Hz. congruence. }
    assert (mfs m z = 36) as H36 by (rewrite Ez; reflexivity). rewrite H36 in Lm.
    assert (len (s! "1AAG" ++ b) = 36 + len rest) as Q by (rewrite Es, len_app; lia).
    rewrite len_app in Q. unfold b in Q. rewrite len_iso in Q. change (len (s! "1AAG")) with 4 in Q. lia.
  - exists e. reflexivity.
  - exfalso. apply C14_partial_l in E as (w & Hw & r & Er). 
    + repeat (destruct Hw as [<-|Hw]; [inversion Er|]). destruct Hw.
    + now apply is_b64s_ascii.
    + now apply is_b64s_nopad.
Qed.

(** ** Base64 text *)
Lemma over_b64 s : over base64url_alphabet s <-> is_b64s s = true.
Proof.
  unfold is_b64s. rewrite forallb_forall. split; intros H c Hc; specialize (H c Hc).
  - assert (forallb is_b64 base64url_alphabet = true) as T by (vm_compute; reflexivity). rewrite forallb_forall in T. auto.
  - unfold is_b64 in H. destruct (b64_index c) as [i|] eqn:E; [|discriminate]. apply b64_index_Some in E as (Hi & <-).
    assert (forall k : nat, (k < 64)%nat -> In (b64_char (N.of_nat k)) base64url_alphabet) as T.
    { intros k Hk. do 64 (destruct k as [|k]; [in_list|]). exfalso. lia. }
    rewrite <- (N2Nat.id i). apply T. lia.
Qed.

Definition bext_ts (s : bytes) : N := len s mod 4.
Lemma rawify_ok s : is_b64s s = true -> exists raw, rawify s = Ok raw /\ let l := (3 - len s mod 4) mod 3 in let w := (4 - len s mod 4) mod 4 in
  l + len raw = 3 * ((w + len s) / 4) /\ (w + len s) mod 4 = 0 /\ encode (zeros l ++ raw) = repeat x41 (N.to_nat w) ++ s.
Proof.
  intros H. unfold rawify. set (w := (4 - len s mod 4) mod 4). set (l := (3 - len s mod 4) mod 3). cbv zeta.
  set (base := repeat x41 (N.to_nat w) ++ s).
  assert (len base = w + len s) as Lb. { unfold base. rewrite len_app. f_equal. unfold len. rewrite repeat_length. lia. }
  assert ((w + len s) mod 4 = 0) as M by (unfold w; lia).
  assert (is_b64s base = true) as Hb. { unfold base. rewrite is_b64s_app, H, andb_true_r. unfold is_b64s. apply forallb_forall. intros c Hc. apply repeat_spec in Hc. now subst. }
  destruct (decode_total base Hb) as (paw & Hd & Lp); [now rewrite Lb|]. rewrite Hd, bind_Ok. rewrite Lb in Lp.
  pose proof (encode_decode _ _ Hd) as E.
  assert (l <= 2) as Hl by (unfold l; lia). assert (l <= len paw) as Hlp.
  { destruct (N.eq_dec l 0); [lia|]. rewrite Lp. unfold l, w in *. lia. }
  exists (drop l paw). split. { unfold from_bytes. rewrite slice_bytes_in by lia. f_equal. apply take_all. rewrite len_drop. lia. }
  rewrite len_drop. split; [lia|]. split; auto.
  replace (zeros l ++ drop l paw) with paw; auto.
  rewrite <- (take_drop l paw) at 1. f_equal.
  assert (len s mod 4 = 0 \/ len s mod 4 = 1 \/ len s mod 4 = 2 \/ len s mod 4 = 3) as HC by lia.
  unfold base in E. destruct HC as [HC|[HC|[HC|HC]]]; unfold l, w in *; rewrite HC in *.
  - reflexivity.
  - change ((4 - 1) mod 4) with 3 in *. change ((3 - 1) mod 3) with 2 in *. destruct paw as [|x [|y [|z r]]]; try (rewrite ?len_cons, ?len_nilb in *; exfalso; lia).
    change (take 2 (x :: y :: z :: r)) with [x; y]. change (repeat x41 (N.to_nat 3)) with [x41; x41; x41] in E. cbn [app] in E. change x41 with (b64_char 0) in E.
    cbn [encode] in E. unfold enc3 in E. cbn [app] in E. inversion E as [[E1 E2 E3 E4]].
    pose proof (b2n_lt x). pose proof (b2n_lt y). pose proof (b2n_lt z).
    apply b64_char_inj in E1; [|lia|lia]. apply b64_char_inj in E2; [|lia|lia]. apply b64_char_inj in E3; [|lia|lia].
    change (zeros 2) with [x00; x00]. f_equal; [|f_equal]; apply b2n_inj; change (b2n x00) with 0; lia.
  - change ((4 - 2) mod 4) with 2 in *. change ((3 - 2) mod 3) with 1 in *. destruct paw as [|x [|y [|z r]]]; try (rewrite ?len_cons, ?len_nilb in *; exfalso; lia).
    change (take 1 (x :: y :: z :: r)) with [x]. change (repeat x41 (N.to_nat 2)) with [x41; x41] in E. cbn [app] in E. change x41 with (b64_char 0) in E.
    cbn [encode] in E. unfold enc3 in E. cbn [app] in E. inversion E as [[E1 E2 E3]].
    pose proof (b2n_lt x). pose proof (b2n_lt y). pose proof (b2n_lt z).
    apply b64_char_inj in E1; [|lia|lia]. apply b64_char_inj in E2; [|lia|lia].
    change (zeros 1) with [x00]. f_equal; apply b2n_inj; change (b2n x00) with 0; lia.
  - reflexivity.
Qed.

Lemma bexter_built s : is_b64s s = true -> len s < 2 ^ 32 ->
  let l := (3 - len s mod 4) mod 3 in
  exists raw, encode (zeros l ++ raw) = repeat x41 (N.to_nat ((4 - len s mod 4) mod 4)) ++ s /\
  let q := (len s + 3) / 4 in
  bexter_new (Some s) None None None None None =
    if q <? 4096 then Ok (Mt [digit_char (4 + l); x41] q raw)
    else if q <? 16777216 then Ok (Mt [digit_char (7 + l); x41; x41; x41] q raw)
    else Err EInvalidVarRawSize.
Proof.
  intros H L l. destruct (rawify_ok s H) as (raw & R1 & R2 & R3 & R4). cbv zeta in R2, R3, R4. fold l in R2, R4. exists raw. split; auto. cbv zeta.
  unfold bexter_new. cbn [is_none andb or_else]. unfold reb64. rewrite H. cbn [negb]. rewrite R1, bind_Ok. cbn [matter_new].
  assert (l <= 2) as Hl by (unfold l; lia).
  assert (len raw < 2 ^ 32) as Lr. { change (2 ^ 32) with 4294967296 in *. clear R1 R4. unfold l in *. lia. }
  destruct (C17_partial_l raw Lr) as (C & _). specialize (C x34 x41). change (list_byte_of_string "4A") with [x34; x41]. rewrite C by in_list.
  assert ((3 - len raw mod 3) mod 3 = l) as ->. { clear R1 R4. unfold l in *. lia. }
  replace ((len raw + l) / 3) with ((len s + 3) / 4). 2:{ clear R1 R4 C. unfold l in *. lia. }
  change (64 ^ 2) with 4096. change (64 ^ 4) with 16777216.
  assert (l = 0 \/ l = 1 \/ l = 2) as HC by lia.
  destruct (_ <? 4096); [|destruct (_ <? 16777216); [|reflexivity]]; rewrite bind_Ok; cbn [m_code]; destruct HC as [HC|[HC|HC]]; rewrite HC in *; reflexivity.
Qed.

Lemma bext_read l q raw code : l <= 2 -> In code [[digit_char (4 + l); x41]; [digit_char (7 + l); x41; x41; x41]] ->
  bext_of (Mt code q raw) = (let b := encode (zeros l ++ raw) in
    if l =? 0 then match b with [] => Ok [] | c :: r => Ok (if Byte.eqb c x41 then r else b) end else from_str b (l + 1)).
Proof.
  intros Hl Hc. unfold bext_of. cbn [m_code m_raw].
  assert (exists z, sizage_of code = Ok z /\ ls z = l) as (z & Hz & Hlz).
  { assert (l = 0 \/ l = 1 \/ l = 2) as HC by lia. destruct HC as [HC|[HC|HC]]; rewrite HC in *; destruct Hc as [<-|[<-|[]]]; eexists; (split; [reflexivity|reflexivity]). }
  rewrite Hz, bind_Ok, Hlz. cbv zeta. destruct (l =? 0) eqn:E.
  - pose proof (encode_ascii (zeros l ++ raw)) as Ha. destruct (encode (zeros l ++ raw)) as [|c r] eqn:Eb; [reflexivity|].
    rewrite slice_str_ascii by (auto; rewrite ?len_cons; lia). rewrite !bind_Ok. rewrite drop_0. change (take (1 - 0) (c :: r)) with [c].
    change (beq [c] (s! "A")) with (Byte.eqb c x41 && true). rewrite andb_true_r. destruct (Byte.eqb c x41).
    + rewrite from_str_ascii by (auto; rewrite len_cons; lia). reflexivity.
    + rewrite from_str_ascii by (auto; rewrite len_cons; lia). reflexivity.
  - rewrite bind_Ok. f_equal. clear Hz Hc. lia.
Qed.

Lemma bexter_ok s : is_b64s s = true -> len s <= 67108860 ->
  exists m, bexter_new (Some s) None None None None None = Ok m /\ In (m_code m) bexter_codes /\ wf_matter m /\
    bext_of m = Ok (match s with x41 :: r => if len s mod 4 =? 0 then r else s | _ => s end).
Proof.
  intros H L. destruct (bexter_built s H) as (raw & E & B). { change (2 ^ 32) with 4294967296. lia. } cbv zeta in B.
  set (l := (3 - len s mod 4) mod 3) in *. assert (l <= 2) as Hl by (unfold l; lia). assert (l = 0 \/ l = 1 \/ l = 2) as HC by lia.
  assert (exists code q, In code [[digit_char (4 + l); x41]; [digit_char (7 + l); x41; x41; x41]] /\
    bexter_new (Some s) None None None None None = Ok (Mt code q raw)) as (code & q & Hc & Bn).
  { destruct (_ <? 4096). { do 2 eexists. split; [|exact B]. now left. }
    destruct (_ <? 16777216) eqn:Q; [|exfalso; lia]. do 2 eexists. split; [|exact B]. right. now left. }
  assert (In code bexter_codes) as Hcode.
  { destruct HC as [HC|[HC|HC]]; rewrite HC in Hc; destruct Hc as [<-|[<-|[]]]; in_list. }
  exists (Mt code q raw). split; auto. split; auto. split.
  { unfold bexter_new in Bn. cbn [is_none andb or_else] in Bn. apply bind_ok in Bn as (m' & Bn & Bv). apply bind_ok in Bv as (u & _ & Bv). inversion Bv; subst m'.
    destruct (negb (reb64 s)); [discriminate|]. apply bind_ok in Bn as (raw' & _ & Bn). cbn [matter_new] in Bn.
    eapply (construct_wf' (s! "4A")); [|exact Bn]. reflexivity. }
  rewrite (bext_read l q raw code Hl Hc). cbv zeta. rewrite E.
  set (w := (4 - len s mod 4) mod 4) in *.
  assert (ascii (repeat x41 (N.to_nat w) ++ s) = true) as Ha. { rewrite <- E. apply encode_ascii. }
  assert (len (repeat x41 (N.to_nat w)) = w) as Lw. { unfold len. rewrite repeat_length. lia. }
  destruct (l =? 0) eqn:El.
  - assert (w = 0 /\ len s mod 4 = 0 \/ w = 1 /\ len s mod 4 = 3) as [[W M]|[W M]]; [unfold l, w in *; lia| |].
    + rewrite W, M. change (repeat x41 (N.to_nat 0)) with (@nil byte). cbn [app]. destruct s as [|c r]; [reflexivity|].
      destruct (Byte.eqb c x41) eqn:Ec. { apply byte_eqb_eq in Ec. subst c. reflexivity. }
      f_equal. destruct c; try reflexivity. discriminate Ec.
    + rewrite W, M. change (repeat x41 (N.to_nat 1)) with [x41]. cbn [app]. f_equal. destruct s as [|c r]; [reflexivity|]. now destruct c.
  - assert (w = l + 1 /\ len s mod 4 <> 0) as [W M] by (unfold l, w in *; lia). rewrite W in *.
    rewrite from_str_ascii by (auto; rewrite len_app; lia). rewrite drop_app_exact by auto. f_equal.
    destruct s as [|c r]; [reflexivity|]. destruct (len (c :: r) mod 4 =? 0) eqn:Q; [lia|]. now destruct c.
Qed.

Lemma iso_image : forallb (fun c => negb (is_b64 c) || existsb (Byte.eqb (if Byte.eqb c x63 then x3a else if Byte.eqb c x64 then x2e else if Byte.eqb c x70 then x2b else c)) iso_alphabet)
  (map (fun n => n2b (N.of_nat n)) (seq 0 256)) = true.
Proof. vm_compute. reflexivity. Qed.
Lemma b64_iso_cons c s : b64_to_iso_8601 (c :: s) = (if Byte.eqb c x63 then x3a else if Byte.eqb c x64 then x2e else if Byte.eqb c x70 then x2b else c) :: b64_to_iso_8601 s.
Proof.
  unfold b64_to_iso_8601, replace1. cbn [map]. f_equal. destruct (Byte.eqb c x63) eqn:E; [reflexivity|]. destruct (Byte.eqb c x64) eqn:E2; reflexivity.
Qed.
Lemma iso_image_over s : is_b64s s = true -> over iso_alphabet (b64_to_iso_8601 s).
Proof.
  induction s as [|c s IH]; intros H x Hx; [destruct Hx|]. cbn [is_b64s forallb] in H. apply andb_true_iff in H as (Hc & Hs). rewrite b64_iso_cons in Hx. destruct Hx as [<-|Hx]; [|now apply IH].
  pose proof iso_image as T. rewrite forallb_forall in T. specialize (T c). cbv beta in T. rewrite Hc in T. cbn [negb orb] in T.
  assert (existsb (Byte.eqb (if Byte.eqb c x63 then x3a else if Byte.eqb c x64 then x2e else if Byte.eqb c x70 then x2b else c)) iso_alphabet = true) as E.
  { apply T. apply in_map_iff. exists (N.to_nat (b2n c)). rewrite N2Nat.id, n2b_b2n. split; auto. apply in_seq. pose proof (b2n_lt c). lia. }
  apply existsb_exists in E as (y & Iy & E). apply Byte.byte_dec_bl in E. now rewrite E.
Qed.
(*# C37_date_time_round_trip_exactly
   These are exactly the strings that read back the same: 32 characters, none of them c, d or p. Any other string is refused or reads back different.
##
Example C37_exactly_case : (exists m, dater_new [] (Some (s! "2020-08-22T17:50:09.988921+00:00")) None None None None None = Ok m /\
    dater_dts m = Ok (s! "2020-08-22T17:50:09.988921+00:00")) /\
  ~ over iso_alphabet (s! "2020-08-22T17:50:09.988921p00:00").
Proof.
  split; [exists (Mt (s! "1AAG") 0 [xdb; x4d; xb4; xfb; x4f; x3e; xdb; x64; xf5; xed; xce; x74; x73; x4f; x5d; xf7; xcf; x3d; xdb; x5a; x74; xd1; xcd; x34]);
    split; (vm_compute; reflexivity)|].
  intros H. specialize (H x70). assert (In x70 (s! "2020-08-22T17:50:09.988921p00:00")) as I by (vm_compute; tauto). specialize (H I). vm_compute in H.
  repeat (destruct H as [H|H]; [discriminate|]). destruct H.
Qed.
#*)
Lemma C37_exact_l (now dts : bytes) :
  (exists m, dater_new now (Some dts) None None None None None = Ok m /\ dater_dts m = Ok dts) <-> over iso_alphabet dts /\ len dts = 32.
Proof.
  split.
  - intros (m & D & T). unfold dater_new in D. cbn [is_none andb or_else matter_new] in D. apply bind_ok in D as (m' & D & V). apply bind_ok in V as (u & V & E). injection E as ->.
    unfold validate in V. destruct (has_code _ (m_code m)) eqn:HC; [|discriminate]. clear V. cbn [has_code existsb] in HC. rewrite orb_false_r in HC. apply beq_eq in HC.
    unfold dater_dts in T. apply bind_ok in T as (z & Hz & T). apply bind_ok in T as (t & I & T). apply bind_ok in T as (r & F & T). injection T as T.
    destruct (exfil_infil _ _ _ D I) as (W & rest & E). apply wf_forms in W as (z' & Hz' & W & I' & _). apply sizage_of_ok in Hz. rewrite Hz in Hz'. injection Hz' as <-.
    assert (z = Szg 4 0 36 0) as Ez. { rewrite HC in Hz. vm_compute in Hz. congruence. }
    rewrite I' in I. injection I as <-. pose proof (len_mtext m z Hz W) as Lt. pose proof (mtext_b64 m z Hz W) as Bt.
    assert (mfs m z = 36) as M by (rewrite Ez; reflexivity). rewrite M in Lt.
    assert (hs z = 4) as H4 by (rewrite Ez; reflexivity).
    rewrite from_str_ascii in F; [|now apply is_b64s_ascii|lia]. injection F as <-. rewrite H4 in T. rewrite <- T. split.
    + apply iso_image_over. now apply is_b64s_drop.
    + unfold b64_to_iso_8601, replace1. rewrite !len_map, len_drop. lia.
  - intros (Ho & L). destruct (dater_ok now dts Ho) as (m & D1 & _ & _ & D2); [lia|]. rewrite take_all in D2 by lia. eauto.
Qed.

(*# C38_base64_text_round_trip_refuted
   False as stated: a text whose length is a multiple of four and which begins with A loses that A, so that two texts give the same primitive.
#*)
Lemma C38_refuted_l : exists m, bexter_new (Some (s! "ABCD")) None None None None None = Ok m /\
  bexter_new (Some (s! "BCD")) None None None None None = Ok m /\ bext_of m = Ok (s! "BCD").
Proof. exists (Mt (s! "4A") 1 [x00; x10; x83]). repeat split; (vm_compute; reflexivity). Qed.

(*# C38_base64_text_round_trip_partial
   What holds: every other base64url text (up to the 16777215 quadlets of the largest code) reads back the same, also through qb64, qb64b and qb2.
   Missing: texts with a leading A whose length is a multiple of four.
##
Example C38_case : exists m, bexter_new (Some (s! "-A-Bc_def")) None None None None None = Ok m /\ bext_of m = Ok (s! "-A-Bc_def").
Proof. exists (Mt (s! "6A") 3 [x3e; x03; xe0; x5c; xfd; xd7; x9f]). split; (vm_compute; reflexivity). Qed.
#*)
Lemma C38_partial_l (s : bytes) : over base64url_alphabet s -> len s <= 67108860 -> ~ (len s mod 4 = 0 /\ prefix (s! "A") s) ->
  exists m t b, bexter_new (Some s) None None None None None = Ok m /\ bext_of m = Ok s /\ infil m = Ok t /\ binfil m = Ok b /\
    bexter_new None None None None (Some t) None = Ok m /\
    bexter_new None None None (Some t) None None = Ok m /\
    bexter_new None None None None None (Some b) = Ok m.
Proof.
  intros H L N. apply over_b64 in H. destruct (bexter_ok s H L) as (m & B1 & B2 & W & B3).
  destruct (wf_round m W) as (t & b & I & B & T1 & T2 & T3). exists m, t, b. split; auto. split.
  { rewrite B3. f_equal. destruct s as [|c r]; auto. destruct (len (c :: r) mod 4 =? 0) eqn:Q; [|now destruct c].
    destruct c; try reflexivity. exfalso. apply N. split; [lia|]. exists r. reflexivity. }
  repeat (split; [now auto|]).
  assert (validate bexter_codes (m_code m) = Ok tt) as V by (apply validate_ok; auto).
  unfold bexter_new. cbn [is_none andb or_else matter_new]. rewrite T1, T2, T3, !bind_Ok, V. repeat split; reflexivity.
Qed.

(*# C38_base64_text_lost_character
   And exactly those lose exactly that character.
#*)
Lemma C38_lost_l (r : bytes) : over base64url_alphabet r -> len r < 67108860 -> len r mod 4 = 3 ->
  exists m, bexter_new (Some (s! "A" ++ r)) None None None None None = Ok m /\ bext_of m = Ok r.
Proof.
  intros H L M. apply over_b64 in H. destruct (bexter_ok (s! "A" ++ r)) as (m & B1 & _ & _ & B3).
  { change (s! "A") with [x41]. rewrite is_b64s_app, H. reflexivity. } { change (s! "A") with [x41]. cbn [app]. rewrite len_cons. lia. }
  exists m. split; auto. rewrite B3. change (s! "A" ++ r) with (x41 :: r). rewrite len_cons. replace ((1 + len r) mod 4 =? 0) with true by lia. reflexivity.
Qed.

(*# C39_base64_text_validation
   Below 2^32 characters, a Bexter is built exactly from the texts over the base64url alphabet that fit the largest code; any other is rejected with
   an error.
##
Example C39_case : over base64url_alphabet (s! "a-b_9") /\ bexter_new (Some (s! "a.b")) None None None None None = Err EValue.
Proof. split; [|vm_compute; reflexivity]. intros c H. repeat (destruct H as [<-|H]; [vm_compute; tauto|]). destruct H. Qed.
#*)
Lemma C39_l (s : bytes) : len s < 2 ^ 32 ->
  ((exists m, bexter_new (Some s) None None None None None = Ok m) <-> over base64url_alphabet s /\ len s <= 67108860) /\
  bexter_new (Some s) None None None None None <> Panic.
Proof.
  intros L. destruct (is_b64s s) eqn:H.
  - destruct (bexter_built s H L) as (raw & _ & B). cbv zeta in B. rewrite over_b64, H. rewrite B. clear B. split; [split|].
    + intros (m & B). destruct (_ <? 4096) eqn:Q1; [split; auto; lia|]. destruct (_ <? 16777216) eqn:Q2; [split; auto; lia|]. discriminate.
    + intros (_ & Hl). destruct (_ <? 4096); eauto. destruct (_ <? 16777216) eqn:Q2; eauto. exfalso. lia.
    + destruct (_ <? 4096); [discriminate|]. destruct (_ <? 16777216); discriminate.
  - rewrite over_b64, H. unfold bexter_new. cbn [is_none andb or_else]. unfold reb64. rewrite H. cbn [negb bind]. split; [split|].
    + intros (m & B). discriminate. + intros (B & _). discriminate. + discriminate.
Qed.
