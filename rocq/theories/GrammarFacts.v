(** The JSON parser against the grammar of [SpecGrammar]: white space, numbers, strings, merging of labels. *)
From Coq Require Import String.
From Coq Require Import NArith ZArith Lia Bool List.
From Verif Require Import Base BaseFacts Util Prims PrimsFacts Json JsonFacts SpecPrims SpecCounter SpecGrammar.
Import ListNotations.
Open Scope N_scope.
Local Opaque N.mul N.div N.modulo N.pow.

(** ** White space *)
Lemma blank_ws w : blank w <-> forallb is_ws w = true.
Proof.
  unfold blank, over. rewrite forallb_forall. split; intros H c I; specialize (H c I).
  - destruct H as [<-|[<-|[<-|[<-|[]]]]]; reflexivity.
  - destruct c; try discriminate H; cbn; auto.
Qed.
Lemma blank_nil : blank []. Proof. intros c []. Qed.
Lemma skip_blank w s : blank w -> skip_ws (w ++ s) = skip_ws s.
Proof. rewrite blank_ws. induction w as [|c w IH]; cbn [forallb app skip_ws]; auto. intros H. apply andb_true_iff in H as (-> & H). auto. Qed.
Lemma skip_split s : exists w, blank w /\ s = w ++ skip_ws s.
Proof.
  induction s as [|c s (w & B & E)]; [exists []; split; [apply blank_nil|reflexivity]|]. cbn [skip_ws]. destruct (is_ws c) eqn:W; [|exists []; split; [apply blank_nil|reflexivity]].
  exists (c :: w). split; [apply blank_ws; cbn [forallb]; rewrite W; now apply blank_ws|]. cbn [app]. now f_equal.
Qed.
Lemma skip_skip s : skip_ws (skip_ws s) = skip_ws s.
Proof. induction s as [|c s IH]; auto. cbn [skip_ws]. destruct (is_ws c) eqn:W; auto. cbn [skip_ws]. now rewrite W. Qed.
Lemma eat_some c s r : eat c s = Some r <-> s = c :: r.
Proof.
  unfold eat. destruct s as [|x s]; [split; discriminate|]. destruct (Byte.eqb x c) eqn:E; split; intros H.
  - injection H as <-. apply byte_eqb_eq in E. now subst.
  - now injection H as _ <-.
  - discriminate.
  - injection H as -> _. rewrite byte_eqb_refl in E. discriminate.
Qed.
Lemma eat_skip c s r : eat c (skip_ws s) = Some r -> exists w, blank w /\ s = w ++ c :: r.
Proof. intros H. apply eat_some in H. destruct (skip_split s) as (w & B & E). exists w. split; auto. now rewrite <- H. Qed.
Lemma skip_eat w c r : blank w -> is_ws c = false -> eat c (skip_ws (w ++ c :: r)) = Some r.
Proof. intros B W. rewrite skip_blank, skip_ws_nows by auto. now apply eat_some. Qed.
Lemma skip_not w c x r : blank w -> is_ws c = false -> c <> x -> eat x (skip_ws (w ++ c :: r)) = None.
Proof. intros B W N. rewrite skip_blank, skip_ws_nows by auto. cbn [eat]. destruct (Byte.eqb c x) eqn:E; auto. apply byte_eqb_eq in E. congruence. Qed.

(** ** Numbers *)
Lemma dec_fold s : forall acc, dec_num acc s = fold_left (fun a c => a * 10 + (b2n c - 48)) s acc.
Proof. induction s as [|c s IH]; intros acc; cbn [dec_num fold_left]; auto. Qed.
Lemma digit_range c : is_digit c = true <-> 48 <= b2n c <= 57. Proof. unfold is_digit. lia. Qed.
Lemma digits_Forall d : forallb is_digit d = true <-> Forall (fun c => 48 <= b2n c <= 57) d.
Proof. rewrite forallb_forall, Forall_forall. split; intros H c I; apply digit_range; auto. Qed.
Lemma decimal_digits d n : decimal d n <-> d <> [] /\ forallb is_digit d = true /\ dec_num 0 d = n.
Proof. unfold decimal. rewrite digits_Forall, dec_fold. tauto. Qed.
Lemma digits_split s : forall d r, digits s = (d, r) -> s = d ++ r /\ forallb is_digit d = true /\ no_digit_first r.
Proof.
  induction s as [|c s IH]; cbn [digits]; intros d r H; [injection H as <- <-; repeat split|]. destruct (is_digit c) eqn:D.
  - destruct (digits s) as (d', r') eqn:E. injection H as <- <-. destruct (IH _ _ eq_refl) as (-> & F & N). cbn [app forallb]. rewrite D. auto.
  - injection H as <- <-. cbn. auto.
Qed.
Lemma bad_lead_whole d n : forallb is_digit d = true -> dec_num 0 d = n -> (bad_lead d = false <-> whole d n).
Proof.
  intros F E. unfold whole. rewrite decimal_digits. destruct d as [|c d]; cbn [bad_lead]; [split; [discriminate|intros ((X & _) & _); congruence]|]. split.
  - intros B. split; [repeat split; auto; discriminate|]. intros r X. change (s! "0" ++ r) with (x30 :: r) in X. injection X as -> ->. destruct r; auto. discriminate.
  - intros (_ & Z). destruct (Byte.eqb c x30) eqn:C; auto. apply byte_eqb_eq in C. subst. now rewrite (Z d eq_refl).
Qed.
Lemma whole_digits t n : whole t n -> forallb is_digit t = true /\ dec_num 0 t = n /\ bad_lead t = false.
Proof. intros W. pose proof W as (D & _). apply decimal_digits in D as (_ & F & E). split; auto. split; auto. now apply (bad_lead_whole t n). Qed.
Definition no_point (s : bytes) : Prop := no_digit_first s /\ eat x2e s = None.
Definition no_power (s : bytes) : Prop := match s with c :: _ => c <> x65 /\ c <> x45 | [] => True end.
Lemma stop_parts s : stop s <-> no_point s /\ no_power s.
Proof.
  unfold stop, no_point, no_power, no_digit_first. destruct s as [|c s]; [cbn; tauto|]. cbn [eat]. destruct (Byte.eqb c x2e) eqn:E.
  - apply byte_eqb_eq in E. split; [intros (_ & X & _); congruence|intros ((_ & X) & _); discriminate].
  - assert (c <> x2e) by (intros ->; discriminate). tauto.
Qed.
Lemma pfrac_split s fr r : pfrac s = Some (fr, r) -> s = fr ++ r /\ fraction fr /\ (fr = [] -> eat x2e r = None) /\ (no_digit_first s \/ fr <> [] -> no_digit_first r).
Proof.
  unfold pfrac. destruct (eat x2e s) as [q|] eqn:E.
  - apply eat_some in E. subst. destruct (digits q) as (d, r') eqn:D. destruct (digits_split _ _ _ D) as (-> & F & N). destruct d as [|c d]; [discriminate|]. intros [= <- <-].
    split; [reflexivity|]. split; [|split; [discriminate|auto]]. right. exists (c :: d), (dec_num 0 (c :: d)). split; [apply decimal_digits; repeat split; auto; discriminate|reflexivity].
  - intros [= <- <-]. split; auto. split; [now left|]. split; auto. intros [H|H]; auto. congruence.
Qed.
Lemma sign_split s sg r : psign s = (sg, r) -> s = sg ++ r /\ In sg [[]; s! "+"; s! "-"].
Proof.
  unfold psign. destruct (eat x2b s) as [q|] eqn:E; [intros [= <- <-]; apply eat_some in E; subst; split; auto; right; now left|].
  destruct (eat x2d s) as [q|] eqn:E2; [intros [= <- <-]; apply eat_some in E2; subst; split; auto; right; right; now left|]. intros [= <- <-]. split; auto. now left.
Qed.
Lemma pexp_split s ex r : pexp s = Some (ex, r) -> s = ex ++ r /\ exponent ex /\ (ex = [] -> no_power r).
Proof.
  unfold pexp. destruct s as [|c s]; [intros [= <- <-]; repeat split; now left|]. destruct (Byte.eqb c x65 || Byte.eqb c x45) eqn:C.
  - destruct (psign s) as (sg, q) eqn:S. apply sign_split in S as (-> & I). destruct (digits q) as (d, r') eqn:D. destruct (digits_split _ _ _ D) as (-> & F & N).
    destruct d as [|x d]; [discriminate|]. intros [= <- <-]. split; [cbn; now rewrite <- app_assoc|]. split; [|discriminate]. right. exists [c], sg, (x :: d), (dec_num 0 (x :: d)).
    split; [apply orb_true_iff in C as [C|C]; apply byte_eqb_eq in C; subst; [now left|right; now left]|]. split; auto. split; [apply decimal_digits; repeat split; auto; discriminate|reflexivity].
  - intros [= <- <-]. split; auto. split; [now left|]. intros _. apply orb_false_iff in C as (A & B). cbn. split; intros ->; discriminate.
Qed.
Lemma fraction_pfrac fr r : fraction fr -> no_point r -> pfrac (fr ++ r) = Some (fr, r).
Proof.
  intros [->|(d & n & D & ->)] (N & P); [unfold pfrac; cbn [app]; now rewrite P|]. apply decimal_digits in D as (NE & F & _). unfold pfrac. change ((s! "." ++ d) ++ r) with (x2e :: d ++ r). cbn [eat]. rewrite byte_eqb_refl, digits_app by auto.
  destruct d; [congruence|reflexivity].
Qed.
Lemma exponent_pexp ex r : exponent ex -> no_digit_first r -> no_power r -> pexp (ex ++ r) = Some (ex, r).
Proof.
  intros [->|(e & sg & d & n & E & S & D & ->)] N P.
  - cbn [app]. unfold pexp. destruct r as [|c r]; auto. destruct P as (A & B). destruct (Byte.eqb c x65) eqn:X; [apply byte_eqb_eq in X; congruence|]. destruct (Byte.eqb c x45) eqn:Y; [apply byte_eqb_eq in Y; congruence|]. reflexivity.
  - apply decimal_digits in D as (NE & F & _). destruct d as [|x d]; [congruence|]. assert (psign (sg ++ (x :: d) ++ r) = (sg, (x :: d) ++ r)) as PS.
    { cbn [forallb] in F. apply andb_true_iff in F as (F & _). destruct S as [<-|[<-|[<-|[]]]]; [|reflexivity|reflexivity]. unfold psign. cbn [app eat].
      rewrite (digit_neq _ _ F) by reflexivity. rewrite (digit_neq _ _ F) by reflexivity. reflexivity. }
    destruct E as [<-|[<-|[]]].
    + change ((s! "e" ++ sg ++ x :: d) ++ r) with (x65 :: (sg ++ x :: d) ++ r). unfold pexp. rewrite <- app_assoc. cbn [Byte.eqb orb]. change (Byte.eqb x65 x65) with true. cbn [orb]. rewrite PS, digits_app by auto. reflexivity.
    + change ((s! "E" ++ sg ++ x :: d) ++ r) with (x45 :: (sg ++ x :: d) ++ r). unfold pexp. rewrite <- app_assoc. change (Byte.eqb x45 x65 || Byte.eqb x45 x45) with true. rewrite PS, digits_app by auto. reflexivity.
Qed.
Definition sign_of (neg : bool) : bytes := if neg then s! "-" else [].
Lemma pnum_split canon neg s j r : pnum canon neg s = Ok (j, r) -> exists t, s = t ++ r /\ number canon (sign_of neg ++ t) j.
Proof.
  unfold pnum. destruct (digits s) as (d, q) eqn:D. destruct (digits_split _ _ _ D) as (-> & F & N). destruct (bad_lead d) eqn:B; [discriminate|].
  pose proof (proj1 (bad_lead_whole d (dec_num 0 d) F eq_refl) B) as W. destruct (pfrac q) as [(fr, q1)|] eqn:PF; [|discriminate]. apply pfrac_split in PF as (-> & FR & PN & ND).
  destruct (pexp q1) as [(ex, q2)|] eqn:PE; [|discriminate]. apply pexp_split in PE as (-> & EX & PP).
  assert (forall tok rest, pfloat canon tok rest = Ok (j, r) -> exists x, canon tok = Some x /\ j = JFloat x /\ r = rest) as PFL.
  { unfold pfloat. intros tok rest. destruct (canon tok) as [x|]; [|discriminate]. intros [= <- <-]. eauto. }
  assert (In (sign_of neg) [[]; s! "-"]) as SG by (destruct neg; cbn; auto).
  assert (forall rest, pfloat canon (sign_of neg ++ d) rest = Ok (j, r) -> fr = [] -> ex = [] -> rest = q2 -> (neg = false /\ 2 ^ 64 <= dec_num 0 d \/ neg = true /\ (dec_num 0 d = 0 \/ 2 ^ 63 < dec_num 0 d)) ->
    exists t, d ++ fr ++ ex ++ q2 = t ++ r /\ number canon (sign_of neg ++ t) j) as G.
  { intros rest H -> -> -> C. apply PFL in H as (x & CX & -> & ->). exists d. split; auto. pose proof (num_float canon (sign_of neg) d _ [] [] x SG W FR EX) as NF. cbn [app] in NF. rewrite app_nil_r in NF. apply NF; auto.
    right. right. destruct C as [(-> & C)|(-> & C)]; [left|right]; auto. }
  change (2 ^ 64) with 18446744073709551616 in *. change (2 ^ 63) with 9223372036854775808 in *.
  change (if neg then [x2d] else []) with (sign_of neg). destruct fr as [|c fr]; [destruct ex as [|e ex]|].
  - cbv zeta. cbn [app]. unfold u64_max, i64_min_abs. destruct (_ <? _) eqn:U.
    { intros H. apply (G _ H); auto. destruct neg; [right|left]; split; auto; [right|]; lia. }
    destruct neg.
    + destruct ((dec_num 0 d =? 0) || _) eqn:Z; [intros H; apply (G _ H); auto; right; split; auto; apply orb_true_iff in Z as [Z|Z]; lia|]. intros [= <- <-]. exists d. split; auto.
      apply num_neg; auto. apply orb_false_iff in Z as (Z1 & Z2). change (2 ^ 63) with 9223372036854775808. lia.
    + intros [= <- <-]. exists d. split; auto. apply num_pos; auto. change (2 ^ 64) with 18446744073709551616. lia.
  - intros H. apply PFL in H as (x & CX & -> & ->). exists (d ++ [] ++ e :: ex). split; [now rewrite <- !app_assoc|]. eapply num_float; eauto. right. left. discriminate.
  - intros H. apply PFL in H as (x & CX & -> & ->). exists (d ++ (c :: fr) ++ ex). split; [now rewrite <- !app_assoc|]. eapply num_float; eauto. left. discriminate.
Qed.
Lemma pnum_whole canon neg t n fr ex r : whole t n -> fraction fr -> exponent ex -> stop r -> pnum canon neg (t ++ fr ++ ex ++ r) =
  match fr, ex with
  | [], [] => if u64_max <? n then pfloat canon (sign_of neg ++ t) r else if neg then (if (n =? 0) || (i64_min_abs <? n) then pfloat canon (sign_of neg ++ t) r else Ok (JNeg n, r)) else Ok (JPos n, r)
  | _, _ => pfloat canon (sign_of neg ++ t ++ fr ++ ex) r
  end.
Proof.
  intros W FR EX ST. apply stop_parts in ST as ((ND & NP) & PW). destruct (whole_digits _ _ W) as (F & E & B).
  assert (no_point (ex ++ r)) as NPE.
  { destruct EX as [->|(e & sg & d & m & IE & _ & _ & ->)]; [split; auto|]. destruct IE as [<-|[<-|[]]]; split; reflexivity. }
  assert (no_digit_first (fr ++ ex ++ r)) as NF by (destruct FR as [->|(d & m & _ & ->)]; [apply NPE|reflexivity]).
  unfold pnum. rewrite digits_app, B, fraction_pfrac, exponent_pexp by auto. change (if neg then [x2d] else []) with (sign_of neg). destruct fr; [destruct ex|]; auto. cbn [app]. cbv zeta. now rewrite E.
Qed.

(** ** Strings *)
Lemma char_utf8 n u : n < 1114112 -> (char_bytes n u <-> u = utf8_of n).
Proof.
  intros L. unfold utf8_of. split.
  - intros H. inversion H; subst.
    + replace (b2n a <? 128) with true by lia. now rewrite n2b_b2n.
    + assert (x < 32) by lia. replace (x * 64 + y <? 128) with false by lia. replace (x * 64 + y <? 2048) with true by lia.
      replace ((x * 64 + y) / 64) with x by lia. replace ((x * 64 + y) mod 64) with y by lia. rewrite <- H0, <- H1. now rewrite !n2b_b2n.
    + set (n := (x * 64 + y) * 64 + z) in *. replace (n <? 128) with false by lia. replace (n <? 2048) with false by lia. replace (n <? 65536) with true by lia.
      assert (n / 64 = x * 64 + y) as E1 by (unfold n; lia). replace (n / 4096) with x by (unfold n; lia). rewrite E1. replace ((x * 64 + y) mod 64) with y by lia. replace (n mod 64) with z by (unfold n; lia).
      rewrite <- H0, <- H1, <- H2. now rewrite !n2b_b2n.
    + set (n := ((x * 64 + y) * 64 + z) * 64 + t) in *. replace (n <? 128) with false by lia. replace (n <? 2048) with false by lia. replace (n <? 65536) with false by lia.
      replace (n / 262144) with x by (unfold n; lia). assert (n / 4096 = x * 64 + y) as -> by (unfold n; lia). assert (n / 64 = (x * 64 + y) * 64 + z) as -> by (unfold n; lia).
      replace ((x * 64 + y) mod 64) with y by lia. replace (((x * 64 + y) * 64 + z) mod 64) with z by lia. replace (n mod 64) with t by (unfold n; lia). rewrite <- H0, <- H1, <- H2, <- H3. now rewrite !n2b_b2n.
  - intros ->. destruct (n <? 128) eqn:A.
    + pose proof (char1 (n2b n)) as C. rewrite b2n_n2b in C by lia. apply C. lia.
    + destruct (n <? 2048) eqn:B; [|destruct (n <? 65536) eqn:D].
      * replace n with (n / 64 * 64 + n mod 64) at 1 by lia. apply char2; [rewrite b2n_n2b by lia; lia|rewrite b2n_n2b by lia; lia|lia|lia].
      * replace n with ((n / 4096 * 64 + (n / 64) mod 64) * 64 + n mod 64) at 1 by lia. apply char3; rewrite ?b2n_n2b by lia; lia.
      * replace n with (((n / 262144 * 64 + (n / 4096) mod 64) * 64 + (n / 64) mod 64) * 64 + n mod 64) at 1 by lia. apply char4; rewrite ?b2n_n2b by lia; lia.
Qed.
Lemma hex_digit_over c : In c (s! "0123456789abcdefABCDEF") <-> exists n, hex_digit c = Some n.
Proof.
  split.
  - intros I. assert (forallb (fun c => match hex_digit c with Some _ => true | None => false end) (s! "0123456789abcdefABCDEF") = true) as F by (vm_compute; reflexivity).
    rewrite forallb_forall in F. specialize (F c I). destruct (hex_digit c); [eauto|discriminate].
  - intros (n & H). destruct c; try discriminate H; vm_compute; tauto.
Qed.
Lemma hex_digit_value c n : hex_digit c = Some n -> index_of (hd x00 (lowercase [c])) hex_alphabet = n.
Proof. intros H. destruct c; try discriminate H; injection H as <-; vm_compute; reflexivity. Qed.
Lemma hex_four a b c d x y z t : hex_digit a = Some x -> hex_digit b = Some y -> hex_digit c = Some z -> hex_digit d = Some t -> four_hex [a; b; c; d] (((x * 16 + y) * 16 + z) * 16 + t).
Proof.
  intros A B C D. split; [reflexivity|]. split.
  - intros e [<-|[<-|[<-|[<-|[]]]]]; apply hex_digit_over; eauto.
  - apply hex_digit_value in A, B, C, D. unfold hex_number, lowercase in *. cbn [map hd fold_left] in *. rewrite A, B, C, D. lia.
Qed.
Lemma hex4_split s n r : hex4 s = Some (n, r) <-> exists h, s = h ++ r /\ four_hex h n.
Proof.
  split.
  - unfold hex4. destruct s as [|a [|b [|c [|d s]]]]; try discriminate. destruct (hex_digit a) as [x|] eqn:A; [|discriminate]. destruct (hex_digit b) as [y|] eqn:B; [|discriminate].
    destruct (hex_digit c) as [z|] eqn:C; [|discriminate]. destruct (hex_digit d) as [t|] eqn:D; [|discriminate]. intros [= <- <-]. exists [a; b; c; d]. split; auto. now apply hex_four.
  - intros (h & -> & (L & O & V)). destruct h as [|a [|b [|c [|d [|e h]]]]]; try discriminate L.
    2:{ exfalso. unfold len in L. cbn [length] in L. lia. }
    destruct (proj1 (hex_digit_over a) (O a ltac:(cbn; auto))) as (x & A). destruct (proj1 (hex_digit_over b) (O b ltac:(cbn; auto))) as (y & B).
    destruct (proj1 (hex_digit_over c) (O c ltac:(cbn; auto))) as (z & C). destruct (proj1 (hex_digit_over d) (O d ltac:(cbn; auto))) as (t & D).
    unfold hex4. cbn [app]. rewrite A, B, C, D. destruct (hex_four a b c d x y z t A B C D) as (_ & _ & V'). congruence.
Qed.
Lemma hex4_bound s n r : hex4 s = Some (n, r) -> n < 65536.
Proof.
  unfold hex4. destruct s as [|a [|b [|c [|d s]]]]; try discriminate. assert (forall c x, hex_digit c = Some x -> x < 16) as H by (clear; intros c x H; destruct c; try discriminate H; injection H as <-; reflexivity).
  destruct (hex_digit a) as [x|] eqn:A; [|discriminate]. destruct (hex_digit b) as [y|] eqn:B; [|discriminate].
  destruct (hex_digit c) as [z|] eqn:C; [|discriminate]. destruct (hex_digit d) as [t|] eqn:D; [|discriminate]. intros [= <- <-]. apply H in A, B, C, D. lia.
Qed.
Lemma simple_short e c : simple_escape e = Some c <-> In (e, c) short_escapes.
Proof.
  split.
  - intros H. destruct e; try discriminate H; injection H as <-; cbn; tauto.
  - intros I. cbn in I. repeat (destruct I as [I|I]; [injection I as <- <-; reflexivity|]). destruct I.
Qed.
(** What an escape denotes, after the backslash. *)
Inductive escaped : bytes -> bytes -> Prop :=
| es_short e c : In (e, c) short_escapes -> escaped [e] [c]
| es_unicode h n u : four_hex h n -> ~ 55296 <= n <= 57343 -> char_bytes n u -> escaped (x75 :: h) u
| es_pair h n l m u : four_hex h n -> 55296 <= n <= 56319 -> four_hex l m -> 56320 <= m <= 57343 -> char_bytes (65536 + (n - 55296) * 1024 + (m - 56320)) u -> escaped (x75 :: h ++ x5c :: x75 :: l) u.
Lemma unescape_split s u r : unescape s = Some (u, r) <-> exists e, s = e ++ r /\ escaped e u.
Proof.
  split.
  - unfold unescape. destruct s as [|c s]; [discriminate|]. destruct (simple_escape c) as [x|] eqn:S; [intros [= <- <-]; exists [c]; split; auto; constructor; now apply simple_short|].
    destruct (Byte.eqb c x75) eqn:C; [|discriminate]. apply byte_eqb_eq in C. subst. cbn [negb]. destruct (hex4 s) as [(n, r1)|] eqn:H; [|discriminate]. pose proof (hex4_bound _ _ _ H) as NB.
    apply hex4_split in H as (h & -> & FH). destruct ((56320 <=? n) && (n <=? 57343)) eqn:T; [discriminate|]. destruct ((55296 <=? n) && (n <=? 56319)) eqn:L.
    + destruct (eat x5c r1) as [q|] eqn:E1; [|discriminate]. apply eat_some in E1. subst. destruct (eat x75 q) as [q2|] eqn:E2; [|discriminate]. apply eat_some in E2. subst.
      destruct (hex4 q2) as [(m, r3)|] eqn:H2; [|discriminate]. apply hex4_split in H2 as (l & -> & FL). destruct ((56320 <=? m) && (m <=? 57343)) eqn:M; [|discriminate]. intros [= <- <-].
      exists (x75 :: h ++ x5c :: x75 :: l). split; [cbn [app]; rewrite <- app_assoc; reflexivity|]. apply (es_pair h n l m); auto; [lia|lia|]. apply char_utf8; [lia|]. f_equal. lia.
    + intros [= <- <-]. exists (x75 :: h). split; auto. apply (es_unicode h n); auto; [lia|]. apply char_utf8; [lia|reflexivity].
  - intros (e & -> & E). destruct E as [e c I|h n u FH NS U|h n l m u FH N FL M U].
    + apply simple_short in I. unfold unescape. cbn [app]. now rewrite I.
    + unfold unescape. cbn [app simple_escape]. rewrite byte_eqb_refl. cbn [negb]. assert (hex4 (h ++ r) = Some (n, r)) as H by (apply hex4_split; eauto). rewrite H. pose proof (hex4_bound _ _ _ H) as NB.
      replace ((56320 <=? n) && (n <=? 57343)) with false by lia. replace ((55296 <=? n) && (n <=? 56319)) with false by lia. apply char_utf8 in U; [|lia]. now subst.
    + unfold unescape. cbn [app simple_escape]. rewrite byte_eqb_refl. cbn [negb]. rewrite <- app_assoc. cbn [app]. assert (hex4 (h ++ x5c :: x75 :: l ++ r) = Some (n, x5c :: x75 :: l ++ r)) as H by (apply hex4_split; eauto). rewrite H.
      replace ((56320 <=? n) && (n <=? 57343)) with false by lia. replace ((55296 <=? n) && (n <=? 56319)) with true by lia. cbn [eat]. rewrite !byte_eqb_refl. cbn [eat]. rewrite !byte_eqb_refl.
      assert (hex4 (l ++ r) = Some (m, r)) as H2 by (apply hex4_split; eauto). rewrite H2. replace ((56320 <=? m) && (m <=? 57343)) with true by lia. apply char_utf8 in U; [|lia]. subst. do 3 f_equal. lia.
Qed.
Lemma chars_escape e u b s : escaped e u -> chars b s -> chars (x5c :: e ++ b) (u ++ s).
Proof.
  intros E C. destruct E.
  - now apply (ch_escape e c b s).
  - now apply (ch_unicode h n u b s).
  - pose proof (ch_pair h n l m u b s) as P. cbn [app]. rewrite <- app_assoc. now apply P.
Qed.
Lemma pstr_split f : forall s t r, pstr f s = Some (t, r) -> exists b, s = b ++ x22 :: r /\ chars b t.
Proof.
  induction f as [|f IH]; intros s t r H; [discriminate|]. cbn [pstr] in H. destruct s as [|c s]; [discriminate|]. destruct (Byte.eqb c x22) eqn:Q.
  - injection H as <- <-. apply byte_eqb_eq in Q. subst. exists []. split; auto. constructor.
  - destruct (Byte.eqb c x5c) eqn:B.
    + apply byte_eqb_eq in B. subst. destruct (unescape s) as [(u, r1)|] eqn:U; [|discriminate]. apply unescape_split in U as (e & -> & E). destruct (pstr f r1) as [(t', r')|] eqn:P; [|discriminate]. injection H as <- <-.
      apply IH in P as (b & -> & C). exists (x5c :: e ++ b). split; [cbn [app]; now rewrite <- app_assoc|]. now apply chars_escape.
    + destruct (b2n c <? 32) eqn:L; [discriminate|]. destruct (pstr f s) as [(t', r')|] eqn:P; [|discriminate]. injection H as <- <-. apply IH in P as (b & -> & C). exists (c :: b). split; auto.
      constructor; auto; [lia|intros ->; discriminate|intros ->; discriminate].
Qed.
Lemma escape_step f e u r : escaped e u -> pstr (S f) (x5c :: e ++ r) = match pstr f r with Some (t, r') => Some (u ++ t, r') | None => None end.
Proof. intros E. cbn [pstr]. rewrite byte_eqb_refl. replace (Byte.eqb x5c x22) with false by reflexivity. assert (unescape (e ++ r) = Some (u, r)) as -> by (apply unescape_split; eauto). reflexivity. Qed.
Lemma chars_pstr b t : chars b t -> forall f r, (length b < f)%nat -> pstr f (b ++ x22 :: r) = Some (t, r).
Proof.
  intros C. induction C as [|c b s L Q B C IH|e c b s I C IH|h n u b s FH N U C IH|h n l m u b s FH N FL M U C IH]; intros f r F; (destruct f as [|f]; [cbn [length] in F; lia|]).
  - cbn [app pstr]. now rewrite byte_eqb_refl.
  - cbn [app pstr length] in *. destruct (Byte.eqb c x22) eqn:X; [apply byte_eqb_eq in X; congruence|]. destruct (Byte.eqb c x5c) eqn:Y; [apply byte_eqb_eq in Y; congruence|].
    replace (b2n c <? 32) with false by lia. now rewrite IH by lia.
  - change ((s! "\" ++ [e] ++ b) ++ x22 :: r) with (x5c :: [e] ++ b ++ x22 :: r). rewrite (escape_step f [e] [c]) by now constructor. rewrite IH; auto. cbn in F. lia.
  - change ((s! "\u" ++ h ++ b) ++ x22 :: r) with (x5c :: x75 :: (h ++ b) ++ x22 :: r). rewrite <- app_assoc. change (x75 :: h ++ b ++ x22 :: r) with ((x75 :: h) ++ b ++ x22 :: r).
    rewrite (escape_step f (x75 :: h) u) by (eapply es_unicode; eauto). rewrite IH; auto. rewrite !app_length in F. cbn in F. lia.
  - assert ((s! "\u" ++ h ++ s! "\u" ++ l ++ b) ++ x22 :: r = x5c :: (x75 :: h ++ x5c :: x75 :: l) ++ b ++ x22 :: r) as ->.
    { change (s! "\u") with [x5c; x75]. cbn [app]. rewrite <- !app_assoc. cbn [app]. rewrite <- !app_assoc. reflexivity. }
    rewrite (escape_step f _ u) by (eapply es_pair; eauto). rewrite IH; auto. rewrite !app_length in F. cbn in F. lia.
Qed.
Lemma pstring_split s t r : pstring s = Ok (t, r) <-> exists b, s = b ++ x22 :: r /\ chars b t /\ utf8 t = true.
Proof.
  unfold pstring. split.
  - destruct (pstr _ s) as [(t', r')|] eqn:P; [|discriminate]. destruct (utf8 t') eqn:U; [|discriminate]. intros [= <- <-]. apply pstr_split in P as (b & E & C). eauto.
  - intros (b & -> & C & U). rewrite (chars_pstr b t C) by (rewrite app_length; cbn; lia). now rewrite U.
Qed.

(** ** Merging of labels *)
Lemma filter_id {A} (f : A -> bool) l : (forall x, In x l -> f x = true) -> filter f l = l.
Proof. induction l as [|a l IH]; intros H; auto. cbn [filter]. rewrite (H a) by now left. f_equal. apply IH. intros x I. apply H. now right. Qed.
Lemma firsts_in l : forall k, In k (firsts l) <-> In k l.
Proof.
  induction l as [|a l IH]; intros k; [tauto|]. cbn [firsts In]. rewrite filter_In, IH. split; [tauto|]. intros [->|I]; [now left|]. destruct (beq k a) eqn:E; [apply beq_eq in E; subst; now left|right; auto].
Qed.
Lemma firsts_NoDup l : NoDup (firsts l).
Proof. induction l as [|a l IH]; cbn [firsts]; constructor; [rewrite filter_In; intros (_ & X); rewrite beq_refl in X; discriminate|now apply NoDup_filter]. Qed.
Lemma firsts_snoc l k : firsts (l ++ [k]) = if existsb (beq k) l then firsts l else firsts l ++ [k].
Proof.
  induction l as [|a l IH]; [reflexivity|]. cbn [app firsts existsb]. rewrite IH. destruct (beq k a) eqn:E.
  - apply beq_eq in E. subst. cbn [orb]. destruct (existsb (beq a) l); auto. rewrite filter_app. cbn [filter]. rewrite beq_refl. cbn [negb]. now rewrite app_nil_r.
  - cbn [orb]. destruct (existsb (beq k) l); auto. rewrite filter_app. cbn [filter]. rewrite E. reflexivity.
Qed.
Lemma existsb_key {A} k (l : list (bytes * A)) : existsb (beq k) (map fst l) = contains_key k l.
Proof.
  unfold contains_key. destruct (assoc k l) eqn:E.
  - apply assoc_In in E. apply existsb_exists. exists k. split; [apply in_map_iff; exists (k, a); auto|apply beq_refl].
  - destruct (existsb _ _) eqn:X; auto. apply existsb_exists in X as (y & I & Y). apply beq_eq in Y. subst. now apply assoc_none_iff in E.
Qed.
Definition put (m : list (bytes * jval)) (kv : bytes * jval) := insert (fst kv) (snd kv) m.
Lemma insert_In {A} k (v : A) m kv : NoDup (map fst m) -> In kv (insert k v m) -> kv = (k, v) \/ (In kv m /\ fst kv <> k).
Proof.
  induction m as [|(k', v') m IH]; cbn [insert map]; intros N I; [destruct I as [<-|[]]; auto|]. inversion N as [|? ? N1 N2]; subst. destruct (beq k' k) eqn:E.
  - apply beq_eq in E. subst. destruct I as [<-|I]; auto. right. split; [now right|]. intros X. apply N1. rewrite <- X. now apply in_map.
  - destruct I as [<-|I]; [right; split; [now left|]; cbn; intros ->; rewrite beq_refl in E; discriminate|]. destruct (IH N2 I) as [->|(I' & K)]; auto. right. split; auto. now right.
Qed.
Lemma contains_firsts {A B} k (m : list (bytes * A)) (l : list (bytes * B)) : map fst m = firsts (map fst l) -> contains_key k m = contains_key k l.
Proof.
  intros E. rewrite <- !existsb_key, E. apply eq_true_iff_eq. rewrite !existsb_exists. split; intros (y & I & Y); exists y; (split; [now apply firsts_in|exact Y]).
Qed.
Lemma put_merges l : merges l (fold_left put l []).
Proof.
  induction l as [|(k, v) l (K & V)] using rev_ind; [split; [reflexivity|constructor]|]. rewrite fold_left_app. cbn [fold_left]. unfold put at 1. cbn [fst snd]. split.
  - rewrite map_app. cbn [map fst]. rewrite firsts_snoc, insert_keys, (contains_firsts _ _ _ K), K, existsb_key. destruct (contains_key k l); reflexivity.
  - apply Forall_forall. intros kv I. apply insert_In in I as [->|(I & N)].
    + exists l, []. split; auto.
    + rewrite Forall_forall in V. destruct (V kv I) as (a & b & -> & NB). exists a, (b ++ [(k, v)]). split; [now rewrite <- app_assoc|]. rewrite map_app, in_app_iff. cbn. intros [X|[X|[]]]; auto.
    + rewrite K. apply firsts_NoDup.
Qed.
Lemma last_unique {A} (l : list (bytes * A)) : forall a b a' b' k v v', l = a ++ (k, v) :: b -> l = a' ++ (k, v') :: b' -> ~ In k (map fst b) -> ~ In k (map fst b') -> v = v'.
Proof.
  induction l as [|x l IH]; intros a b a' b' k v v' E E' N N'; [destruct a; discriminate|]. destruct a as [|y a]; destruct a' as [|y' a']; cbn [app] in E, E'.
  - congruence.
  - injection E as -> ->. injection E' as <- ->. exfalso. apply N. rewrite map_app. apply in_or_app. right. now left.
  - injection E' as -> ->. injection E as <- ->. exfalso. apply N'. rewrite map_app. apply in_or_app. right. now left.
  - injection E as _ E. injection E' as _ E'. eauto.
Qed.
Lemma merges_unique l m m' : merges l m -> merges l m' -> m = m'.
Proof.
  intros (K & V) (K' & V'). rewrite <- K in K'. clear K. revert m' K' V'. induction V as [|(k, v) m (a & b & E & N) V IH]; intros m' K' V'; destruct m' as [|(k', v') m']; try discriminate; auto.
  cbn [map fst] in K'. injection K' as -> K'. inversion V' as [|? ? (a' & b' & E' & N') V'']; subst. f_equal; [|now apply IH]. f_equal. eapply last_unique; eauto.
Qed.
Lemma merges_put l m : merges l m <-> m = fold_left put l [].
Proof. split; [intros M; eapply merges_unique; [exact M|apply put_merges]|intros ->; apply put_merges]. Qed.
