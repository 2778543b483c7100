(** Exactly which texts make the text parsers panic. *)
From Coq Require Import String.
From Coq Require Import NArith ZArith Bool List Lia ZifyBool ZifyNat ZifyN.
From Verif Require Import Base BaseFacts B64 B64Facts Util UtilFacts Tables Matter MatterFacts MatterBin MatterText Indexer IndexerFacts IndexerMore Counter CounterFacts Spec SpecIndexer SpecCounter SpecPanic MatterThms CounterThms IndexerThms StateThms.
Import ListNotations.
Open Scope N_scope.
Ltac Zify.zify_post_hook ::= Z.div_mod_to_equations.

(** ** Positions inside characters *)
Lemma inside_boundary s k : inside s k <-> k < len s /\ boundary s k = false \/ k = 0 /\ inside s 0.
Proof.
  unfold inside, boundary, is_cont. split.
  - intros (c & E & H). destruct (N.eq_dec k 0) as [->|Hk]; [right; eauto|left].
    assert (k < len s) as L. { assert (N.to_nat k < length s)%nat by (apply nth_error_Some; congruence). unfold len. lia. }
    split; auto. rewrite E. lia.
  - intros [(L & H)|(-> & H)]; auto. destruct (nth_error s (N.to_nat k)) as [c|] eqn:E; [exists c; split; auto; lia|].
    apply nth_error_None in E. unfold len in L. lia.
Qed.
Lemma utf8_0 s : utf8 s = true -> ~ inside s 0.
Proof.
  intros H (c & E & B). destruct s as [|c' r]; [discriminate|]. cbn in E. inversion E; subst c'. apply utf8_head_not_cont in H. unfold is_cont in H. lia.
Qed.
Lemma inside_iff s k : utf8 s = true -> (inside s k <-> k < len s /\ boundary s k = false).
Proof. intros U. rewrite inside_boundary. split; [intros [H|[_ H]]; auto; now apply utf8_0 in H|auto]. Qed.
Lemma not_inside s k : k <= len s -> ~ inside s k -> boundary s k = true.
Proof.
  intros L H. destruct (N.eq_dec k (len s)) as [->|Hk]; [unfold boundary; rewrite N.eqb_refl, orb_true_r; reflexivity|].
  destruct (boundary s k) eqn:E; auto. exfalso. apply H. apply inside_boundary. left. split; auto. lia.
Qed.
Lemma inside_ascii w r k : ascii w = true -> utf8 (w ++ r) = true -> k <= len w -> ~ inside (w ++ r) k.
Proof.
  intros A U L I. apply inside_iff in I as (L' & B); auto. rewrite boundary_ascii_prefix in B; auto; [discriminate|]. now rewrite utf8_ascii_app in U.
Qed.
Lemma slice_np s b : b <= len s -> slice_str s 0 b = if boundary s b then Ok (take b s) else Panic.
Proof.
  intros L. unfold slice_str. replace (0 <=? b) with true by lia. replace (b <=? len s) with true by lia. change (boundary s 0) with true. cbn [andb].
  now rewrite drop_0, N.sub_0_r.
Qed.

(** ** The last part of the text parser: cutting out the text and decoding it *)
Definition finish (s : bytes) (z : sizage) (fs' size : N) : R matter :=
  if len s <? fs' then Err EShortage
  else
    let* trim := slice_str s 0 fs' in
    let* raw :=
      if negb (pad z =? 0) then
        let* rest := from_str trim (hs z + ss z) in
        let* paw := decode (repeat x41 (N.to_nat (pad z)) ++ rest) in
        let* lead := slice_bytes paw 0 (pad z) in
        if negb (be_val lead mod 2 ^ (2 * pad z) =? 0) then Err EPrepad else from_bytes paw (pad z)
      else
        let* rest := from_str trim (hs z + ss z) in
        let* paw := decode rest in
        let* lead := slice_bytes paw 0 (ls z) in
        if negb (be_val lead =? 0) then if ls z =? 1 then Err ENonZeroedLeadByte else Err ENonZeroedLeadBytes
        else from_bytes paw (ls z) in
    Ok (Mt (take (hs z) s) size raw).

Lemma exfil_stages s f r z : s = f :: r -> hardage f = Ok (hs z) -> hs z <= len s -> boundary s (hs z) = true -> lookup matter_table (take (hs z) s) = Some z ->
  exfil s =
    if var z then
      if len s <? hs z + ss z then Err EShortage
      else
        let* soft := slice_str s (hs z) (hs z + ss z) in
        let* size := b64_to_u32 soft in
        let* q := u32_mul size 4 in
        let* f := u32_add q (hs z + ss z) in
        finish s z f size
    else finish s z (fs z) 0.
Proof.
  intros Es Hh L B Hz. pose proof (lookup_facts _ _ Hz) as F. pose proof (pad_le _ _ F) as (P1 & P2 & P3).
  unfold exfil. rewrite Es at 1. rewrite Hh, bind_Ok. replace (len s <? hs z) with false by lia.
  rewrite slice_np, B, bind_Ok by auto. rewrite (proj2 (sizage_of_ok _ _) Hz), bind_Ok. cbv zeta. fold (var z) (pad z).
  destruct (var z) eqn:Ev; [|rewrite bind_Ok; reflexivity].
  rewrite P2 by auto. change (negb (0 =? 0)) with false. cbv iota. destruct (len s <? hs z + ss z); [reflexivity|].
  destruct (slice_str s (hs z) (hs z + ss z)) as [soft| |]; try reflexivity. rewrite !bind_Ok.
  destruct (b64_to_u32 soft) as [size| |]; try reflexivity. rewrite !bind_Ok. destruct (u32_mul size 4) as [q| |]; try reflexivity. rewrite !bind_Ok.
  destruct (u32_add q (hs z + ss z)) as [f'| |]; try reflexivity. rewrite !bind_Ok. unfold finish. rewrite P2 by auto. reflexivity.
Qed.

Lemma pad2_long : forallb (fun e => let z := snd e in negb (pad z =? 2) || (8 <=? fs z)) matter_table = true.
Proof. vm_compute. reflexivity. Qed.

(** A single quadlet that stands for one byte. *)
Definition one_byte_quad (q : bytes) : Prop := exists a b, is_b64 a = true /\ In b (s! "AQgw") /\ q = [a; b; x3d; x3d].
Lemma quad_chars : forallb (fun b => Bool.eqb (match b64_index b with Some i => i mod 16 =? 0 | None => false end) (existsb (Byte.eqb b) (s! "AQgw"))) all_bytes = true.
Proof. vm_compute. reflexivity. Qed.
Lemma one_byte_iff q : one_byte_quad q <-> exists p, decode q = Ok p /\ len p = 1.
Proof.
  split.
  - intros (a & b & A & B & ->). pose proof (forall_byte _ quad_chars b) as Q. cbv beta in Q.
    assert (existsb (Byte.eqb b) (s! "AQgw") = true) as E by (apply existsb_exists; exists b; split; auto; apply byte_eqb_refl).
    rewrite E in Q. apply eqb_prop in Q. cbn [decode]. unfold dec_last. rewrite !byte_eqb_refl. unfold is_b64 in A.
    destruct (b64_index a) as [i|]; [|discriminate]. destruct (b64_index b) as [j|]; [|discriminate]. rewrite Q. eexists. split; reflexivity.
  - intros (p & D & L). pose proof (decode_len _ _ D) as L4. rewrite L in L4. change (4 * ((1 + 2) / 3)) with 4 in L4.
    destruct q as [|a [|b [|c [|d [|? ?]]]]]; try (rewrite ?len_cons in L4; unfold len in L4; cbn [length] in L4; lia).
    cbn [decode] in D. unfold dec_last in D. destruct (Byte.eqb d pad_char) eqn:Ed.
    + destruct (Byte.eqb c pad_char) eqn:Ec.
      * destruct (b64_index a) as [i|] eqn:Ea; [|discriminate]. destruct (b64_index b) as [j|] eqn:Eb; [|discriminate].
        destruct (j mod 16 =? 0) eqn:Ej; [|discriminate]. apply byte_eqb_eq in Ed, Ec. subst c d. exists a, b.
        split; [unfold is_b64; now rewrite Ea|]. split; [|reflexivity].
        pose proof (forall_byte _ quad_chars b) as Q. cbv beta in Q. rewrite Eb, Ej in Q. apply eqb_prop in Q. symmetry in Q. apply existsb_exists in Q as (y & Hy & E). apply byte_eqb_eq in E. now subst y.
      * destruct (b64_index a) as [i|]; [|discriminate]. destruct (b64_index b) as [j|]; [|discriminate]. destruct (b64_index c) as [k|]; [|discriminate].
        destruct (k mod 4 =? 0); [|discriminate]. inversion D; subst p. discriminate.
    + unfold dec4 in D. destruct (b64_index a) as [i|]; [|discriminate]. destruct (b64_index b) as [j|]; [|discriminate]. destruct (b64_index c) as [k|]; [|discriminate].
      destruct (b64_index d) as [l|]; [|discriminate]. inversion D; subst p. discriminate.
Qed.

Lemma finish_panic s c z fs' size : lookup matter_table c = Some z -> utf8 s = true -> hs z + ss z <= fs' ->
  (forall k, k <= hs z + ss z -> boundary s k = true) ->
  (if var z then fs' = hs z + ss z + 4 * size else fs' = fs z) ->
  (finish s z fs' size = Panic <->
    inside s fs' \/
    (fs' <= len s /\ 0 < ls z /\ fs' = hs z + ss z) \/
    (fs' <= len s /\ ls z = 2 /\ one_byte_quad (drop (hs z + ss z) (take fs' s)))).
Proof.
  intros Hz U Hcs B Hfs. pose proof (lookup_facts _ _ Hz) as F. pose proof (pad_le _ _ F) as (P1 & P2 & P3). pose proof (tf_ls _ _ F) as Hl.
  unfold finish. destruct (len s <? fs') eqn:El.
  { split; [discriminate|]. intros [H|[H|H]]; [apply inside_iff in H; auto; lia|lia|destruct H as (H1 & H2 & H3); lia]. }
  rewrite slice_np by lia. destruct (boundary s fs') eqn:Eb.
  2:{ split; [intros _; left|reflexivity]. apply inside_iff; auto. split; auto.
      destruct (N.eq_dec fs' (len s)) as [E|E]; [|lia]. unfold boundary in Eb. rewrite E, N.eqb_refl, orb_true_r in Eb. discriminate. }
  assert (~ inside s fs') as NI by (intros H; apply inside_iff in H; auto; destruct H; congruence).
  rewrite bind_Ok. set (trim := take fs' s). assert (len trim = fs') as Lt by (unfold trim; rewrite len_take; lia).
  assert (boundary trim (hs z + ss z) = true) as Bt.
  { destruct (N.eq_dec (hs z + ss z) fs') as [E|E]; [rewrite E, <- Lt; unfold boundary; rewrite N.eqb_refl, orb_true_r; reflexivity|].
    specialize (B (hs z + ss z) ltac:(lia)). unfold boundary in *. destruct (hs z + ss z =? 0); [reflexivity|]. cbn [orb] in *.
    replace (hs z + ss z =? len s) with false in B by lia. replace (hs z + ss z =? len trim) with false by lia. cbn [orb] in *.
    rewrite <- (take_drop fs' s) in B. fold trim in B. rewrite nth_error_app_l in B; auto. unfold len in Lt. lia. }
  assert (from_str trim (hs z + ss z) = Ok (drop (hs z + ss z) trim)) as Ef.
  { unfold from_str, slice_str. rewrite Lt. replace (hs z + ss z <=? fs') with true by lia. rewrite N.leb_refl, Bt. cbn [andb].
    assert (boundary trim fs' = true) as -> by (rewrite <- Lt; unfold boundary; rewrite N.eqb_refl, orb_true_r; reflexivity).
    rewrite take_all; auto. rewrite len_drop. lia. }
  rewrite Ef, !bind_Ok. clear Ef Bt. set (rest := drop (hs z + ss z) trim). assert (len rest = fs' - (hs z + ss z)) as Lr by (unfold rest; rewrite len_drop; lia).
  destruct (pad z =? 0) eqn:Ep; cbn [negb].
  - destruct (decode rest) as [paw| |] eqn:Ed; cbn [bind].
    + pose proof (decode_len _ _ Ed) as L4. rewrite Lr in L4.
      assert (len paw < ls z <-> (0 < ls z /\ fs' = hs z + ss z) \/ (ls z = 2 /\ one_byte_quad rest)) as Q.
      { rewrite one_byte_iff. split.
        - intros H. assert (len paw = 0 \/ len paw = 1) as [H0|H1] by lia; [left; lia|right]. split; [lia|]. eauto.
        - intros [(H1 & H2)|(H1 & p & H2 & H3)]; [lia|]. rewrite Ed in H2. inversion H2; subst p. lia. }
      destruct (len paw <? ls z) eqn:Elp.
      * unfold slice_bytes. replace (ls z <=? len paw) with false by lia. rewrite andb_false_r. split; [intros _|reflexivity].
        right. destruct (proj1 Q ltac:(lia)) as [H|H]; [left|right]; repeat split; try tauto; lia.
      * rewrite slice_bytes_in, bind_Ok by lia. rewrite from_bytes_in by lia.
        destruct (negb _); [destruct (ls z =? 1)|]; (split; [discriminate|]); (intros [H|[(H1 & H)|(H1 & H)]]; [contradiction|apply or_introl with (B := ls z = 2 /\ one_byte_quad rest) in H|apply or_intror with (A := 0 < ls z /\ fs' = hs z + ss z) in H]; apply Q in H; lia).
    + split; [discriminate|]. intros [H|[(H1 & H2 & H3)|(H1 & H2 & H3)]]; [contradiction| |].
      * assert (rest = []) as E by (apply len_0_nil; lia). rewrite E in Ed. discriminate.
      * apply one_byte_iff in H3 as (p & H3 & _). fold trim rest in H3. congruence.
    + now apply decode_np in Ed.
  - assert (ls z = 0) as L0 by lia.
    destruct (decode (repeat x41 (N.to_nat (pad z)) ++ rest)) as [paw| |] eqn:Ed; cbn [bind].
    + pose proof (decode_len _ _ Ed) as L4. rewrite len_app, Lr in L4. unfold len at 1 in L4. rewrite repeat_length in L4.
      assert (var z = false) as Ev by (destruct (var z); auto; rewrite P2 in Ep by auto; discriminate). rewrite Ev in Hfs. subst fs'.
      destruct (tf_fix _ _ F Ev) as (E1 & E2 & E3 & E4 & E5 & E6).
      assert (pad z <= len paw) as Lp.
      { assert (pad z = 1 \/ pad z = 2) as [Q|Q] by lia; [rewrite Q in *; lia|]. pose proof pad2_long as T. rewrite forallb_forall in T. apply lookup_In in Hz. apply T in Hz. cbn [snd] in Hz.
        rewrite Q in *. cbn [N.eqb negb orb] in Hz. apply N.leb_le in Hz. unfold pad in Q. rewrite E1 in *. pose proof (tf_hs _ _ F) as Hh. lia. }
      rewrite slice_bytes_in, bind_Ok by lia. rewrite from_bytes_in by lia.
      destruct (negb _); (split; [discriminate|]); (intros [H|[(H1 & H2 & H3)|(H1 & H2 & H3)]]; [contradiction|lia|lia]).
    + split; [discriminate|]. intros [H|[(H1 & H2 & H3)|(H1 & H2 & H3)]]; [contradiction|lia|lia].
    + now apply decode_np in Ed.
Qed.

(** ** Reading the vocabulary from the table *)
Definition var_row (e : bytes * sizage) : bool :=
  let '(c, z) := e in Bool.eqb (var z) (existsb (beq c) (small_codes ++ large_codes)) && (code_chars c =? hs z + ss z).
Lemma var_rows : forallb var_row matter_table = true.
Proof. vm_compute. reflexivity. Qed.
Lemma code_chars_is c z : lookup matter_table c = Some z -> code_chars c = hs z + ss z /\ (var z = true <-> In c (small_codes ++ large_codes)).
Proof.
  intros H. apply lookup_In in H. pose proof var_rows as T. rewrite forallb_forall in T. apply T in H. unfold var_row in H. apply andb_true_iff in H as [H1 H2].
  apply eqb_prop in H1. split; [lia|]. rewrite H1. split.
  - intros Q. apply existsb_exists in Q as (x & Hx & E). apply beq_eq in E. now subst x.
  - intros Q. apply existsb_exists. exists c. split; auto. apply beq_refl.
Qed.
Lemma var_known c : In c (small_codes ++ large_codes) -> exists z, lookup matter_table c = Some z /\ var z = true.
Proof.
  intros H. destruct (proj1 (code_known c)) as (z & Hz); [unfold matter_codes; apply in_or_app; now right|]. exists z. split; auto. now apply (code_chars_is c z Hz).
Qed.
Lemma fixed_chars : forallb (fun e => match lookup matter_table (fst e) with Some z => fs z =? (6 * len (fst e) + zero_bits (fst e) + 8 * snd e) / 6 | None => false end) fixed_codes = true.
Proof. vm_compute. reflexivity. Qed.
Lemma fixed_is c : (exists n, In (c, n) fixed_codes) <-> exists z, lookup matter_table c = Some z /\ var z = false.
Proof.
  split.
  - intros (n & H). apply fixed_known in H as (z & Hz & Ev & _). eauto.
  - intros (z & Hz & Ev). assert (In c matter_codes) as H by (apply code_known; eauto). unfold matter_codes in H. apply in_app_or in H as [H|H].
    + apply in_map_iff in H as ((c' & n) & E & H). cbn in E. subst c'. eauto.
    + apply var_known in H as (z' & Hz' & Ev'). congruence.
Qed.

Definition one_quad_head (e : bytes * sizage) : list bytes :=
  let '(c, z) := e in if ls z =? 2 then if var z then [c ++ b64_digits (N.to_nat (ss z)) 1] else if fs z - hs z =? 4 then [c] else [] else [].
Lemma one_quad_match : flat_map one_quad_head matter_table = [s! "3AAA"; s! "6AAB"; s! "9AAAAAAB"; s! "6BAB"; s! "9AABAAAB"].
Proof. vm_compute. reflexivity. Qed.
Lemma one_quad_iff w : In w short_lead_heads <->
  exists code z, lookup matter_table code = Some z /\ ls z = 2 /\ (var z = true /\ w = code ++ b64_digits (N.to_nat (ss z)) 1 \/ var z = false /\ fs z = hs z + 4 /\ w = code).
Proof.
  transitivity (In w (flat_map one_quad_head matter_table)).
  - rewrite one_quad_match. unfold short_lead_heads. cbn [In]. tauto.
  - rewrite in_flat_map. split.
    + intros ((c & z) & Hin & Hw). pose proof lookup_table_ok as T. rewrite forallb_forall in T. apply T in Hin. cbn [fst snd] in Hin.
      destruct (lookup matter_table c) as [z'|] eqn:El; try discriminate.
      assert (z' = z) as ->. { apply andb_true_iff in Hin as [Hin ?%N.eqb_eq]. apply andb_true_iff in Hin as [Hin ?%N.eqb_eq]. apply andb_true_iff in Hin as [?%N.eqb_eq ?%N.eqb_eq]. destruct z, z'. cbn in *. congruence. }
      unfold one_quad_head in Hw. destruct (ls z =? 2) eqn:E2; [|destruct Hw]. exists c, z. split; auto. split; [lia|].
      destruct (var z) eqn:Ev; [destruct Hw as [<-|[]]; left; auto|]. destruct (fs z - hs z =? 4) eqn:E4; [|destruct Hw]. destruct Hw as [<-|[]]. right. repeat split; auto. lia.
    + intros (c & z & Hl & H2 & H). exists (c, z). split; [now apply lookup_In|]. unfold one_quad_head. rewrite H2. change (2 =? 2) with true. cbv iota.
      destruct H as [(Ev & ->)|(Ev & E4 & ->)]; rewrite Ev; [now left|]. replace (fs z - hs z =? 4) with true by lia. now left.
Qed.

Lemma hard_two : forallb (fun f => match hardage f with Ok h => Bool.eqb (h =? 2) (existsb (Byte.eqb f) (s! "0456")) && Bool.eqb (h =? 4) (existsb (Byte.eqb f) (s! "123789")) && (if h =? 1 then b2n f <=? 127 else true)
  | _ => negb (existsb (Byte.eqb f) (s! "0123456789")) end) all_bytes = true.
Proof. vm_compute. reflexivity. Qed.
Lemma In_eqb c l : In c l <-> existsb (Byte.eqb c) l = true.
Proof. rewrite existsb_exists. split; [intros H; exists c; split; auto; apply byte_eqb_refl|intros (y & H & E); apply byte_eqb_eq in E; now subst]. Qed.
Lemma hard_two_iff f : In f (s! "0456") <-> hardage f = Ok 2.
Proof.
  pose proof (forall_byte _ hard_two f) as Q. cbv beta in Q. rewrite In_eqb. destruct (hardage f) as [h| |] eqn:E.
  - apply andb_true_iff in Q as [Q _]. apply andb_true_iff in Q as [Q _]. apply eqb_prop in Q. rewrite <- Q. split; intros H; [f_equal; lia|inversion H; subst; reflexivity].
  - split; [|discriminate]. intros H. exfalso. revert Q H. cbn [existsb list_byte_of_string]. rewrite negb_true_iff. cbn. repeat (destruct (Byte.eqb f _); cbn; try discriminate).
  - now apply hardage_np in E.
Qed.
Lemma hard_four_iff f : In f (s! "123789") <-> hardage f = Ok 4.
Proof.
  pose proof (forall_byte _ hard_two f) as Q. cbv beta in Q. rewrite In_eqb. destruct (hardage f) as [h| |] eqn:E.
  - apply andb_true_iff in Q as [Q _]. apply andb_true_iff in Q as [_ Q]. apply eqb_prop in Q. rewrite <- Q. split; intros H; [f_equal; lia|inversion H; subst; reflexivity].
  - split; [|discriminate]. intros H. exfalso. revert Q H. cbn [existsb list_byte_of_string]. rewrite negb_true_iff. cbn. repeat (destruct (Byte.eqb f _); cbn; try discriminate).
  - now apply hardage_np in E.
Qed.
Lemma hard_one f : hardage f = Ok 1 -> ascii [f] = true.
Proof.
  intros E. pose proof (forall_byte _ hard_two f) as Q. cbv beta in Q. rewrite E in Q. apply andb_true_iff in Q as [_ Q]. change (1 =? 1) with true in Q. cbv iota in Q. cbn. unfold is_ascii. now rewrite Q.
Qed.

Lemma take_prefix (c : bytes) s z : lookup matter_table c = Some z -> prefix c s -> take (hs z) s = c /\ hs z <= len s.
Proof. intros Hz (r & ->). rewrite <- (tf_len _ _ (lookup_facts _ _ Hz)). split; [now apply take_app_exact|rewrite len_app; lia]. Qed.
Lemma soft_ascii s z v : ss z <= 4 -> hs z + ss z <= len s -> is_b64s (take (hs z) s) = true -> b64val (take (ss z) (drop (hs z) s)) = Some v -> ascii (take (hs z + ss z) s) = true.
Proof.
  intros L Ls H V. apply is_b64s_ascii. rewrite <- (take_drop (hs z) (take (hs z + ss z) s)), take_take, <- take_drop_comm, is_b64s_app. replace (N.min (hs z) (hs z + ss z)) with (hs z) by lia.
  rewrite H. apply b64_digits_val in V. rewrite <- V. apply is_b64s_digits.
Qed.

(*# C14_text_panics_exactly
   Exactly which texts make the text parser panic: those where the end of the code, of the size field or of the announced material lies inside a
   character, those announcing an empty variable-size primitive that needs lead bytes, and those whose only quadlet stands for a single byte although two
   lead bytes are needed.
##
Example C14_exact_case : utf8 (s! "MAA" ++ [xc3; xa9]) = true /\ announced (s! "MAA" ++ [xc3; xa9]) 4 /\ inside (s! "MAA" ++ [xc3; xa9]) 4 /\
  exfil (s! "MAA" ++ [xc3; xa9]) = Panic /\ exfil (s! "MA" ++ [xc3; xa9]) = Err EForeign.
Proof.
  split; [reflexivity|]. split; [apply (announced_fixed _ (s! "M") 2); [vm_compute; tauto|exists (s! "AA" ++ [xc3; xa9]); reflexivity]|].
  split; [exists xa9; split; [reflexivity|vm_compute; split; discriminate]|]. split; vm_compute; reflexivity.
Qed.
#*)
Lemma C14_exact_l (s : bytes) : utf8 s = true ->
  (exfil s = Panic <->
    (exists d, In d (s! "0456") /\ prefix [d] s /\ inside s 2) \/
    (exists d, In d (s! "123789") /\ prefix [d] s /\ inside s 4) \/
    (exists code, In code (small_codes ++ large_codes) /\ prefix code s /\ inside s (code_chars code)) \/
    (exists n, announced s n /\ inside s n) \/
    (exists w, In w empty_lead_heads /\ prefix w s) \/
    (exists w a b, In w short_lead_heads /\ is_b64 a = true /\ In b (s! "AQgw") /\ prefix (w ++ [a; b; x3d; x3d]) s)).
Proof.
  intros U. split.
  - intros H. destruct s as [|f s0] eqn:Es0; [discriminate|]. rewrite <- Es0 in *.
    destruct (hardage f) as [h|e|] eqn:Hh; [|rewrite Es0 in H; cbn [exfil] in H; rewrite Hh in H; discriminate|now apply hardage_np in Hh].
    assert (prefix [f] s) as Pf by (exists s0; auto).
    destruct (len s <? h) eqn:El.
    { exfalso. unfold exfil in H. rewrite Es0 in H at 1. rewrite Hh, bind_Ok, El in H. discriminate. }
    destruct (boundary s h) eqn:Eb.
    2:{ assert (inside s h) as I. { apply inside_iff; auto. split; auto. destruct (N.eq_dec h (len s)) as [E|E]; [|lia]. unfold boundary in Eb. rewrite E, N.eqb_refl, orb_true_r in Eb. discriminate. }
        destruct (hardage_val _ _ Hh) as [E|[E|E]]; subst h.
        - exfalso. revert I. rewrite Es0 in *. apply (inside_ascii [f] s0); auto; [now apply hard_one|]. rewrite len_cons, len_nil. lia.
        - left. exists f. rewrite hard_two_iff. auto.
        - right. left. exists f. rewrite hard_four_iff. auto. }
    destruct (lookup matter_table (take h s)) as [z|] eqn:Hz.
    2:{ exfalso. unfold exfil in H. rewrite Es0 in H at 1. rewrite Hh, bind_Ok, El in H. rewrite slice_np, Eb, bind_Ok in H by lia. unfold sizage_of in H. rewrite Hz in H. discriminate. }
    pose proof (lookup_facts _ _ Hz) as F. assert (h = hs z) as -> by (rewrite <- (tf_len _ _ F), len_take; lia).
    pose proof (tf_ls _ _ F) as Hl. destruct (code_chars_is _ _ Hz) as (CC & CV). assert (prefix (take (hs z) s) s) as Pc by (exists (drop (hs z) s); now rewrite take_drop).
    assert (len (take (hs z) s) = hs z) as Lc by (rewrite len_take; lia).
    rewrite (exfil_stages s f s0 z) in H by (auto; lia). right; right.
    destruct (var z) eqn:Ev.
    + assert (ss z <= 4) as Hss by (destruct (tf_var _ _ F Ev); lia).
      destruct (len s <? hs z + ss z) eqn:Ec; [discriminate|].
      destruct (boundary s (hs z + ss z)) eqn:Eb2.
      2:{ left. exists (take (hs z) s). rewrite CC. repeat split; auto; [now apply CV|]. apply inside_iff; auto. split; auto.
          destruct (N.eq_dec (hs z + ss z) (len s)) as [E|E]; [|lia]. unfold boundary in Eb2. rewrite E, N.eqb_refl, orb_true_r in Eb2. discriminate. }
      right. unfold slice_str in H at 1. replace (hs z <=? hs z + ss z) with true in H by lia. replace (hs z + ss z <=? len s) with true in H by lia. rewrite Eb, Eb2 in H. cbn [andb bind] in H.
      replace (hs z + ss z - hs z) with (ss z) in H by lia.
      assert (len (take (ss z) (drop (hs z) s)) = ss z) as Lsoft by (rewrite len_take, len_drop; lia).
      destruct (b64_to_u32 (take (ss z) (drop (hs z) s))) as [sz| |] eqn:Es; try discriminate.
      2:{ exfalso. revert Es. apply b64_to_uint_no_panic. }
      rewrite bind_Ok in H. apply b64_to_u32_inv in Es; [|lia]. pose proof (b64val_lt _ _ Es) as Bsz. rewrite Lsoft in Bsz. pose proof (tf_hs _ _ F) as Hhs.
      assert (64 ^ ss z <= 64 ^ 4) by (apply N.pow_le_mono_r; lia). change (64 ^ 4) with 16777216 in *.
      rewrite u32_mul_in, bind_Ok in H by (unfold u32_max; lia). rewrite u32_add_in, !bind_Ok in H by (unfold u32_max; lia).
      assert (forall k, k <= hs z + ss z -> boundary s k = true) as B.
      { intros k Lk. apply not_inside; [lia|]. rewrite <- (take_drop (hs z + ss z) s). apply inside_ascii; [|now rewrite take_drop|rewrite len_take; lia].
        eapply soft_ascii; eauto; [lia|]. apply (tf_b64 _ _ F). }
      assert (announced s (hs z + ss z + 4 * sz)) as An.
      { rewrite <- CC. apply announced_variable; [now apply CV|auto|lia|]. rewrite CC, Lc. replace (hs z + ss z - hs z) with (ss z) by lia. now rewrite number_b64val. }
      replace (sz * 4 + (hs z + ss z)) with (hs z + ss z + 4 * sz) in H by lia.
      apply (finish_panic s (take (hs z) s) z) in H; auto; [|lia|rewrite Ev; reflexivity].
      apply b64_digits_val in Es. replace (length (take (ss z) (drop (hs z) s))) with (N.to_nat (ss z)) in Es by (unfold len in Lsoft; lia).
      assert (s = take (hs z) s ++ b64_digits (N.to_nat (ss z)) sz ++ drop (hs z + ss z) s) as Split.
      { rewrite Es. rewrite <- (take_drop (hs z) s) at 1. f_equal. rewrite <- (take_drop (ss z) (drop (hs z) s)) at 1. now rewrite drop_drop. }
      destruct H as [H|[(H1 & H2 & H3)|(H1 & H2 & H3)]].
      * left. eauto.
      * right. left. assert (sz = 0) as E0 by lia. rewrite E0 in Split. exists (take (hs z) s ++ b64_digits (N.to_nat (ss z)) 0). split; [apply heads_iff; eauto 8|].
        exists (drop (hs z + ss z) s). now rewrite <- app_assoc.
      * right. right. destruct H3 as (a & b & A & Bb & E). assert (sz = 1) as E1.
        { apply (f_equal len) in E. rewrite len_drop, len_take in E. rewrite !len_cons, len_nil in E. lia. }
        rewrite E1 in *. exists (take (hs z) s ++ b64_digits (N.to_nat (ss z)) 1), a, b. split; [apply one_quad_iff; exists (take (hs z) s), z; auto|]. split; [exact A|]. split; [exact Bb|].
        exists (drop (hs z + ss z + 4) s). rewrite Split at 1. rewrite <- !app_assoc. do 2 f_equal. rewrite <- E. change (4 * 1) with 4. rewrite <- (take_drop_comm 4 (hs z + ss z) s), <- (drop_drop 4 (hs z + ss z) s), take_drop. reflexivity.
    + right. destruct (tf_fix _ _ F Ev) as (E1 & E2 & E3 & E4 & E5 & E6).
      destruct (proj2 (fixed_is (take (hs z) s))) as (n & Hn); [eauto|].
      assert (announced s (fs z)) as An.
      { pose proof fixed_chars as T. rewrite forallb_forall in T. pose proof (T _ Hn) as Q. cbn [fst snd] in Q. rewrite Hz in Q. apply N.eqb_eq in Q. rewrite Q. now apply announced_fixed. }
      assert (forall k, k <= hs z + ss z -> boundary s k = true) as B.
      { intros k Lk. apply not_inside; [lia|]. rewrite <- (take_drop (hs z) s). apply inside_ascii; [|now rewrite take_drop|lia]. apply is_b64s_ascii, (tf_b64 _ _ F). }
      apply (finish_panic s (take (hs z) s) z) in H; auto; [|lia|rewrite Ev; reflexivity].
      destruct H as [H|[(H1 & H2 & H3)|(H1 & H2 & H3)]].
      * left. eauto.
      * lia.
      * right. right. destruct H3 as (a & b & A & Bb & E). assert (fs z = hs z + 4) as EF.
        { apply (f_equal len) in E. rewrite len_drop, len_take in E. rewrite !len_cons, len_nil in E. lia. }
        exists (take (hs z) s), a, b. split; [apply one_quad_iff; exists (take (hs z) s), z; auto 6|]. split; [exact A|]. split; [exact Bb|].
        exists (drop (fs z) s). rewrite <- E, E1, N.add_0_r, EF. rewrite <- (take_drop_comm 4 (hs z) s), <- (drop_drop 4 (hs z) s), <- app_assoc, take_drop, take_drop. reflexivity.
  - assert (forall d r, s = d :: r -> forall h, hardage d = Ok h -> inside s h -> exfil s = Panic) as Cut.
    { intros d r Es h Hh I. apply inside_iff in I as (L & B); auto. unfold exfil. rewrite Es at 1. rewrite Hh, bind_Ok. replace (len s <? h) with false by lia. rewrite slice_np, B by lia. reflexivity. }
    assert (forall c z, lookup matter_table c = Some z -> prefix c s -> exists f r, s = f :: r /\ hardage f = Ok (hs z) /\ hs z <= len s /\ take (hs z) s = c /\
       (forall k, k <= hs z -> boundary s k = true)) as Head.
    { intros c z Hz P. destruct (take_prefix _ _ _ Hz P) as (T & L). pose proof (lookup_facts _ _ Hz) as F. destruct (tf_first _ _ F) as (f & r & i & Ec & Hh & _ & _). destruct P as (q & Es).
      exists f, (r ++ q). split; [rewrite Es, Ec; reflexivity|]. repeat apply conj; auto. intros k Lk. apply not_inside; [lia|]. rewrite Es in *. apply inside_ascii; auto; [apply is_b64s_ascii, (tf_b64 _ _ F)|].
      rewrite (tf_len _ _ F). exact Lk. }
    assert (forall c z, lookup matter_table c = Some z -> prefix c s -> var z = true -> hs z + ss z <= len s -> boundary s (hs z + ss z) = true ->
       forall v, b64val (take (ss z) (drop (hs z) s)) = Some v -> exfil s = finish s z (hs z + ss z + 4 * v) v) as Vr.
    { intros c z Hz P Ev L B v V. destruct (Head _ _ Hz P) as (f & r & Es & Hh & Lh & T & Bh). pose proof (lookup_facts _ _ Hz) as F.
      rewrite (exfil_stages s f r z) by (auto; try (apply Bh; lia); now rewrite T). rewrite Ev. replace (len s <? hs z + ss z) with false by lia.
      unfold slice_str at 1. replace (hs z <=? hs z + ss z) with true by lia. replace (hs z + ss z <=? len s) with true by lia. rewrite (Bh (hs z)), B by lia. cbn [andb bind].
      replace (hs z + ss z - hs z) with (ss z) by lia. assert (ss z <= 4) as Hss by (destruct (tf_var _ _ F Ev); lia).
      assert (len (take (ss z) (drop (hs z) s)) = ss z) as Lsoft by (rewrite len_take, len_drop; lia).
      rewrite (b64_to_u32_exact _ v) by (auto; lia). rewrite bind_Ok. pose proof (b64val_lt _ _ V) as Bsz. rewrite Lsoft in Bsz. pose proof (tf_hs _ _ F) as Hhs.
      assert (64 ^ ss z <= 64 ^ 4) by (apply N.pow_le_mono_r; lia). change (64 ^ 4) with 16777216 in *.
      rewrite u32_mul_in, bind_Ok by (unfold u32_max; lia). rewrite u32_add_in, !bind_Ok by (unfold u32_max; lia). f_equal. lia. }
    intros [(d & Hd & (r & Es) & I)|[(d & Hd & (r & Es) & I)|[(c & Hc & P & I)|[(n & An & I)|[(w & Hw & P)|(w & a & b & Hw & A & Hb & P)]]]]].
    + apply hard_two_iff in Hd. eapply Cut; eauto.
    + apply hard_four_iff in Hd. eapply Cut; eauto.
    + destruct (var_known _ Hc) as (z & Hz & Ev). destruct (code_chars_is _ _ Hz) as (CC & _). rewrite CC in I. apply inside_iff in I as (L & B); auto.
      destruct (Head _ _ Hz P) as (f & r & Es & Hh & Lh & T & Bh).
      rewrite (exfil_stages s f r z) by (auto; try (apply Bh; lia); now rewrite T). rewrite Ev. replace (len s <? hs z + ss z) with false by lia.
      unfold slice_str at 1. rewrite B, !andb_false_r. reflexivity.
    + destruct An as [c n Hn P|c v Hc P L V].
      * destruct (fixed_known _ _ Hn) as (z & Hz & Ev & _). pose proof fixed_chars as T. rewrite forallb_forall in T. pose proof (T _ Hn) as Q. cbn [fst snd] in Q. rewrite Hz in Q. apply N.eqb_eq in Q. rewrite <- Q in I.
        destruct (Head _ _ Hz P) as (f & r & Es & Hh & Lh & Tk & Bh). rewrite (exfil_stages s f r z) by (auto; try (apply Bh; lia); now rewrite Tk). rewrite Ev.
        pose proof (lookup_facts _ _ Hz) as F. destruct (tf_fix _ _ F Ev) as (E1 & E2 & E3 & E4 & E5 & E6).
        apply (finish_panic s c z); auto; [lia|intros; apply Bh; lia|now rewrite Ev].
      * destruct (var_known _ Hc) as (z & Hz & Ev). destruct (code_chars_is _ _ Hz) as (CC & _). rewrite CC in *. pose proof (lookup_facts _ _ Hz) as F. rewrite (tf_len _ _ F) in V.
        replace (hs z + ss z - hs z) with (ss z) in V by lia. rewrite number_b64val in V.
        assert (ss z <= 4) as Hss by (destruct (tf_var _ _ F Ev); lia).
        destruct (take_prefix _ _ _ Hz P) as (Tk & Lh).
        assert (forall k, k <= hs z + ss z -> boundary s k = true) as B.
        { intros k Lk. apply not_inside; [lia|]. rewrite <- (take_drop (hs z + ss z) s). apply inside_ascii; [|now rewrite take_drop|rewrite len_take; lia].
          apply (soft_ascii s z v); auto. rewrite Tk. apply (tf_b64 _ _ F). }
        rewrite (Vr c z Hz P Ev L (B (hs z + ss z) (N.le_refl _)) v V). apply (finish_panic s c z); auto; [lia|now rewrite Ev].
    + destruct P as (r & E). apply heads_iff in Hw as (c & z & Hz & Hv & Hl & ->). apply degenerate_panics; auto.
      exists c, z, r. repeat split; auto. now rewrite app_assoc.
    + destruct P as (r & Es). apply one_quad_iff in Hw as (c & z & Hz & H2 & Hw). pose proof (lookup_facts _ _ Hz) as F.
      assert (one_byte_quad [a; b; x3d; x3d]) as OB by (exists a, b; auto).
      destruct Hw as [(Ev & ->)|(Ev & EF & ->)].
      * assert (ss z <= 4) as Hss by (destruct (tf_var _ _ F Ev); lia).
        set (both := c ++ b64_digits (N.to_nat (ss z)) 1) in *.
        assert (len both = hs z + ss z) as Lb by (unfold both; rewrite len_app, (tf_len _ _ F), len_b64_digits; lia).
        assert (ascii both = true) as Ab by (apply is_b64s_ascii; unfold both; now rewrite is_b64s_app, (tf_b64 _ _ F), is_b64s_digits).
        assert (hs z + ss z + 4 <= len s) as Ls by (rewrite Es, !len_app, Lb, !len_cons; lia).
        assert (prefix c s) as P by (exists (b64_digits (N.to_nat (ss z)) 1 ++ [a; b; x3d; x3d] ++ r); rewrite Es; unfold both; now rewrite <- !app_assoc).
        assert (forall k, k <= hs z + ss z -> boundary s k = true) as B.
        { intros k Lk. apply not_inside; [lia|]. rewrite Es, <- app_assoc in *. apply inside_ascii; auto. lia. }
        assert (b64val (take (ss z) (drop (hs z) s)) = Some 1) as V.
        { rewrite Es. unfold both. rewrite <- !app_assoc. rewrite drop_app_exact by apply (tf_len _ _ F). rewrite take_app_exact by (rewrite len_b64_digits; lia).
          rewrite b64val_digits, N.mod_small; auto. destruct (tf_var _ _ F Ev) as [(_ & ->)|(_ & ->)]; vm_compute; reflexivity. }
        rewrite (Vr c z Hz P Ev ltac:(lia) (B (hs z + ss z) (N.le_refl _)) 1 V). apply (finish_panic s c z); auto; [lia|now rewrite Ev|]. right. right. split; [lia|]. split; auto.
        rewrite <- take_drop_comm. rewrite Es, <- app_assoc, drop_app_exact by exact Lb. exact OB.
      * assert (prefix c s) as P by (exists ([a; b; x3d; x3d] ++ r); rewrite Es; now rewrite <- app_assoc).
        destruct (Head _ _ Hz P) as (f & r' & Es' & Hh & Lh & Tk & Bh). rewrite (exfil_stages s f r' z) by (auto; try (apply Bh; lia); now rewrite Tk). rewrite Ev.
        destruct (tf_fix _ _ F Ev) as (E1 & _).
        apply (finish_panic s c z); auto; [lia|intros; apply Bh; lia|now rewrite Ev|]. right. right. split; [rewrite EF, Es, !len_app, (tf_len _ _ F), !len_cons; lia|]. split; auto.
        rewrite E1, N.add_0_r, EF, <- take_drop_comm, Es, <- app_assoc, drop_app_exact by apply (tf_len _ _ F). exact OB.
Qed.

(** ** Counters *)
Lemma slice_mid s a b : a <= b -> b <= len s -> slice_str s a b = if boundary s a && boundary s b then Ok (take (b - a) (drop a s)) else Panic.
Proof. intros A B. unfold slice_str. replace (a <=? b) with true by lia. replace (b <=? len s) with true by lia. reflexivity. Qed.
Lemma cut_cases s k : utf8 s = true -> k <= len s -> boundary s k = true /\ ~ inside s k \/ boundary s k = false /\ inside s k.
Proof.
  intros U L. destruct (boundary s k) eqn:B; [left|right]; (split; [auto|]).
  - intros I. apply inside_iff in I; auto. destruct I. congruence.
  - apply inside_iff; auto. split; auto. destruct (N.eq_dec k (len s)) as [E|E]; [|lia]. unfold boundary in B. rewrite E, N.eqb_refl, orb_true_r in B. discriminate.
Qed.
Lemma chard_three p : chardage p = Ok 3 <-> p = s! "-0".
Proof.
  split; [|intros ->; reflexivity]. unfold chardage. destruct (existsb (beq p) _); [discriminate|]. destruct (beq p (s! "-0")) eqn:E; [intros _; now apply beq_eq|]. destruct (beq p (s! "--")); discriminate.
Qed.
Lemma chard_five p : chardage p = Ok 5 <-> p = s! "--".
Proof.
  split; [|intros ->; reflexivity]. unfold chardage. destruct (existsb (beq p) _); [discriminate|]. destruct (beq p (s! "-0")); [discriminate|]. destruct (beq p (s! "--")) eqn:E; [intros _; now apply beq_eq|discriminate].
Qed.
Lemma chard_ascii p h : chardage p = Ok h -> ascii p = true /\ len p = 2.
Proof.
  unfold chardage. destruct (existsb (beq p) _) eqn:E.
  - intros _. apply existsb_exists in E as (x & Hx & E). apply beq_eq in E. subst x. repeat (destruct Hx as [<-|Hx]; [split; reflexivity|]). destruct Hx.
  - destruct (beq p (s! "-0")) eqn:E0; [intros _; apply beq_eq in E0; subst; split; reflexivity|]. destruct (beq p (s! "--")) eqn:E1; [intros _; apply beq_eq in E1; subst; split; reflexivity|discriminate].
Qed.
Lemma prefix_take p s n : len p = n -> n <= len s -> (prefix p s <-> take n s = p).
Proof.
  intros L Ls. split; [intros (r & ->); now apply take_app_exact|]. intros <-. exists (drop n s). now rewrite take_drop.
Qed.

(*# C32_counter_text_panics_exactly
   Exactly which texts make the counter parser panic: those of one byte, and those where the second byte, the end of the code or the end of the count lies inside a
   character.
##
Example C32_exact_case : cexfil (s! "-AA" ++ [xc3; xa9]) = Panic /\ inside (s! "-AA" ++ [xc3; xa9]) 4 /\ In (s! "-A", 2) counter_codes.
Proof. split; [vm_compute; reflexivity|]. split; [exists xa9; split; [reflexivity|vm_compute; split; discriminate]|vm_compute; tauto]. Qed.
#*)
Lemma C32_exact_l (s : bytes) : utf8 s = true ->
  (cexfil s = Panic <->
    len s = 1 \/ inside s 2 \/ (prefix (s! "-0") s /\ inside s 3) \/ (prefix (s! "--") s /\ inside s 5) \/
    (exists code k, In (code, k) counter_codes /\ prefix code s /\ inside s (len code + k))).
Proof.
  intros U. destruct s as [|x s0] eqn:Es0.
  { split; [discriminate|]. assert (forall k, ~ inside [] k) as N. { intros k (c & E & _). destruct (N.to_nat k); discriminate. }
    intros [H|[H|[(_ & H)|[(_ & H)|(c & k & _ & _ & H)]]]]; [discriminate|now apply N in H..]. }
  unfold cexfil. rewrite <- Es0 in *. assert (1 <= len s) as L1 by (rewrite Es0, len_cons; lia). clear x s0 Es0.
  assert (forall k, inside s k -> k < len s) as In_lt by (intros k I; apply inside_iff in I; tauto).
  destruct (N.ltb_spec (len s) 2) as [L|L].
  { split; [intros _; left; lia|]. intros _. unfold slice_str. replace (2 <=? len s) with false by lia. reflexivity. }
  rewrite slice_np by auto. destruct (cut_cases s 2 U L) as [(B2 & N2)|(B2 & I2)]; rewrite B2; [|split; [auto|reflexivity]]. rewrite bind_Ok.
  assert (forall p, len p = 2 -> (prefix p s <-> take 2 s = p)) as P2 by (intros p Lp; now apply prefix_take).
  assert (forall code z, lookup counter_table code = Some z -> prefix code s -> chardage (take 2 s) = Ok (hs z) /\ hs z <= len s /\ take (hs z) s = code) as Known.
  { intros code z Hz (r & E). pose proof (clookup_facts _ _ Hz) as F. pose proof (cf_len _ _ F) as Lc. pose proof (cf_sz _ _ F) as Hs. rewrite E. rewrite take_app_le by lia. rewrite (cf_hard _ _ F). rewrite len_app.
    split; [reflexivity|]. split; [lia|now apply take_app_exact]. }
  destruct (chardage (take 2 s)) as [h| |] eqn:Hh.
  2:{ split; [discriminate|]. intros [H|[H|[(P & _)|[(P & _)|(c & k & Hc & P & _)]]]]; [lia|contradiction| | |].
      - apply P2 in P; [|reflexivity]. rewrite P in Hh. discriminate.
      - apply P2 in P; [|reflexivity]. rewrite P in Hh. discriminate.
      - apply ccode_known in Hc as (z & Hz & _). apply (Known _ _ Hz) in P as (P & _). congruence. }
  2:{ now apply chard_np in Hh. }
  rewrite bind_Ok. destruct (N.ltb_spec (len s) h) as [Lh|Lh].
  { split; [discriminate|]. intros [H|[H|[(P & I)|[(P & I)|(c & k & Hc & P & I)]]]]; [lia|contradiction| | |].
    - apply P2 in P; [|reflexivity]. rewrite P in Hh. apply In_lt in I. inversion Hh. lia.
    - apply P2 in P; [|reflexivity]. rewrite P in Hh. apply In_lt in I. inversion Hh. lia.
    - apply ccode_known in Hc as (z & Hz & _). apply (Known _ _ Hz) in P as (P & Q & _). inversion P. lia. }
  rewrite slice_np by auto. destruct (cut_cases s h U Lh) as [(Bh & Nh)|(Bh & Ih)]; rewrite Bh.
  2:{ split; [intros _|reflexivity]. destruct (chard_val _ _ Hh) as [E|[E|E]]; subst h.
      - auto.
      - right. right. left. split; auto. apply P2; [reflexivity|]. now apply chard_three.
      - right. right. right. left. split; auto. apply P2; [reflexivity|]. now apply chard_five. }
  rewrite bind_Ok. assert (~ (prefix (s! "-0") s /\ inside s 3) /\ ~ (prefix (s! "--") s /\ inside s 5)) as (X3 & X5).
  { split; intros (P & I).
    - apply P2 in P; [|reflexivity]. apply chard_three in P. rewrite P in Hh. inversion Hh. subst h. contradiction.
    - apply P2 in P; [|reflexivity]. apply chard_five in P. rewrite P in Hh. inversion Hh. subst h. contradiction. }
  unfold csizage_of. destruct (lookup counter_table (take h s)) as [z|] eqn:Hz; cbn [bind].
  2:{ split; [discriminate|]. intros [H|[H|[H|[H|(c & k & Hc & P & I)]]]]; try contradiction; [lia|].
      apply ccode_known in Hc as (z & Hz' & _). apply (Known _ _ Hz') in P as (P & Q & T). inversion P. subst h. congruence. }
  pose proof (clookup_facts _ _ Hz) as F. assert (h = hs z) as -> by (rewrite <- (cf_len _ _ F), len_take; lia).
  assert (prefix (take (hs z) s) s) as Pc by (exists (drop (hs z) s); now rewrite take_drop). assert (len (take (hs z) s) = hs z) as Lc by (rewrite len_take; lia).
  assert (forall c k, In (c, k) counter_codes -> prefix c s -> len c + k = hs z + ss z) as Same.
  { intros c k Hc P. apply ccode_known in Hc as (z' & Hz' & E). pose proof (Known _ _ Hz' P) as (Q & _ & T). inversion Q as [E']. rewrite <- E' in T. rewrite T in Hz. rewrite (cf_len _ _ (clookup_facts _ _ Hz')). congruence. }
  destruct (N.ltb_spec (len s) (hs z + ss z)) as [Ls|Ls].
  { split; [discriminate|]. intros [H|[H|[H|[H|(c & k & Hc & P & I)]]]]; try contradiction; [lia|]. rewrite (Same _ _ Hc P) in I. apply In_lt in I. lia. }
  rewrite slice_mid by lia. rewrite Bh. cbn [andb]. destruct (cut_cases s (hs z + ss z) U Ls) as [(Bs & Ns)|(Bs & Is)]; rewrite Bs; cbn [bind].
  - split.
    + intros H. apply bind_panic in H as [H|(? & _ & H)]; [now apply b64_to_uint_no_panic in H|discriminate].
    + intros [H|[H|[H|[H|(c & k & Hc & P & I)]]]]; try contradiction; [lia|]. rewrite (Same _ _ Hc P) in I. contradiction.
  - split; [intros _|reflexivity]. right. right. right. right. exists (take (hs z) s), (ss z). split; [apply ccode_known; eauto|]. split; auto. now rewrite Lc.
Qed.

(** ** Indexed primitives *)
Lemma boundary_take s n k : k <= n -> n <= len s -> boundary s k = true -> boundary (take n s) k = true.
Proof.
  intros L Ln B. unfold boundary in *. rewrite len_take. destruct (N.eqb_spec k 0); [reflexivity|]. destruct (N.eqb_spec k (N.min n (len s))) as [E|E]; [reflexivity|]. cbn [orb] in *.
  destruct (N.eqb_spec k (len s)) as [E'|E']; [lia|]. cbn [orb] in B. rewrite <- (take_drop n s) in B. rewrite nth_error_app1 in B; [exact B|]. pose proof (len_take n s) as Lt. unfold len in Lt, Ln. unfold len in E', E. lia.
Qed.
Lemma index_chars_table : forallb (fun e => match lookup indexer_table (fst e) with Some z => (ims z =? fst (snd e)) && (ios z =? snd (snd e)) | None => false end) index_chars = true.
Proof. vm_compute. reflexivity. Qed.
Lemma index_chars_all : forallb (fun e => existsb (fun f => beq (fst f) (fst e) && (fst (snd f) =? ims (snd e)) && (snd (snd f) =? ios (snd e))) index_chars) indexer_table = true.
Proof. vm_compute. reflexivity. Qed.
Lemma index_chars_is c i o : In (c, (i, o)) index_chars <-> exists z, lookup indexer_table c = Some z /\ i = ims z /\ o = ios z.
Proof.
  split.
  - intros H. pose proof (proj1 (forallb_forall _ _) index_chars_table _ H) as E. cbn [fst snd] in E. destruct (lookup indexer_table c) as [z|]; [|discriminate]. exists z. apply andb_true_iff in E as (A & B). apply N.eqb_eq in A, B. auto.
  - intros (z & Hz & -> & ->). apply lookup_In in Hz. pose proof (proj1 (forallb_forall _ _) index_chars_all _ Hz) as E. apply existsb_exists in E as ((c' & i' & o') & Hin & E). cbn [fst snd] in E.
    apply andb_true_iff in E as (E & C). apply andb_true_iff in E as (A & B). apply beq_eq in A. apply N.eqb_eq in B, C. now subst.
Qed.
Lemma indexed_texts_table : forallb (fun e => match lookup indexer_table (fst e) with Some z => (ims z =? fst (fst (snd e))) && (ios z =? snd (fst (snd e))) && (ifs z =? snd (snd e)) && negb (ivar z) | None => false end) indexed_texts = true.
Proof. vm_compute. reflexivity. Qed.
Lemma indexed_texts_all : forallb (fun e => ivar (snd e) || existsb (fun f => beq (fst f) (fst e) && (fst (fst (snd f)) =? ims (snd e)) && (snd (fst (snd f)) =? ios (snd e)) && (snd (snd f) =? ifs (snd e))) indexed_texts) indexer_table = true.
Proof. vm_compute. reflexivity. Qed.
Lemma indexed_texts_is c i o n : In (c, (i, o, n)) indexed_texts <-> exists z, lookup indexer_table c = Some z /\ i = ims z /\ o = ios z /\ n = ifs z /\ ivar z = false.
Proof.
  split.
  - intros H. pose proof (proj1 (forallb_forall _ _) indexed_texts_table _ H) as E. cbn [fst snd] in E. destruct (lookup indexer_table c) as [z|]; [|discriminate]. exists z.
    apply andb_true_iff in E as (E & D). apply andb_true_iff in E as (E & C). apply andb_true_iff in E as (A & B). apply N.eqb_eq in A, B, C. apply negb_true_iff in D. auto.
  - intros (z & Hz & -> & -> & -> & V). apply lookup_In in Hz. pose proof (proj1 (forallb_forall _ _) indexed_texts_all _ Hz) as E. cbn [fst snd] in E. rewrite V in E. cbn [orb] in E.
    apply existsb_exists in E as ((c' & (i' & o') & n') & Hin & E). cbn [fst snd] in E. apply andb_true_iff in E as (E & D). apply andb_true_iff in E as (E & C). apply andb_true_iff in E as (A & B).
    apply beq_eq in A. apply N.eqb_eq in B, C, D. now subst.
Qed.
Lemma ivar_only : forallb (fun e => implb (ivar (snd e)) (beq (fst e) (s! "0z"))) indexer_table = true.
Proof. vm_compute. reflexivity. Qed.
Lemma ivar_code c z : lookup indexer_table c = Some z -> ivar z = true -> c = s! "0z" /\ ihs z = 2 /\ ims z = 2 /\ ios z = 0 /\ ics z = 4.
Proof.
  intros Hz V. pose proof (lookup_In _ _ _ Hz) as H. pose proof (proj1 (forallb_forall _ _) ivar_only _ H) as E. cbn [fst snd] in E. rewrite V in E. apply beq_eq in E. split; [exact E|].
  rewrite E in Hz. vm_compute in Hz. injection Hz as <-. repeat split; reflexivity.
Qed.
Lemma current_is c : current_sig c = true <-> In c current_codes.
Proof.
  unfold current_sig. rewrite existsb_exists. split; [intros (x & Hx & E); apply beq_eq in E; now subst|]. intros H. exists c. split; [exact H|apply beq_refl].
Qed.
Lemma ihard_two_iff d : In d (s! "01234") <-> ihardage d = Ok 2.
Proof.
  split; [intros H; repeat (destruct H as [<-|H]; [reflexivity|]); destruct H|]. intros H. destruct d; try (exfalso; vm_compute in H; discriminate); vm_compute; tauto.
Qed.
Lemma ihard_val d h : ihardage d = Ok h -> h = 1 \/ h = 2.
Proof. unfold ihardage. cbv zeta. repeat match goal with |- context [if ?b then _ else _] => destruct b end; intros H; inversion H; auto. Qed.
Lemma ihard_ascii d : ihardage d = Ok 1 -> ascii [d] = true.
Proof. destruct d; vm_compute; intros H; try discriminate H; reflexivity. Qed.

Lemma read_ondex_iff hard z index odx : ios z <= 3 -> len odx = ios z ->
  ((exists o, read_ondex hard z index odx = Ok o) <-> exists w, b64val odx = Some w /\ (current_sig hard = true -> w = 0)).
Proof.
  intros O2 Lo. assert (len odx <= 5) as L5 by lia. unfold read_ondex. destruct (N.eqb_spec (ios z) 0) as [E0|E0]; cbn [negb].
  - assert (odx = []) as -> by (apply len_0_nil; lia). split; [intros _; exists 0; split; [reflexivity|auto]|]. intros _. destruct (current_sig hard); eauto.
  - split.
    + destruct (current_sig hard).
      * destruct (b64_to_u32 odx) as [w| |] eqn:W; cbn [bind]; try (intros (o & E); discriminate). destruct (N.eqb_spec w 0) as [W0|W0]; cbn [negb]; try (intros (o & E); discriminate).
        intros _. apply b64_to_u32_inv in W; [|exact L5]. exists w. split; auto.
      * intros (o & W). apply b64_to_u32_inv in W; [|exact L5]. exists o. split; [auto|discriminate].
    + intros (w & W & Cu). rewrite (b64_to_u32_exact odx w W L5). destruct (current_sig hard); [|exists w; reflexivity]. rewrite (Cu eq_refl). exists 0. reflexivity.
Qed.

Lemma index_lt i m : m <= 3 -> i < 64 ^ m -> i < 262144.
Proof. intros L H. assert (64 ^ m <= 64 ^ 3) by (apply N.pow_le_mono_r; lia). change (64 ^ 3) with 262144 in *. lia. Qed.
Lemma itail_np s x z : lookup indexer_table (i_code x) = Some z -> ixfs x z <= len s -> boundary s (ics z) = true -> forall hard index ondex,
  (let* raw :=
     if negb (ics z mod 4 =? 0) then
       let* rest := from_str (take (ixfs x z) s) (ics z) in
       let* paw := decode (repeat x41 (N.to_nat (ics z mod 4)) ++ rest) in
       let* lead := slice_bytes paw 0 (ics z mod 4) in
       if negb (be_val lead mod 2 ^ (2 * (ics z mod 4)) =? 0) then Err EPrepad
       else from_bytes paw (ics z mod 4)
     else
       let* rest := from_str (take (ixfs x z) s) (ics z) in
       let* paw := decode rest in
       let* lead := slice_bytes paw 0 (ils z) in
       if negb (be_val lead =? 0) then
         (if ils z =? 1 then Err ENonZeroedLeadByte else Err ENonZeroedLeadBytes)
       else from_bytes paw (ics z mod 4) in
   Ok (Ix hard raw index ondex)) <> Panic.
Proof.
  intros Hz Lf Bo hard index ondex H. pose proof (ilookup_facts _ _ Hz) as F. pose proof (if_cs _ _ F) as HC. pose proof (if_ls _ _ F) as (Hl1 & Hl2).
  pose proof (ipad_le _ _ F) as (P1 & P2). destruct (ixfs_facts x z Hz) as (A & B & _).
  assert (len (take (ixfs x z) s) = ixfs x z) as Lt by (rewrite len_take; lia).
  apply bind_panic in H as [H|(raw & _ & H)]; [|discriminate].
  assert (ipad z <> 0 \/ 0 < ils z -> ics z + 4 < ixfs x z) as Big.
  { intros Q. unfold ixfs. destruct (ivar z) eqn:Ev.
    - destruct (if_var _ _ F Ev) as (? & ? & ? & _). rewrite P2 in Q by auto. lia.
    - destruct (if_fix _ _ F Ev). lia. }
  assert (from_str (take (ixfs x z) s) (ics z) = Ok (drop (ics z) (take (ixfs x z) s))) as FS.
  { pose proof (boundary_take s (ixfs x z) (ics z) A Lf Bo) as Bc. clear - Bc Lt A. unfold from_str. rewrite slice_mid by lia. rewrite Bc. unfold boundary. rewrite N.eqb_refl, orb_true_r. cbn [orb andb]. f_equal. apply take_all. rewrite len_drop. lia. }
  clear Bo. fold (ipad z) in H. rewrite FS, !bind_Ok in H. clear FS.
  destruct (ipad z =? 0) eqn:Ep; cbn [negb] in H.
  - apply bind_panic in H as [H|(paw & Hp & H)]; [now apply decode_np in H|].
    apply decode_iff in Hp. pose proof (len_encode paw) as Q. rewrite <- Hp, len_drop, Lt in Q.
    rewrite slice_bytes_in, bind_Ok in H by lia. destruct (negb _); [destruct (ils z =? 1); discriminate|].
    rewrite from_bytes_in in H by lia. discriminate.
  - apply bind_panic in H as [H|(paw & Hp & H)]; [now apply decode_np in H|].
    apply decode_iff in Hp. pose proof (len_encode paw) as Q. rewrite <- Hp, len_app, len_drop, Lt, len_repeat in Q.
    rewrite slice_bytes_in, bind_Ok in H by lia. destruct (negb _); [discriminate|].
    rewrite from_bytes_in in H by lia. discriminate.
Qed.

(*# C79_indexed_text_panics_exactly
   Exactly which texts make the parser of indexed primitives panic: those where the end of a two-character code, of the index, of the other index (the index being well
   formed) or of the announced text (both indices being well formed) lies inside a character.
##
Example C79_exact_case : iexfil (s! "2AA" ++ [xc3; xa9] ++ s! "A") = Panic /\ inside (s! "2AA" ++ [xc3; xa9] ++ s! "A") 4 /\ In (s! "2A", (2, 2)) index_chars /\
  In (s! "2A", (2, 2, 92)) indexed_texts.
Proof. split; [vm_compute; reflexivity|]. split; [exists xa9; split; [reflexivity|vm_compute; split; discriminate]|]. split; vm_compute; tauto. Qed.
#*)
Lemma C79_exact_l (s : bytes) : utf8 s = true ->
  (iexfil s = Panic <->
    (exists d, In d (s! "01234") /\ prefix [d] s /\ inside s 2) \/
    (exists code i o, In (code, (i, o)) index_chars /\ prefix code s /\ len code + i + o <= len s /\ inside s (len code + i)) \/
    (exists code i o, In (code, (i, o)) index_chars /\ prefix code s /\ is_b64s (take i (drop (len code) s)) = true /\ inside s (len code + i + o)) \/
    (exists n, indexed_announced s n /\ inside s n)).
Proof.
  intros U.
  assert (forall k, inside s k -> k < len s) as In_lt by (intros k I; apply inside_iff in I; tauto).
  destruct s as [|first s0] eqn:Es0.
  { split; [discriminate|]. intros [(d & _ & _ & H)|[(c & i & o & _ & _ & _ & H)|[(c & i & o & _ & _ & _ & H)|(n & _ & H)]]]; apply In_lt in H; rewrite len_nil in H; lia. }
  unfold iexfil. rewrite <- Es0 in *.
  assert (forall code z, lookup indexer_table code = Some z -> prefix code s -> ihardage first = Ok (ihs z) /\ ihs z <= len s /\ take (ihs z) s = code) as Known.
  { intros code z Hz (r & E). pose proof (ilookup_facts _ _ Hz) as F. destruct (if_first _ _ F) as (f & r' & i & Ec & Hh & _). pose proof (if_len _ _ F) as Lc. rewrite Ec in E. cbn [app] in E.
    assert (f = first) as -> by congruence. split; [exact Hh|]. rewrite E. split; [rewrite <- Lc, Ec, !len_cons, len_app; lia|]. rewrite <- Lc. change (first :: r' ++ r) with ((first :: r') ++ r). rewrite <- Ec. now apply take_app_exact. }
  assert (forall d, In d (s! "01234") -> prefix [d] s -> ihardage first = Ok 2) as Two.
  { intros d Hd (r & E). apply ihard_two_iff in Hd. assert (d = first) by (rewrite Es0 in E; cbn [app] in E; congruence). now subst. }
  assert (forall n, indexed_announced s n -> exists code z, lookup indexer_table code = Some z /\ prefix code s) as Ann.
  { intros n [c i o n' v w Hc P _ _ _ _|v P _ _].
    - apply indexed_texts_is in Hc as (z & Hz & _). eauto.
    - eexists _, _. split; [|exact P]. vm_compute; reflexivity. }
  destruct (ihardage first) as [h|e|] eqn:Hh.
  2:{ split; [discriminate|]. intros [(d & Hd & P & _)|[(c & i & o & Hc & P & _)|[(c & i & o & Hc & P & _)|(n & An & _)]]].
      - specialize (Two _ Hd P). discriminate.
      - apply index_chars_is in Hc as (z & Hz & _). apply (Known _ _ Hz) in P as (P & _). discriminate.
      - apply index_chars_is in Hc as (z & Hz & _). apply (Known _ _ Hz) in P as (P & _). discriminate.
      - apply Ann in An as (c & z & Hz & P). apply (Known _ _ Hz) in P as (P & _). discriminate. }
  2:{ now apply ihardage_np in Hh. }
  rewrite bind_Ok. destruct (N.ltb_spec (len s) h) as [Lh|Lh].
  { split; [discriminate|]. intros [(d & Hd & P & I)|[(c & i & o & Hc & P & _)|[(c & i & o & Hc & P & _)|(n & An & _)]]].
      - specialize (Two _ Hd P). apply In_lt in I. inversion Two. lia.
      - apply index_chars_is in Hc as (z & Hz & _). apply (Known _ _ Hz) in P as (P & Q & _). inversion P. lia.
      - apply index_chars_is in Hc as (z & Hz & _). apply (Known _ _ Hz) in P as (P & Q & _). inversion P. lia.
      - apply Ann in An as (c & z & Hz & P). apply (Known _ _ Hz) in P as (P & Q & _). inversion P. lia. }
  rewrite slice_np by auto. destruct (cut_cases s h U Lh) as [(Bh & Nh)|(Bh & Ih)]; rewrite Bh.
  2:{ split; [intros _|reflexivity]. left. exists first. rewrite ihard_two_iff. destruct (ihard_val _ _ Hh) as [E|E]; subst h.
      - exfalso. revert Ih. rewrite Es0 in *. apply (inside_ascii [first] s0); auto; [now apply ihard_ascii|]. rewrite len_cons, len_nil. lia.
      - repeat split; auto. exists s0. exact Es0. }
  rewrite bind_Ok. assert (~ (exists d, In d (s! "01234") /\ prefix [d] s /\ inside s 2)) as X1.
  { intros (d & Hd & P & I). specialize (Two _ Hd P). inversion Two. subst h. contradiction. }
  unfold isizage_of. destruct (lookup indexer_table (take h s)) as [z|] eqn:Hz; cbn [bind].
  2:{ split; [discriminate|]. intros [H|[(c & i & o & Hc & P & _)|[(c & i & o & Hc & P & _)|(n & An & _)]]]; [contradiction| | |].
      - apply index_chars_is in Hc as (z & Hz' & _). apply (Known _ _ Hz') in P as (P & Q & T). inversion P. subst h. congruence.
      - apply index_chars_is in Hc as (z & Hz' & _). apply (Known _ _ Hz') in P as (P & Q & T). inversion P. subst h. congruence.
      - apply Ann in An as (c & z & Hz' & P). apply (Known _ _ Hz') in P as (P & Q & T). inversion P. subst h. congruence. }
  pose proof (ilookup_facts _ _ Hz) as F. pose proof (if_cs _ _ F) as HC. pose proof (if_ls _ _ F) as (Hl1 & Hl2).
  pose proof (if_os _ _ F) as (O1 & O2 & O3 & O4 & O5). pose proof (ipad_le _ _ F) as (P1 & P2).
  assert (h = ihs z) as Eh. { rewrite <- (if_len _ _ F). rewrite len_take. lia. } rewrite Eh in *. clear Eh.
  set (hard := take (ihs z) s) in *.
  assert (prefix hard s) as Pc by (exists (drop (ihs z) s); unfold hard; now rewrite take_drop). assert (len hard = ihs z) as Lc by (unfold hard; rewrite len_take; lia).
  assert (forall c z', lookup indexer_table c = Some z' -> prefix c s -> c = hard /\ z' = z) as Same.
  { intros c z' Hz' P. pose proof (Known _ _ Hz' P) as (Q & _ & T). inversion Q as [E']. unfold hard. rewrite <- E' in T. split; [now symmetry|]. fold hard in T. congruence. }
  assert (forall c i o, In (c, (i, o)) index_chars -> prefix c s -> c = hard /\ i = ims z /\ o = ios z) as Same'.
  { intros c i o Hc P. apply index_chars_is in Hc as (z' & Hz' & -> & ->). destruct (Same _ _ Hz' P). subst. auto. }
  assert (In (hard, (ims z, ios z)) index_chars) as Hin by (apply index_chars_is; eauto).
  assert (forall n, indexed_announced s n -> ics z <= len s /\ exists v w, b64val (take (ims z) (drop (ihs z) s)) = Some v /\ b64val (take (ios z) (drop (ihs z + ims z) s)) = Some w /\ (current_sig hard = true -> w = 0) /\ n = ixfs (Ix hard [] v w) z) as Ann'.
  { intros n [c i o n' v w Hc P L V W Cu|v P L V].
    - apply indexed_texts_is in Hc as (z' & Hz' & -> & -> & -> & Ev). destruct (Same _ _ Hz' P) as (-> & ->). rewrite Lc in *. split; [unfold ics, ims in *; lia|]. exists v, w. rewrite <- !number_b64val. repeat split; auto.
      + intros E. apply Cu. now apply current_is.
      + unfold ixfs. now rewrite Ev.
    - assert (hard = s! "0z" /\ z = Isz 2 2 0 u32_max 0) as (E1 & E2). { destruct (Same (s! "0z") (Isz 2 2 0 u32_max 0) eq_refl P). auto. } rewrite E2 in *. cbn [ihs iss ios ims ics N.sub N.add] in *.
      split; [exact L|]. exists v, 0. rewrite <- !number_b64val. repeat split; auto. }
  rewrite u32_sub_in by lia. cbn [bind]. fold (ims z) (ics z).
  destruct (N.ltb_spec (len s) (ics z)) as [Ls|Ls].
  { split; [discriminate|]. intros [H|[(c & i & o & Hc & P & L & I)|[(c & i & o & Hc & P & _ & I)|(n & An & I)]]]; [contradiction| | |].
    - destruct (Same' _ _ _ Hc P) as (-> & -> & ->). unfold ics, ims in *. lia.
    - destruct (Same' _ _ _ Hc P) as (-> & -> & ->). apply In_lt in I. unfold ics, ims in *. lia.
    - apply Ann' in An. lia. }
  assert (ics z = ihs z + (ims z + ios z)) as Ecs by (unfold ics, ims; lia).
  rewrite slice_mid by lia. rewrite Bh. cbn [andb]. destruct (cut_cases s (ihs z + ims z) U ltac:(lia)) as [(Bm & Nm)|(Bm & Im)]; rewrite Bm; cbn [bind].
  2:{ split; [intros _|reflexivity]. right. left. exists hard, (ims z), (ios z). repeat split; auto; rewrite Lc; auto. lia. }
  replace (ihs z + ims z - ihs z) with (ims z) by lia.
  assert (~ (exists code i o, In (code, (i, o)) index_chars /\ prefix code s /\ len code + i + o <= len s /\ inside s (len code + i))) as X2.
  { intros (c & i & o & Hc & P & _ & I). destruct (Same' _ _ _ Hc P) as (-> & -> & ->). rewrite Lc in I. contradiction. }
  assert (len (take (ims z) (drop (ihs z) s)) = ims z) as Li by (rewrite len_take, len_drop; lia).
  destruct (b64_to_u32 (take (ims z) (drop (ihs z) s))) as [index|e|] eqn:Hi; cbn [bind].
  3:{ exfalso. revert Hi. apply b64_to_uint_no_panic. }
  2:{ assert (is_b64s (take (ims z) (drop (ihs z) s)) = false) as Nb.
      { destruct (is_b64s (take (ims z) (drop (ihs z) s))) eqn:E; auto. destruct (b64val_total _ E) as (v & V). rewrite (b64_to_u32_exact _ v) in Hi by (auto; lia). discriminate. }
      split; [discriminate|]. intros [H|[H|[(c & i & o & Hc & P & B & I)|(n & An & I)]]]; [contradiction|contradiction| |].
      - destruct (Same' _ _ _ Hc P) as (-> & -> & ->). rewrite Lc in B. congruence.
      - apply Ann' in An as (_ & v & w & V & _). rewrite (b64_to_u32_exact _ v) in Hi by (auto; lia). discriminate. }
  assert (is_b64s (take (ims z) (drop (ihs z) s)) = true) as Bi by (eapply b64_to_u32_ok; eauto).
  apply b64_to_u32_inv in Hi; [|lia].
  rewrite slice_mid by lia. rewrite Bm. cbn [andb]. destruct (cut_cases s (ihs z + (ims z + ios z)) U ltac:(lia)) as [(Bo & No)|(Bo & Io)]; rewrite Bo; cbn [bind].
  2:{ split; [intros _|reflexivity]. right. right. left. exists hard, (ims z), (ios z). rewrite Lc. repeat split; auto. now rewrite <- N.add_assoc. }
  replace (ihs z + (ims z + ios z) - (ihs z + ims z)) with (ios z) by lia.
  assert (~ (exists code i o, In (code, (i, o)) index_chars /\ prefix code s /\ is_b64s (take i (drop (len code) s)) = true /\ inside s (len code + i + o))) as X3.
  { intros (c & i & o & Hc & P & _ & I). destruct (Same' _ _ _ Hc P) as (-> & -> & ->). rewrite Lc, <- N.add_assoc in I. contradiction. }
  assert (len (take (ios z) (drop (ihs z + ims z) s)) = ios z) as Lo by (rewrite len_take, len_drop; lia).
  set (odx := take (ios z) (drop (ihs z + ims z) s)) in *.
  destruct (read_ondex_iff hard z index odx O2 Lo) as (Read & Reads).
  destruct (read_ondex hard z index odx) as [ondex|e|] eqn:Ho; cbn [bind].
  3:{ exfalso. revert Ho. apply read_ondex_np. }
  2:{ split; [discriminate|]. intros [H|[H|[H|(n & An & I)]]]; try contradiction. exfalso.
      apply Ann' in An as (_ & v & w & V & W & Cu & _). destruct (Reads (ex_intro _ w (conj W Cu))) as (o & E). discriminate. }
  destruct (Read (ex_intro _ ondex eq_refl)) as (w & W & Cu). clear Read Reads.
  assert (index < 64 ^ ims z) as Bx. { apply b64val_lt in Hi. now rewrite Li in Hi. }
  pose proof (index_lt _ _ O4 Bx) as Bx'.
  set (x := Ix hard [] index w) in *. change index with (i_index x). change hard with (i_code x) in Hz.
  rewrite ifs_step', bind_Ok by assumption. pose proof (ixfs_facts x z Hz) as (A & B & _).
  assert (indexed_announced s (ixfs x z)) as An.
  { unfold ixfs. destruct (ivar z) eqn:Ev.
    - destruct (ivar_code _ _ Hz Ev) as (E1 & E2 & E3 & E4 & E5). rewrite E5. change (i_code x) with hard in E1. apply indexed_variable; [now rewrite <- E1|rewrite <- E5; exact Ls|]. rewrite E2, E3 in Hi. exact Hi.
    - apply (indexed_fixed s hard (ims z) (ios z) (ifs z) index w); rewrite ?Lc; try assumption; [apply indexed_texts_is; exists z; repeat apply conj; try reflexivity; assumption|rewrite <- N.add_assoc, <- Ecs; exact Ls|]. intros Hc. apply Cu. now apply current_is. }
  assert (forall n, indexed_announced s n -> n = ixfs x z) as Only.
  { intros n An'. apply Ann' in An' as (_ & v & w' & V & _ & _ & ->). unfold ixfs. cbn [i_index x]. rewrite Hi in V. inversion V. reflexivity. }
  destruct (N.ltb_spec (len s) (ixfs x z)) as [Lf|Lf].
  { split; [discriminate|]. intros [H|[H|[H|(n & An' & I)]]]; try contradiction. exfalso. rewrite (Only _ An') in I. apply In_lt in I. clear - I Lf. lia. }
  rewrite slice_np by assumption. destruct (cut_cases s (ixfs x z) U Lf) as [(Bf & Nf)|(Bf & If)]; rewrite Bf; cbn [bind].
  2:{ split; [intros _|reflexivity]. right. right. right. exists (ixfs x z). split; assumption. }
  split.
  2:{ intros [H|[H|[H|(n & An' & I)]]]; try contradiction. rewrite (Only _ An') in I. contradiction. }
  intros H. exfalso. revert H. apply (itail_np s x z Hz Lf). rewrite Ecs. exact Bo.
Qed.

(** ** Parsed and printable *)
Lemma parsed_announced s m z rest : lookup matter_table (m_code m) = Some z -> size_ok m z -> s = mtext m z ++ rest -> announced s (mfs m z).
Proof.
  intros Hz Hs E. pose proof (lookup_facts _ _ Hz) as F. destruct (code_chars_is _ _ Hz) as (CC & CV). unfold mtext, mboth in E.
  unfold mfs, size_ok in *. destruct (var z) eqn:Ev.
  - rewrite <- CC. rewrite <- app_assoc in E. apply announced_variable.
    + now apply CV.
    + eexists. rewrite E. rewrite <- app_assoc. reflexivity.
    + rewrite CC, E, !len_app, (tf_len _ _ F), len_b64_digits. lia.
    + rewrite number_b64val, CC, (tf_len _ _ F). replace (hs z + ss z - hs z) with (ss z) by lia. rewrite E, <- app_assoc, drop_app_exact by apply (tf_len _ _ F).
      rewrite take_app_exact by (rewrite len_b64_digits; lia). rewrite b64val_digits, N2Nat.id. f_equal. now apply N.mod_small.
  - destruct (proj2 (fixed_is (m_code m))) as (n & Hn); [eauto|].
    pose proof fixed_chars as T. rewrite forallb_forall in T. pose proof (T _ Hn) as Q. cbn [fst snd] in Q. rewrite Hz in Q. apply N.eqb_eq in Q. rewrite Q. apply announced_fixed; auto.
    eexists. rewrite E. rewrite <- !app_assoc. reflexivity.
Qed.

(*# C11_parsed_and_printable
   Exactly which parsed texts give a primitive that prints: those whose announced part holds no padding sign. It prints in both forms or in neither.
##
Example C11_exact_case : exists m m', exfil (s! "5BABAGg=") = Ok m /\ infil m = Err EInvalidCodeSize /\ exfil (s! "5BABAGhp=") = Ok m' /\ infil m' = Ok (s! "5BABAGhp").
Proof. eexists _, _. split; [vm_compute; reflexivity|]. split; [vm_compute; reflexivity|]. split; [vm_compute; reflexivity|]. vm_compute. reflexivity. Qed.
#*)
Lemma C11_exact_l (s : bytes) (m : matter) : exfil s = Ok m ->
  exists t rest, s = t ++ rest /\ announced s (len t) /\
    ((exists p, infil m = Ok p) <-> no_padding_sign t) /\ ((exists b, binfil m = Ok b) <-> no_padding_sign t).
Proof.
  intros H. apply exfil_inv in H as (z & rest & Hz & Hs & E & L). exists (mtext m z), rest. split; [exact E|]. rewrite L. split; [eapply parsed_announced; eauto|].
  assert (forall p, infil m = Ok p -> raw_len_ok m z) as W by (intros p Hp; apply whole_raw_len; auto; eapply infil_ok_mod; eauto).
  assert (no_padding_sign (mtext m z) -> raw_len_ok m z) as W'.
  { intros Hp. apply whole_raw_len; auto. pose proof (lookup_facts _ _ Hz) as F. pose proof (pad_le _ _ F) as (P1 & P2 & P3).
    pose proof (encode_nopad_mod (zeros (pad z + ls z) ++ m_raw m)) as Q. rewrite len_app, len_zeros in Q. apply Q.
    intros Hin. apply Hp. unfold mtext. apply in_or_app. right.
    rewrite zeros_app, <- app_assoc in *. destruct (encode_zeros_any (pad z) (zeros (ls z) ++ m_raw m)) as (t & Et); auto.
    rewrite Et in *. rewrite drop_app_exact by (unfold len; rewrite repeat_length; lia).
    apply in_app_or in Hin as [Hin|Hin]; auto. apply repeat_spec in Hin. discriminate. }
  assert (raw_len_ok m z -> no_padding_sign (mtext m z)) as W'' by (apply wf_nopad; auto).
  split; split.
  - intros (p & Hp). eauto.
  - intros Hp. eexists. apply infil_wf; eauto.
  - intros (b & Hb). destruct (C98_binary_l m) as (_ & B). destruct (B b Hb) as (_ & _ & Hi). eauto.
  - intros Hp. eexists. apply binfil_wf; eauto.
Qed.
