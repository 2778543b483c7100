(** Proofs about printing and parsing indexed primitives. *)
From Coq Require Import String.
From Coq Require Import NArith ZArith Bool List Lia ZifyBool ZifyNat ZifyN.
From Verif Require Import Base BaseFacts B64 B64Facts Util UtilFacts Tables Matter MatterFacts MatterBin MatterText Indexer.
Import ListNotations.
Open Scope N_scope.
Ltac Zify.zify_post_hook ::= Z.div_mod_to_equations.

(** ** The table *)
Definition ivar (z : isizage) : bool := ifs z =? u32_max.
Definition ims (z : isizage) : N := iss z - ios z.
Definition ics (z : isizage) : N := ihs z + iss z.
Definition ipad (z : isizage) : N := ics z mod 4.

Definition ientry_ok (e : bytes * isizage) : bool :=
  let '(c, z) := e in
  (len c =? ihs z) && is_b64s c &&
  match c with
  | [] => false
  | f :: _ =>
    match ihardage f with Ok h => h =? ihs z | _ => false end &&
    match b64_index f with
    | Some i => match ibardage i with Ok h => h =? ihs z | _ => false end
    | None => false
    end
  end &&
  (((ihs z =? 1) || (ihs z =? 2)) && (ios z <=? iss z) && (ios z <=? 3) && (1 <=? ims z) && (ims z <=? 3) && (ils z <=? 1) &&
   ((ics z =? 2) || (ics z =? 4) || (ics z =? 6) || (ics z =? 8)) &&
   (iss z <=? 6) && ((ils z =? 0) || (ipad z =? 0))) &&
  if ivar z then (ics z =? 4) && (ios z =? 0) && (ils z =? 0) && negb (current_sig c) && negb (both_sig c)
  else (ifs z mod 4 =? 0) && (ifs z <? 1000) && (ics z + 4 <? ifs z) && negb (current_sig c && both_sig c)
       && (Bool.eqb (ils z =? 0) (current_sig c || both_sig c)).

Lemma indexer_table_ok : forallb ientry_ok indexer_table = true.
Proof. vm_compute. reflexivity. Qed.

Record itable_facts (c : bytes) (z : isizage) : Prop := {
  if_len : len c = ihs z;
  if_b64 : is_b64s c = true;
  if_first : exists f r i, c = f :: r /\ ihardage f = Ok (ihs z) /\ b64_index f = Some i /\ ibardage i = Ok (ihs z);
  if_hs : ihs z = 1 \/ ihs z = 2;
  if_os : ios z <= iss z /\ ios z <= 3 /\ 1 <= ims z /\ ims z <= 3 /\ iss z <= 6;
  if_ls : ils z <= 1 /\ (ils z = 0 \/ ipad z = 0);
  if_cs : ics z = 2 \/ ics z = 4 \/ ics z = 6 \/ ics z = 8;
  if_var : ivar z = true -> ics z = 4 /\ ios z = 0 /\ ils z = 0 /\ current_sig c = false /\ both_sig c = false;
  if_fix : ivar z = false -> ifs z mod 4 = 0 /\ ifs z < 1000 /\ ics z + 4 < ifs z /\ (current_sig c && both_sig c = false)
                             /\ (ils z =? 0) = (current_sig c || both_sig c);
}.

Lemma ilookup_facts c z : lookup indexer_table c = Some z -> itable_facts c z.
Proof.
  intros H. apply lookup_In in H. pose proof (proj1 (forallb_forall _ _) indexer_table_ok _ H) as E. clear H. unfold ientry_ok in E.
  apply andb_true_iff in E as [E E4]. apply andb_true_iff in E as [E E3]. apply andb_true_iff in E as [E E2].
  apply andb_true_iff in E as [E0 E1]. destruct c as [|f r]; try discriminate.
  apply andb_true_iff in E2 as [E2 E5]. destruct (ihardage f) as [h| |] eqn:Eh; try discriminate.
  destruct (b64_index f) as [i|] eqn:Ei; try discriminate.
  destruct (ibardage i) as [h'| |] eqn:Eh'; try discriminate.
  constructor; auto; try lia.
  - exists f, r, i. repeat split; auto; rewrite ?Eh, ?Eh'; f_equal; lia.
  - intros Ev. rewrite Ev in E4. repeat (apply andb_true_iff in E4 as [E4 ?]). repeat split; try lia; now apply negb_true_iff.
  - intros Ev. rewrite Ev in E4. apply andb_true_iff in E4 as [E4 E6]. apply andb_true_iff in E4 as [E4 E7].
    apply negb_true_iff in E7. apply eqb_prop in E6. repeat split; auto; lia.
Qed.

Lemma isizage_of_ok c z : isizage_of c = Ok z <-> lookup indexer_table c = Some z.
Proof. unfold isizage_of. destruct (lookup indexer_table c); split; intros H; inversion H; auto. Qed.
Lemma isizage_of_np c : isizage_of c <> Panic.
Proof. unfold isizage_of. destruct (lookup indexer_table c); discriminate. Qed.

(** ** Printable primitives and their forms *)
Definition ixfs (x : indexer) (z : isizage) : N := if ivar z then ics z + 4 * i_index x else ifs z.

Definition irange (x : indexer) (z : isizage) : Prop :=
  i_index x < 64 ^ ims z /\ (0 < ios z -> i_ondex x < 64 ^ ios z).
Definition iraw_ok (x : indexer) (z : isizage) : Prop :=
  irange x z /\ 4 * (ipad z + ils z + len (i_raw x)) = 3 * (ixfs x z - ics z + ipad z).
(** What a parser can return as other index. *)
Definition iond_ok (x : indexer) (z : isizage) : Prop :=
  if ios z =? 0 then i_ondex x = (if current_sig (i_code x) then 0 else i_index x)
  else current_sig (i_code x) = true -> i_ondex x = 0.

Definition iboth (x : indexer) (z : isizage) : bytes :=
  i_code x ++ b64_digits (N.to_nat (ims z)) (i_index x) ++ b64_digits (N.to_nat (ios z)) (i_ondex x).
(** [l] is the number of lead bytes not kept in the raw part. *)
Definition itext_l (l : N) (x : indexer) (z : isizage) : bytes :=
  iboth x z ++ drop (ipad z) (encode (zeros (ipad z + l) ++ i_raw x)).
Definition itext (x : indexer) (z : isizage) : bytes := itext_l (ils z) x z.
Definition ibin (x : indexer) (z : isizage) : bytes := bcode (iboth x z) ++ zeros (ils z) ++ i_raw x.

Lemma len_iboth x z : lookup indexer_table (i_code x) = Some z -> len (iboth x z) = ics z.
Proof.
  intros H. pose proof (ilookup_facts _ _ H) as F. pose proof (if_os _ _ F). unfold iboth. rewrite !len_app, (if_len _ _ F), !len_b64_digits.
  unfold ics, ims in *. lia.
Qed.
Lemma iboth_b64 x z : lookup indexer_table (i_code x) = Some z -> is_b64s (iboth x z) = true.
Proof.
  intros H. pose proof (ilookup_facts _ _ H) as F. unfold iboth. now rewrite !is_b64s_app, (if_b64 _ _ F), !is_b64s_digits.
Qed.

Lemma ipad_le c z : itable_facts c z -> ipad z <= 2 /\ (ivar z = true -> ipad z = 0).
Proof.
  intros F. pose proof (if_cs _ _ F). unfold ipad. split; [lia|]. intros Ev. destruct (if_var _ _ F Ev) as (-> & _). reflexivity.
Qed.

Lemma index_small x z : irange x z -> ims z <= 3 -> i_index x < 262144.
Proof.
  intros [H _] L. assert (64 ^ ims z <= 64 ^ 3) by (apply N.pow_le_mono_r; lia). change (64 ^ 3) with 262144 in *. lia.
Qed.

Lemma ixfs_facts x z : lookup indexer_table (i_code x) = Some z ->
  ics z <= ixfs x z /\ ixfs x z mod 4 = 0 /\ (i_index x < 262144 -> ixfs x z <= 2000000).
Proof.
  intros H. pose proof (ilookup_facts _ _ H) as F. unfold ixfs. destruct (ivar z) eqn:Ev.
  - destruct (if_var _ _ F Ev) as (-> & _). lia.
  - destruct (if_fix _ _ F Ev). lia.
Qed.

Lemma iraw_mod3 x z : lookup indexer_table (i_code x) = Some z -> iraw_ok x z -> (ipad z + ils z + len (i_raw x)) mod 3 = 0.
Proof.
  intros H [_ W]. pose proof (ilookup_facts _ _ H) as F. destruct (ixfs_facts x z H) as (A & B & _). pose proof (if_cs _ _ F).
  unfold ipad in *. lia.
Qed.

Lemma len_itext x z : lookup indexer_table (i_code x) = Some z -> iraw_ok x z -> len (itext x z) = ixfs x z.
Proof.
  intros H W. pose proof (iraw_mod3 x z H W) as D. destruct (ixfs_facts x z H) as (A & B & _). destruct W as [_ W].
  pose proof (ilookup_facts _ _ H) as F. pose proof (ipad_le _ _ F).
  unfold itext, itext_l. rewrite len_app, len_iboth by auto. rewrite len_drop, len_encode, len_app, len_zeros. lia.
Qed.
Lemma itext_b64 x z : lookup indexer_table (i_code x) = Some z -> iraw_ok x z -> is_b64s (itext x z) = true.
Proof.
  intros H W. unfold itext, itext_l. rewrite is_b64s_app, iboth_b64 by auto. apply is_b64s_drop, encode_b64s.
  rewrite len_app, len_zeros. now apply iraw_mod3.
Qed.
Lemma itext_ascii x z : lookup indexer_table (i_code x) = Some z -> iraw_ok x z -> ascii (itext x z) = true.
Proof. intros. now apply is_b64s_ascii, itext_b64. Qed.

(** ** Printing text *)
Lemma ifs_step x z : lookup indexer_table (i_code x) = Some z -> i_index x < 262144 ->
  (if ifs z =? u32_max
   then if negb (ics z mod 4 =? 0) then Err EInvalidCodeSize
        else if negb (ios z =? 0) then Err EInvalidCodeSize
        else let* q := u32_mul (i_index x) 4 in u32_add q (ics z)
   else Ok (ifs z)) = Ok (ixfs x z).
Proof.
  intros H Hi. pose proof (ilookup_facts _ _ H) as F. fold (ivar z). unfold ixfs. destruct (ivar z) eqn:Ev; auto.
  destruct (if_var _ _ F Ev) as (-> & -> & _). change (negb (4 mod 4 =? 0)) with false. change (negb (0 =? 0)) with false. cbv iota.
  rewrite u32_mul_in by (unfold u32_max; lia). rewrite bind_Ok, u32_add_in by (unfold u32_max; lia). f_equal. lia.
Qed.

Lemma both_step x z : lookup indexer_table (i_code x) = Some z -> irange x z ->
  i_code x ++ uint_to_b64 (i_index x) (ims z) ++ uint_to_b64 (i_ondex x) (ios z) = iboth x z.
Proof.
  intros H [R1 R2]. pose proof (ilookup_facts _ _ H) as F. pose proof (if_os _ _ F). unfold iboth.
  rewrite uint_to_b64_exact by lia. do 2 f_equal. destruct (N.eq_dec (ios z) 0) as [E|E].
  - rewrite E. reflexivity.
  - apply uint_to_b64_exact; [lia|]. apply R2. lia.
Qed.

Lemma ps_step x z : lookup indexer_table (i_code x) = Some z -> iraw_ok x z ->
  (3 - len (i_raw x) mod 3) mod 3 = ipad z + ils z.
Proof.
  intros H W. pose proof (iraw_mod3 x z H W) as D. pose proof (ilookup_facts _ _ H) as F.
  pose proof (ipad_le _ _ F). pose proof (if_ls _ _ F). lia.
Qed.

Lemma iinfil_wf x z : lookup indexer_table (i_code x) = Some z -> iraw_ok x z -> iinfil x = Ok (itext x z).
Proof.
  intros H W. pose proof (ilookup_facts _ _ H) as F. pose proof (ipad_le _ _ F) as (P1 & P2).
  pose proof (iraw_mod3 x z H W) as D. pose proof (ps_step x z H W) as Eps. pose proof (len_itext x z H W) as Lt.
  pose proof (if_os _ _ F) as (O1 & O2 & O3 & O4 & O5). destruct W as [Rg W]. pose proof (index_small x z Rg O4) as Hi.
  unfold iinfil. rewrite Eps. rewrite (proj2 (isizage_of_ok _ _) H), bind_Ok. cbv zeta. rewrite u32_sub_in by lia. rewrite bind_Ok.
  fold (ims z) (ics z). rewrite ifs_step by auto. rewrite bind_Ok, pow64_small by lia. rewrite bind_Ok.
  replace (64 ^ ims z - 1 <? i_index x) with false by (destruct Rg; lia).
  match goal with |- bind ?t _ = _ => assert (t = Ok tt) as -> end.
  { destruct (N.ltb_spec 0 (ios z)) as [Q|Q]; auto. rewrite pow64_small by lia. rewrite bind_Ok.
    destruct Rg as [_ Rg]. specialize (Rg Q). replace (64 ^ ios z - 1 <? i_ondex x) with false by lia. reflexivity. }
  rewrite bind_Ok, both_step by auto. rewrite len_iboth, N.eqb_refl by auto. cbn [negb].
  rewrite u32_sub_in by lia. rewrite bind_Ok. replace (ipad z + ils z - ils z) with (ipad z) by lia. fold (ipad z). rewrite N.eqb_refl.
  cbn [negb]. rewrite from_str_encode by (rewrite len_encode, len_app, len_zeros; lia). rewrite bind_Ok.
  fold (itext_l (ils z) x z). fold (itext x z). rewrite Lt, N.eqb_refl. reflexivity.
Qed.

(** Anything printed is of this form. *)
Lemma iinfil_inv x t : iinfil x = Ok t -> exists z, lookup indexer_table (i_code x) = Some z /\ iraw_ok x z.
Proof.
  intros H. unfold iinfil in H. apply bind_ok in H as (z & Hz & H). apply isizage_of_ok in Hz. exists z. split; auto.
  pose proof (ilookup_facts _ _ Hz) as F. pose proof (ipad_le _ _ F) as (P1 & P2). pose proof (if_os _ _ F) as (O1 & O2 & O3 & O4 & O5).
  pose proof (if_ls _ _ F) as (L1 & L2). pose proof (if_cs _ _ F) as HC.
  cbv zeta in H. apply bind_ok in H as (ms & Hms & H). apply u32_sub_ok in Hms as [_ ->]. fold (ims z) (ics z) in H.
  apply bind_ok in H as (f & Hf & H). rewrite pow64_small, bind_Ok in H by lia.
  destruct (64 ^ ims z - 1 <? i_index x) eqn:E1; try discriminate.
  assert (64 ^ ims z <> 0) as Pn by (now apply N.pow_nonzero).
  apply bind_ok in H as (u & Hu & H).
  assert (irange x z) as Rg.
  { split; [lia|]. intros Ho. replace (0 <? ios z) with true in Hu by lia. rewrite pow64_small, bind_Ok in Hu by lia.
    assert (64 ^ ios z <> 0) as Pn' by (now apply N.pow_nonzero).
    destruct (64 ^ ios z - 1 <? i_ondex x) eqn:E2; try discriminate. lia. }
  rewrite both_step, len_iboth, N.eqb_refl in H by auto. cbn [negb] in H.
  assert (f = ixfs x z) as Ef. { pose proof (index_small x z Rg O4). rewrite ifs_step in Hf by auto. now inversion Hf. }
  apply bind_ok in H as (d & Hd & H). apply u32_sub_ok in Hd as [Hd ->]. fold (ipad z) in H.
  set (ps := (3 - len (i_raw x) mod 3) mod 3) in *.
  destruct (ipad z =? ps - ils z) eqn:E3; cbn [negb] in H; try discriminate.
  apply bind_ok in H as (tt' & Htt & H). destruct (len (iboth x z ++ tt') =? f) eqn:E4; cbn [negb] in H; try discriminate.
  rewrite from_str_encode in Htt by (rewrite len_encode, len_app, len_zeros; unfold ps in *; lia). inversion Htt; subst tt'; clear Htt.
  rewrite len_app, len_iboth in E4 by auto. rewrite len_drop, len_encode, len_app, len_zeros in E4.
  destruct (ixfs_facts x z Hz) as (A & B & _). split; auto.
  clear - Hd E3 E4 A B HC L1 P1 Ef. unfold ps, ipad in *. clear ps. lia.
Qed.

(** ** Printing binary *)
Lemma bcode_app a b : len a = 4 -> is_b64s a = true -> is_b64s b = true -> 1 <= len b -> len b <= 4 -> bcode (a ++ b) = bcode a ++ bcode b.
Proof.
  intros La Ha Hb L1 L2. destruct (b64val_total a Ha) as (u & Hu). destruct (b64val_total b Hb) as (v & Hv).
  pose proof (b64val_app _ _ _ _ Hu Hv) as Huv.
  destruct (bcode_val _ _ Hu) as (V1 & N1); [lia|lia|]. destruct (bcode_val _ _ Hv) as (V2 & N2); [lia|lia|].
  assert (len (a ++ b) = 4 + len b) as L by (rewrite len_app; lia).
  destruct (bcode_val _ _ Huv) as (V3 & N3); [lia|lia|].
  apply be_val_inj.
  - rewrite len_app, N1, N2, N3, L, La. unfold nbytes. lia.
  - rewrite be_val_app, V1, V2, V3, N2, L, La. change (2 ^ (2 * (4 mod 4))) with 1. rewrite pow_nbytes by lia.
    replace ((4 + len b) mod 4) with (len b mod 4) by lia. lia.
Qed.

Lemma encode_bcode' both rest : is_b64s both = true ->
  (len both = 2 \/ len both = 4 \/ len both = 6 \/ len both = 8) ->
  (len both mod 4 + len rest) mod 3 = 0 ->
  encode (bcode both ++ rest) = both ++ drop (len both mod 4) (encode (zeros (len both mod 4) ++ rest)).
Proof.
  intros Hb HL Hm. destruct (N.eq_dec (len both) 6) as [E6|E6]; [|apply encode_bcode; auto; lia].
  rewrite <- (take_drop 4 both) at 1 2.
  assert (len (take 4 both) = 4) as L4 by (rewrite len_take; lia). assert (len (drop 4 both) = 2) as L2 by (rewrite len_drop; lia).
  rewrite bcode_app; auto using is_b64s_take, is_b64s_drop; try lia.
  rewrite <- !app_assoc. destruct (b64val_total (take 4 both)) as (u & Hu); [now apply is_b64s_take|].
  destruct (bcode_val _ _ Hu) as (V1 & N1); [lia|lia|]. rewrite L4 in N1. change (nbytes 4) with 3 in N1.
  rewrite encode_app by (rewrite N1; reflexivity).
  pose proof (encode_bcode (take 4 both) []) as Q4. rewrite app_nil_r in Q4. rewrite Q4; auto using is_b64s_take; try lia.
  2:{ rewrite L4. reflexivity. }
  rewrite L4. change (drop (4 mod 4) (encode (zeros (4 mod 4) ++ []))) with (@nil byte). rewrite app_nil_r. f_equal.
  rewrite E6 in *. change (6 mod 4) with 2 in *. rewrite encode_bcode; auto using is_b64s_drop; rewrite L2; auto.
Qed.

Lemma encode_ibin x z : lookup indexer_table (i_code x) = Some z -> iraw_ok x z -> encode (ibin x z) = itext x z.
Proof.
  intros H W. pose proof (ilookup_facts _ _ H) as F. pose proof (len_iboth x z H) as Lb.
  pose proof (iraw_mod3 x z H W) as D. unfold ibin. rewrite encode_bcode'.
  - unfold itext, itext_l. rewrite Lb. fold (ipad z). now rewrite zeros_app, <- app_assoc.
  - now apply iboth_b64.
  - rewrite Lb. apply (if_cs _ _ F).
  - rewrite Lb, len_app, len_zeros. fold (ipad z). rewrite N.add_assoc. exact D.
Qed.

Lemma len_bcode_iboth x z : lookup indexer_table (i_code x) = Some z -> len (bcode (iboth x z)) = nbytes (ics z).
Proof.
  intros H. pose proof (ilookup_facts _ _ H) as F. pose proof (if_cs _ _ F). pose proof (len_iboth x z H) as Lb.
  destruct (b64val_total _ (iboth_b64 x z H)) as (v & Hv). destruct (bcode_val _ v Hv) as (_ & L); [lia|lia|]. now rewrite Lb in L.
Qed.

Lemma len_ibin x z : lookup indexer_table (i_code x) = Some z -> iraw_ok x z -> 4 * len (ibin x z) = 3 * ixfs x z.
Proof.
  intros H W. pose proof (ilookup_facts _ _ H) as F. pose proof (if_cs _ _ F). pose proof (len_bcode_iboth x z H) as L.
  destruct (ixfs_facts x z H) as (A & B & _). destruct W as [_ W].
  unfold ibin. rewrite !len_app, L, len_zeros. unfold ipad, nbytes in *. lia.
Qed.

Lemma pow6_panics : pow64_u32 6 = Panic.
Proof. vm_compute. reflexivity. Qed.

Lemma ibinfil_panics x z : lookup indexer_table (i_code x) = Some z -> iss z = 6 -> ibinfil x = Panic.
Proof.
  intros H E. unfold ibinfil. rewrite (proj2 (isizage_of_ok _ _) H), bind_Ok. cbv zeta.
  pose proof (if_os _ _ (ilookup_facts _ _ H)). rewrite u32_sub_in by lia. rewrite bind_Ok, E, pow6_panics. reflexivity.
Qed.

Lemma ibinfil_wf x z : lookup indexer_table (i_code x) = Some z -> iraw_ok x z -> iss z <= 5 -> ibinfil x = Ok (ibin x z).
Proof.
  intros H W S5. pose proof (ilookup_facts _ _ H) as F. pose proof (ipad_le _ _ F) as (P1 & P2). pose proof (if_cs _ _ F) as HC.
  pose proof (iraw_mod3 x z H W) as D. pose proof (ps_step x z H W) as Eps. pose proof (len_ibin x z H W) as Lm.
  pose proof (if_os _ _ F) as (O1 & O2 & O3 & O4 & O5). pose proof (len_iboth x z H) as Lb. pose proof (len_bcode_iboth x z H) as Lc.
  destruct (ixfs_facts x z H) as (A & B & _).
  destruct W as [Rg W]. pose proof (index_small x z Rg O4) as Hi.
  destruct (b64val_total _ (iboth_b64 x z H)) as (v & Hv). pose proof (b64val_lt _ _ Hv) as Bv. rewrite Lb in Bv.
  unfold ibinfil. rewrite Eps. rewrite (proj2 (isizage_of_ok _ _) H), bind_Ok. cbv zeta. rewrite u32_sub_in by lia. rewrite bind_Ok.
  fold (ims z) (ics z). rewrite pow64_small by lia. rewrite bind_Ok.
  assert (64 ^ ims z <= 64 ^ iss z) by (apply N.pow_le_mono_r; unfold ims; lia).
  replace (64 ^ iss z - 1 <? i_index x) with false by (destruct Rg; lia).
  match goal with |- bind ?t _ = _ => assert (t = Ok tt) as -> end.
  { destruct (N.eqb_spec (ios z) 1) as [Q|Q]; auto. rewrite pow64_small by lia. rewrite bind_Ok.
    destruct Rg as [_ Rg]. rewrite Q in *. specialize (Rg eq_refl). replace (64 ^ 1 - 1 <? i_ondex x) with false by lia. reflexivity. }
  rewrite bind_Ok, ifs_step by auto. rewrite bind_Ok, both_step by auto. rewrite Lb, N.eqb_refl. cbn [negb].
  rewrite u32_sub_in by lia. rewrite bind_Ok. replace (ipad z + ils z - ils z) with (ipad z) by lia. fold (ipad z). rewrite N.eqb_refl.
  cbn [negb]. fold (nbytes (ics z)).
  match goal with |- bind ?t _ = _ =>
    assert (exists W8, t = Ok (be_bytes W8 (v * 2 ^ (2 * ipad z))) /\ (N.to_nat (nbytes (ics z)) <= W8)%nat) as (W8 & -> & HW8)
  end.
  { assert (v * 2 ^ (2 * ipad z) < 256 ^ nbytes (ics z)) as HV.
    { rewrite pow_nbytes8 by lia. fold (ipad z). apply N.mul_lt_mono_pos_r; [|exact Bv]. apply N.neq_0_lt_0. now apply N.pow_nonzero. }
    destruct (nbytes (ics z) <=? 3) eqn:E3.
    - exists 4%nat. rewrite (b64_to_u32_exact _ _ Hv) by (rewrite Lb; unfold nbytes in E3; lia).
      rewrite bind_Ok. split; [|lia]. rewrite N.mod_small; auto.
      assert (256 ^ nbytes (ics z) <= 256 ^ 3) as Q by (apply N.pow_le_mono_r; lia).
      change (256 ^ 3) with 16777216 in Q. lia.
    - exists 8%nat. assert (nbytes (ics z) <= 6) by (unfold nbytes; lia).
      replace (nbytes (ics z) <=? 6) with true by lia.
      rewrite (b64_to_u64_exact _ _ Hv) by (rewrite Lb; lia).
      rewrite bind_Ok. split; [|lia]. rewrite N.mod_small; auto.
      assert (256 ^ nbytes (ics z) <= 256 ^ 6) as Q by (apply N.pow_le_mono_r; lia).
      change (256 ^ 6) with 281474976710656 in Q. lia. }
  rewrite bind_Ok. rewrite len_be_bytes.
  rewrite from_bytes_in by (rewrite len_be_bytes; lia). rewrite bind_Ok.
  assert (drop (N.of_nat W8 - nbytes (ics z)) (be_bytes W8 (v * 2 ^ (2 * ipad z))) = bcode (iboth x z)) as ->.
  { unfold bcode. rewrite Hv, Lb. fold (ipad z).
    replace (N.of_nat W8 - nbytes (ics z)) with (N.of_nat (W8 - N.to_nat (nbytes (ics z)))) by lia.
    replace W8 with ((W8 - N.to_nat (nbytes (ics z))) + N.to_nat (nbytes (ics z)))%nat at 2 by lia.
    apply drop_be_bytes. }
  fold (ibin x z).
  replace (len (ibin x z) mod 3) with 0 by lia. replace (len (ibin x z) * 4 / 3) with (ixfs x z) by lia.
  rewrite !N.eqb_refl. reflexivity.
Qed.

(** ** Parsing *)
Lemma current_os code z : lookup indexer_table code = Some z -> current_sig code = true -> ios z = 0 \/ 0 < ios z.
Proof. lia. Qed.

Lemma read_ondex_wf x z : lookup indexer_table (i_code x) = Some z -> irange x z -> iond_ok x z ->
  read_ondex (i_code x) z (i_index x) (b64_digits (N.to_nat (ios z)) (i_ondex x)) = Ok (i_ondex x).
Proof.
  intros H [_ R2] Ho. pose proof (ilookup_facts _ _ H) as F. pose proof (if_os _ _ F).
  unfold read_ondex, iond_ok in *. destruct (ios z =? 0) eqn:E; cbn [negb].
  - rewrite Ho. destruct (current_sig (i_code x)); reflexivity.
  - assert (b64_to_u32 (b64_digits (N.to_nat (ios z)) (i_ondex x)) = Ok (i_ondex x)) as ->.
    { apply b64_to_u32_exact; [|rewrite len_b64_digits; lia]. rewrite b64val_digits, N2Nat.id, N.mod_small; auto. apply R2. lia. }
    destruct (current_sig (i_code x)); auto. rewrite bind_Ok. rewrite Ho by auto. reflexivity.
Qed.

Lemma read_ondex_inv hard z index odx o : lookup indexer_table hard = Some z -> len odx = ios z ->
  read_ondex hard z index odx = Ok o ->
  iond_ok (Ix hard [] index o) z /\ (0 < ios z -> o < 64 ^ ios z) /\ odx = b64_digits (N.to_nat (ios z)) o.
Proof.
  intros H L Hr. pose proof (ilookup_facts _ _ H) as F. pose proof (if_os _ _ F).
  unfold read_ondex, iond_ok in *. cbn [i_code i_index i_ondex]. destruct (ios z =? 0) eqn:E; cbn [negb] in Hr.
  - assert (ios z = 0) as E0 by lia. rewrite E0 in *. split; [|split; [lia|now apply len_0_nil]].
    destruct (current_sig hard); now inversion Hr.
  - assert (forall w, b64_to_u32 odx = Ok w -> w < 64 ^ ios z /\ odx = b64_digits (N.to_nat (ios z)) w) as K.
    { intros w Hw. apply b64_to_u32_inv in Hw; [|lia]. pose proof (b64val_lt _ _ Hw). rewrite L in *. split; auto.
      apply b64_digits_val in Hw. rewrite <- Hw. f_equal. unfold len in L. lia. }
    destruct (current_sig hard).
    + apply bind_ok in Hr as (w & Hw & Hr). destruct (w =? 0) eqn:Ew; cbn [negb] in Hr; try discriminate. inversion Hr; subst o.
      assert (w = 0) by lia. subst w. destruct (K 0 Hw). auto.
    + destruct (K o Hr). split; [discriminate|]. auto.
Qed.

Lemma ifs_step' x z e1 e2 : lookup indexer_table (i_code x) = Some z -> i_index x < 262144 ->
  (if ifs z =? u32_max
   then if negb (ics z mod 4 =? 0) then Err e1
        else if negb (ios z =? 0) then Err e2
        else let* q := u32_mul (i_index x) 4 in u32_add q (ics z)
   else Ok (ifs z)) = Ok (ixfs x z).
Proof.
  intros H Hi. pose proof (ilookup_facts _ _ H) as F. fold (ivar z). unfold ixfs. destruct (ivar z) eqn:Ev; auto.
  destruct (if_var _ _ F Ev) as (-> & -> & _). change (negb (4 mod 4 =? 0)) with false. change (negb (0 =? 0)) with false. cbv iota.
  rewrite u32_mul_in by (unfold u32_max; lia). rewrite bind_Ok, u32_add_in by (unfold u32_max; lia). f_equal. lia.
Qed.

Lemma b64_u32_digits n k v : k = N.of_nat n -> k <= 5 -> v < 64 ^ k -> b64_to_u32 (b64_digits n v) = Ok v.
Proof.
  intros -> Hk Hv. apply b64_to_u32_exact; [|rewrite len_b64_digits; lia]. now rewrite b64val_digits, N.mod_small.
Qed.

Lemma be_val_zeros0 n : be_val (zeros n) = 0.
Proof. pose proof (be_val_zeros n []) as Z. now rewrite app_nil_r in Z. Qed.

Lemma iexfil_itext x z rest : lookup indexer_table (i_code x) = Some z -> iraw_ok x z -> iond_ok x z -> ils z = 0 ->
  utf8 rest = true -> iexfil (itext x z ++ rest) = Ok x.
Proof.
  intros H W Ho L0 Hu. pose proof (ilookup_facts _ _ H) as F. pose proof (ipad_le _ _ F) as (P1 & P2).
  pose proof (iraw_mod3 x z H W) as D. pose proof (len_itext x z H W) as Lt.
  pose proof (itext_ascii x z H W) as Ha. pose proof (len_iboth x z H) as Lb.
  pose proof (if_os _ _ F) as (O1 & O2 & O3 & O4 & O5). pose proof (if_cs _ _ F) as HC.
  destruct (ixfs_facts x z H) as (A & B & _). destruct W as [Rg W]. pose proof (index_small x z Rg O4) as Hi.
  destruct (if_first _ _ F) as (f & r & i & Ec & Ehard & _ & _).
  set (T := itext x z) in *.
  assert (T = i_code x ++ b64_digits (N.to_nat (ims z)) (i_index x) ++ b64_digits (N.to_nat (ios z)) (i_ondex x) ++
     drop (ipad z) (encode (zeros (ipad z) ++ i_raw x))) as ET.
  { unfold T, itext, itext_l, iboth. rewrite L0, N.add_0_r. now rewrite <- !app_assoc. }
  assert (exists t, T ++ rest = f :: t) as (t & Et). { rewrite ET, Ec. cbn [app]. eauto. }
  unfold iexfil. rewrite Et. rewrite <- Et. rewrite Ehard, bind_Ok.
  assert (len (T ++ rest) = ixfs x z + len rest) as LL by (rewrite len_app, Lt; reflexivity).
  assert (len (i_code x) = ihs z) as Lh by apply (if_len _ _ F).
  rewrite LL. unfold ics in *. replace (ixfs x z + len rest <? ihs z) with false by lia.
  rewrite slice_str_ascii_prefix by (auto; lia). rewrite bind_Ok, drop_0, N.sub_0_r.
  assert (take (ihs z) T = i_code x) as -> by (rewrite ET; now apply take_app_exact).
  rewrite (proj2 (isizage_of_ok _ _) H), bind_Ok. cbv zeta. rewrite u32_sub_in by lia. rewrite bind_Ok. fold (ims z) (ics z) (ipad z).
  replace (ixfs x z + len rest <? ics z) with false by (unfold ics; lia).
  rewrite slice_str_ascii_prefix by (auto; unfold ims in *; lia). rewrite bind_Ok.
  assert (take (ihs z + ims z - ihs z) (drop (ihs z) T) = b64_digits (N.to_nat (ims z)) (i_index x)) as ->.
  { rewrite ET, drop_app_exact by auto. apply take_app_exact. rewrite len_b64_digits. lia. }
  rewrite (b64_u32_digits _ (ims z)) by (try lia; destruct Rg; auto). rewrite bind_Ok.
  rewrite slice_str_ascii_prefix by (auto; unfold ims in *; lia). rewrite bind_Ok.
  assert (take (ihs z + (ims z + ios z) - (ihs z + ims z)) (drop (ihs z + ims z) T) = b64_digits (N.to_nat (ios z)) (i_ondex x)) as ->.
  { rewrite <- drop_drop, ET. rewrite !drop_app_exact by (auto; rewrite len_b64_digits; lia). apply take_app_exact. rewrite len_b64_digits. lia. }
  rewrite read_ondex_wf by auto. rewrite bind_Ok. rewrite ifs_step' by auto. rewrite bind_Ok.
  replace (ixfs x z + len rest <? ixfs x z) with false by lia.
  rewrite slice_str_ascii_prefix by (auto; lia). rewrite bind_Ok, drop_0, N.sub_0_r, (take_all _ T) by lia.
  assert (from_str T (ics z) = Ok (drop (ipad z) (encode (zeros (ipad z) ++ i_raw x)))) as Erest.
  { rewrite from_str_ascii by (auto; unfold ics; lia). f_equal. unfold T, itext, itext_l. rewrite L0, N.add_0_r.
    apply drop_app_exact. unfold ics. lia. }
  rewrite Erest, L0. destruct (ipad z =? 0) eqn:Ep; cbn [negb].
  - assert (ipad z = 0) as Ep' by lia. rewrite Ep'. rewrite !bind_Ok, drop_0. change (zeros 0 ++ i_raw x) with (i_raw x).
    rewrite decode_encode, bind_Ok. rewrite slice_bytes_in by lia. rewrite bind_Ok, take_0.
    change (be_val []) with 0. change (negb (0 =? 0)) with false. cbv iota. rewrite from_bytes_in by lia. rewrite bind_Ok, drop_0. now destruct x.
  - rewrite bind_Ok. rewrite L0 in *. rewrite <- encode_zeros by lia. rewrite decode_encode, bind_Ok.
    rewrite slice_bytes_in by (rewrite ?len_app, ?len_zeros; lia). rewrite bind_Ok, drop_0, N.sub_0_r.
    rewrite take_app_exact by apply len_zeros. rewrite be_val_zeros0.
    rewrite N.mod_0_l by (now apply N.pow_nonzero). change (negb (0 =? 0)) with false. cbv iota.
    rewrite from_bytes_in by (rewrite len_app, len_zeros; lia).
    rewrite drop_app_exact by apply len_zeros. rewrite bind_Ok. now destruct x.
Qed.

(** Everything the text parser accepts: note that lead bytes stay in the raw part. *)
Lemma iexfil_inv s x : iexfil s = Ok x ->
  exists z rest, lookup indexer_table (i_code x) = Some z /\ irange x z /\ iond_ok x z /\ s = itext_l 0 x z ++ rest /\
    len (itext_l 0 x z) = ixfs x z /\ (0 < ils z -> take (ils z) (i_raw x) = zeros (ils z)).
Proof.
  intros H. unfold iexfil in H. destruct s as [|first s0] eqn:Es0; try discriminate. rewrite <- Es0 in *. clear Es0 s0.
  apply bind_ok in H as (h & Hh & H). destruct (len s <? h) eqn:Elh; try discriminate.
  apply bind_ok in H as (hard & Hhard & H). apply bind_ok in H as (z & Hz & H). apply isizage_of_ok in Hz.
  pose proof (ilookup_facts _ _ Hz) as F. pose proof (if_cs _ _ F) as HC.
  pose proof (ipad_le _ _ F) as (P1 & P2). pose proof (if_ls _ _ F) as (Hl1 & Hl2). pose proof (if_os _ _ F) as (O1 & O2 & O3 & O4 & O5).
  apply slice_str_ok' in Hhard as (_ & _ & Ehard). rewrite drop_0, N.sub_0_r in Ehard.
  assert (h = ihs z) as Eh. { rewrite <- (if_len _ _ F), Ehard, len_take. lia. } subst h.
  cbv zeta in H. rewrite u32_sub_in, bind_Ok in H by lia. fold (ims z) (ics z) in H. fold (ipad z) in H.
  destruct (len s <? ics z) eqn:Elc; try discriminate.
  apply bind_ok in H as (is & His & H). apply slice_str_ok' in His as (_ & _ & Eis).
  apply bind_ok in H as (index & Hindex & H). apply bind_ok in H as (odx & Hodx & H). apply slice_str_ok' in Hodx as (_ & _ & Eodx).
  apply bind_ok in H as (ondex & Hondex & H). apply bind_ok in H as (f & Hf & H).
  destruct (len s <? f) eqn:Elf; try discriminate.
  apply bind_ok in H as (trim & Htrim & H). apply slice_str_ok' in Htrim as (_ & _ & Etrim). rewrite drop_0, N.sub_0_r in Etrim.
  apply bind_ok in H as (raw & Hraw & H). inversion H; subst x; clear H.
  assert (ics z = ihs z + (ims z + ios z)) as Ecs by (unfold ics, ims; lia).
  replace (ihs z + ims z - ihs z) with (ims z) in Eis by lia.
  replace (ihs z + (ims z + ios z) - (ihs z + ims z)) with (ios z) in Eodx by lia.
  assert (len is = ims z) as Lis by (rewrite Eis, len_take, len_drop; lia).
  assert (len odx = ios z) as Lodx by (rewrite Eodx, len_take, len_drop; lia).
  apply read_ondex_inv in Hondex as (Ho & Ro & Eo); auto.
  apply b64_to_u32_inv in Hindex; [|lia]. pose proof (b64val_lt _ _ Hindex) as Bi. rewrite Lis in Bi.
  apply b64_digits_val in Hindex. replace (length is) with (N.to_nat (ims z)) in Hindex by (unfold len in Lis; lia).
  set (x := Ix hard raw index ondex). exists z, (drop f s). split; auto.
  assert (irange x z) as Rg by (split; auto). split; auto. split; [exact Ho|].
  assert (f = ixfs x z) as Ef.
  { pose proof (index_small x z Rg O4) as Hi. change index with (i_index x) in Hf. rewrite ifs_step' in Hf by auto. now inversion Hf. }
  assert (take (ics z) s = iboth x z) as Eboth.
  { unfold iboth. cbn [x i_code i_index i_ondex]. rewrite Hindex, <- Eo, Eis, Eodx, Ehard, Ecs.
    rewrite <- (take_drop (ihs z) (take (ihs z + (ims z + ios z)) s)). rewrite take_take, N.min_l by lia. f_equal.
    rewrite <- take_drop_comm. rewrite <- (take_drop (ims z) (take (ims z + ios z) (drop (ihs z) s))). rewrite take_take, N.min_l by lia. f_equal.
    rewrite <- take_drop_comm. now rewrite drop_drop. }
  destruct (ixfs_facts x z Hz) as (A & B & _). rewrite <- Ef in A, B.
  assert (len trim = f) as Ltrim by (rewrite Etrim, len_take; lia).
  assert (take f s = itext_l 0 x z /\ (0 < ils z -> take (ils z) raw = zeros (ils z))) as (ET & EL).
  { rewrite <- Etrim. rewrite <- (take_drop (ics z) trim). unfold itext_l.
    assert (take (ics z) trim = iboth x z) as Eb'. { rewrite <- Eboth, Etrim, take_take. f_equal. lia. }
    rewrite Eb', N.add_0_r. replace (i_raw x) with raw by reflexivity.
    destruct (ipad z =? 0) eqn:Ep; cbn [negb] in Hraw.
    - assert (ipad z = 0) as P0 by lia. rewrite P0 in *. rewrite drop_0. change (zeros 0 ++ raw) with raw.
      apply bind_ok in Hraw as (rest & Hrest & Hraw). apply from_str_ok' in Hrest as (_ & Erest).
      apply bind_ok in Hraw as (paw & Hpaw & Hraw). apply decode_iff in Hpaw.
      apply bind_ok in Hraw as (lead & Hlead & Hraw). apply slice_bytes_ok in Hlead as (_ & Ll & Elead).
      rewrite drop_0, N.sub_0_r in Elead.
      destruct (be_val lead =? 0) eqn:Ez; cbn [negb] in Hraw; [|destruct (ils z =? 1); discriminate].
      apply from_bytes_ok in Hraw as (_ & Eraw). rewrite drop_0 in Eraw. rewrite Eraw. split.
      + f_equal. now rewrite <- Erest, <- Hpaw.
      + intros _. rewrite <- Elead. rewrite (be_val_zero_zeros lead) by lia. f_equal. rewrite Elead, len_take. lia.
    - assert (ils z = 0) as L0 by lia. split; [|lia]. f_equal.
      apply bind_ok in Hraw as (rest & Hrest & Hraw). apply from_str_ok' in Hrest as (_ & Erest).
      apply bind_ok in Hraw as (paw & Hpaw & Hraw). apply decode_iff in Hpaw.
      apply bind_ok in Hraw as (lead & Hlead & Hraw). apply slice_bytes_ok in Hlead as (_ & Ll & Elead).
      rewrite drop_0, N.sub_0_r in Elead.
      destruct (be_val lead mod 2 ^ (2 * ipad z) =? 0) eqn:Ez; cbn [negb] in Hraw; try discriminate.
      apply from_bytes_ok in Hraw as (_ & Eraw). rewrite Eraw.
      rewrite <- (encode_lead_zero paw (ipad z) rest); auto; [|subst lead; lia].
      rewrite take_drop. rewrite <- Hpaw. rewrite drop_app_exact; [now symmetry|].
      unfold len. rewrite repeat_length. lia. }
  rewrite <- ET. split; [symmetry; apply take_drop|]. split; [rewrite len_take; lia|exact EL].
Qed.
