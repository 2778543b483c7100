(** Proofs of the properties of the release profile. *)
From Coq Require Import String.
From Coq Require Import NArith ZArith QArith List Bool Lia.
From Verif Require Import Base B64 Util Tables Matter Indexer Counter Prims Json Tholder Signer Release Spec SpecCounter SpecIndexer SpecTholder SpecWeigh SpecPanic
  BaseFacts B64Facts MatterFacts IndexerFacts IndexerMore IndexerThms PrimsThms StateThms PanicThms TholderFacts TholderThms WeighThms ReleaseFacts ReleaseWeights.
Import ListNotations.
Open Scope N_scope.

(** ** Reading *)
(*# C113_reading
   A release build reads every text and every binary string, of primitives and of indexed primitives, exactly as a debug build does, errors and panics included. It also builds
   the same indexed primitives and counters, and knows the same raw sizes.
##
Example C113_reading_case : exists m, exfil_in wrapping (s! "BKxy2sgzfplyr-tgwIxS19f2OchFHtLwPWD3v4oYimBx") = Ok m /\ exfil_in wrapping (s! "B") = Err EShortage /\ exfil_in wrapping [xc3; xa9] = exfil [xc3; xa9].
Proof. eexists. split; [vm_compute; reflexivity|]. split; vm_compute; reflexivity. Qed.
#*)
Lemma C113_reading_l (s : bytes) :
  exfil_in wrapping s = exfil s /\ bexfil_in wrapping s = bexfil s /\ iexfil_in wrapping s = iexfil s /\ ibexfil_in wrapping s = ibexfil s /\
  (forall code index ondex, indexer_of_code_raw_in wrapping code s index ondex = indexer_of_code_raw code s index ondex) /\
  (forall count, counter_of_code_count_in wrapping s count = counter_of_code_count s count) /\ raw_size_in wrapping s = raw_size s.
Proof. repeat split; intros; auto using same_exfil, same_bexfil, same_iexfil, same_ibexfil, same_indexer, same_counter, same_raw_size. Qed.

(** ** Printing *)
(*# C114_printing
   Printing in a release build, whatever the fields of the value hold. It never panics; where a debug build does not panic the result is the same; where printing a text
   panics in a debug build it is an error in a release build. The binary form of a primitive and the text of a counter are the same in both.
##
Example C114_printing_case : let m := Mt (s! "4B") 4294967295 [] in infil_in wrapping m = Err EInvalidVarSize /\
  infil_in wrapping (Mt (s! "B") 0 []) = infil (Mt (s! "B") 0 []) /\ exists x, indexer_of_code_raw (s! "1z") (repeat x00 54) 1 None = Ok x /\ iinfil x = Panic /\ exists e, iinfil_in wrapping x = Err e.
Proof. split; [vm_compute; reflexivity|]. split; [vm_compute; reflexivity|]. eexists. split; [vm_compute; reflexivity|]. split; [vm_compute; reflexivity|]. eexists. vm_compute. reflexivity. Qed.
#*)
Lemma C114_printing_l (m : matter) (x : indexer) (c : counter) :
  infil_in wrapping m <> Panic /\ binfil_in wrapping m <> Panic /\ iinfil_in wrapping x <> Panic /\ ibinfil_in wrapping x <> Panic /\
  (infil m <> Panic -> infil_in wrapping m = infil m) /\ (infil m = Panic -> exists e, infil_in wrapping m = Err e) /\
  binfil_in wrapping m = binfil m /\
  (iinfil x <> Panic -> iinfil_in wrapping x = iinfil x) /\ (iinfil x = Panic -> exists e, iinfil_in wrapping x = Err e) /\
  (ibinfil x <> Panic -> ibinfil_in wrapping x = ibinfil x) /\
  cinfil_in wrapping c = cinfil c.
Proof.
  pose proof (same_infil m) as A. pose proof (wrapping_iinfil x) as B. split; [rewrite A; destruct (infil m); discriminate|]. split; [rewrite same_binfil; apply C98_binary_l|].
  split; [destruct B as [(N & ->)|(_ & e & ->)]; [exact N|discriminate]|]. split; [apply wrapping_ibinfil_np|].
  split; [intros N; rewrite A; destruct (infil m); congruence|]. split; [intros N; rewrite A, N; eauto|]. split; [apply same_binfil|].
  split; [intros N; destruct B as [(_ & B)|(B & _)]; congruence|]. split; [intros N; destruct B as [(B & _)|(_ & B)]; [contradiction|exact B]|].
  split; [exact (agree_ibinfil x)|apply same_cinfil].
Qed.
(*# C114_indexed_signatures
   In a release build every indexed signature that the constructor accepts, the large ones of codes 3A and 3B included, prints in text and in binary and reads back from both; the text is the
   encoding of the binary. (A debug build panics on the binary form of the large ones.)
##
Example C114_indexed_signatures_case : exists x b, sig_built x /\ i_code x = s! "3A" /\ ibinfil x = Panic /\ ibinfil_in wrapping x = Ok b /\ len b = 120.
Proof.
  exists (Ix (s! "3A") (repeat x07 114) 5 5), (ibin (Ix (s! "3A") (repeat x07 114) 5 5) (Isz 2 6 3 160 0)). split.
  { exists (s! "3A"), 114, 3, 3, (repeat x07 114), 5, None. split; [cbn; tauto|]. split; [discriminate|]. vm_compute. reflexivity. }
  split; [reflexivity|]. split; [vm_compute; reflexivity|]. split; vm_compute; reflexivity.
Qed.
#*)
Lemma C114_sig_l (x : indexer) : sig_built x ->
  exists t b, iinfil_in wrapping x = Ok t /\ ibinfil_in wrapping x = Ok b /\ encode b = t /\ iexfil_in wrapping t = Ok x /\ ibexfil_in wrapping b = Ok x.
Proof.
  intros (code & n & d & e & raw & index & ondex & H & Hk & E). pose proof (C23_partial_l _ _ _ _ _ _ _ _ H Hk E) as (t & T1 & T2 & _).
  destruct (sig_wf _ _ _ _ _ _ _ _ H E) as (z & Hz & Ec & W & L & S & O). exists (itext x z), (ibin x z).
  assert (iinfil x = Ok (itext x z)) as Et by (now apply iinfil_wf). rewrite Et in T1. injection T1 as <-.
  split; [rewrite <- Et; apply agree_iinfil; congruence|]. split; [now apply wrapping_ibinfil|]. split; [now apply encode_ibin|]. rewrite same_iexfil, same_ibexfil. split; [exact T2|].
  pose proof (ibexfil_ibin x z [] Hz W (O Hk)) as Q. now rewrite app_nil_r in Q.
Qed.
(*# C114_full_size
   The reported full size in a release build, whatever the size or index field holds: for a variable-size code it is that of the code part and four characters for each quadlet, modulo 2^32.
##
Example C114_full_size_case : full_size_in wrapping (Mt (s! "4B") 1073741824 []) = Ok 4 /\ full_size (Mt (s! "4B") 1073741824 []) = Panic /\ full_size_in wrapping (Mt (s! "4B") 3 []) = Ok 16.
Proof. split; [|split]; vm_compute; reflexivity. Qed.
#*)
Lemma C114_size_l (m : matter) (x : indexer) :
  (In (m_code m) (small_codes ++ large_codes) -> full_size_in wrapping m = Ok ((code_chars (m_code m) + 4 * m_size m) mod 2 ^ 32)) /\
  (full_size m <> Panic -> full_size_in wrapping m = full_size m) /\
  (i_code x = s! "0z" -> ifull_size_in wrapping x = Ok ((4 + 4 * i_index x) mod 2 ^ 32)) /\
  (ifull_size x <> Panic -> ifull_size_in wrapping x = ifull_size x).
Proof.
  split; [|split; [exact (agree_full_size m)|split; [|exact (agree_ifull_size x)]]].
  - intros I. assert (exists z, lookup matter_table (m_code m) = Some z /\ fs z = u32_max /\ hs z + ss z = code_chars (m_code m)) as (z & Hz & Hf & Hc).
    { revert I. generalize (m_code m). intros c I.
      assert (forallb (fun c => match lookup matter_table c with Some z => (fs z =? u32_max) && (hs z + ss z =? code_chars c) | None => false end) (small_codes ++ large_codes) = true) as K by (vm_compute; reflexivity).
      rewrite forallb_forall in K. specialize (K c I). cbv beta in K. destruct (lookup matter_table c) as [z|]; [|discriminate]. apply andb_true_iff in K as (K1 & K2). exists z. split; [reflexivity|]. split; lia. }
    rewrite (wrapping_full_size m z Hz Hf), Hc. reflexivity.
  - intros E. rewrite (wrapping_ifull_size x (Isz 2 2 0 u32_max 0)); [reflexivity|rewrite E; reflexivity|reflexivity].
Qed.

(** ** Thresholds *)
Lemma rnew_thold canon v t : release_new canon (Some v) None None = Ok t -> process_thold_in heavy_wrapping (plus wrapping) v = Ok t.
Proof. unfold release_new, tholder_new_in. destruct (process_thold_in _ _ v); cbn [bind]; congruence. Qed.
Lemma rnew_sith canon v t : release_new canon None None (Some v) = Ok t -> process_sith_in heavy_wrapping (plus wrapping) canon v = Ok t.
Proof. unfold release_new, tholder_new_in. cbn [bind]. destruct (process_sith_in _ _ canon v); cbn [bind]; congruence. Qed.
Lemma rsith_clauses canon u ts t : sith_clauses u ts -> process_sith_in heavy_wrapping (plus wrapping) canon u = Ok t -> process_weighted_in heavy_wrapping (plus wrapping) (vals ts) = Ok t.
Proof.
  intros [(N & ->)|(c & N & -> & ->)]; unfold process_sith_in; cbn [to_i64 to_string]; unfold sith_array_in; cbn [to_vec]; rewrite bind_Ok.
  - destruct ts as [|c ts]; [congruence|]. cbn [map].
    replace (forallb (fun c0 => is_ok (to_vec c0)) _) with true. 2:{ symmetry. apply forallb_forall. intros x [<-|Hx]; [reflexivity|]. apply in_map_iff in Hx as (y & <- & _). reflexivity. }
    cbv zeta. cbn [to_vec]. rewrite bind_Ok. intros H. apply bind_ok in H as (u & _ & H). exact H.
  - destruct c as [|x c]; [congruence|]. cbn [map forallb is_ok to_vec andb]. cbv zeta. cbn [to_vec]. rewrite bind_Ok. intros H. apply bind_ok in H as (u & _ & H). exact H.
Qed.
Lemma rtexts_near v ts qs cs : texts v ts -> Forall2 (Forall2 reads) ts qs -> values_to_rationals_in heavy_wrapping v = Ok cs -> Forall2 (Forall2 near) cs qs.
Proof.
  intros -> F V. apply gvalues_ok in V as (ts' & E & M & _ & _). destruct (reads_clauses ts qs F) as (cs' & M' & N). unfold vals in E. injection E as E. rewrite E, M in M'. injection M' as <-. exact N.
Qed.
Lemma concat_near cs qs : Forall2 (Forall2 near) cs qs -> len (concat qs) = len (concat cs).
Proof. induction 1 as [|c q cs qs Fc _ IH]; auto. cbn [concat]. now rewrite !len_app, IH, (near_len c q Fc). Qed.
Lemma concat_reads ts qs : Forall2 (Forall2 reads) ts qs -> len (concat qs) = len (concat ts).
Proof. induction 1 as [|c q cs qs Fc _ IH]; auto. cbn [concat]. rewrite !len_app, IH. f_equal. clear - Fc. induction Fc; auto. rewrite !len_cons. lia. Qed.
(** A weighted threshold made in a release build, from its weights or reporting them. *)
Definition rmade (canon : bytes -> option bytes) (v : value) (ts : list (list bytes)) (t : tholder) : Prop :=
  release_new canon (Some v) None None = Ok t \/ (exists u, sith_clauses u ts /\ release_new canon None None (Some u) = Ok t) \/
  (exists a b c, release_new canon a b c = Ok t /\ t_weighted t = true /\ t_thold t = v).
Lemma rmade_gw canon v ts ws t : texts v ts -> Forall2 (Forall2 reads) ts ws -> rmade canon v ts t ->
  exists cs, gweighted heavy_wrapping (plus wrapping) cs t /\ Forall2 (Forall2 near) cs ws /\ len (concat cs) = keys v.
Proof.
  intros T F H. assert (exists cs, values_to_rationals_in heavy_wrapping v = Ok cs /\ gweighted heavy_wrapping (plus wrapping) cs t) as (cs & V & W).
  { destruct H as [H|[(u & Hu & H)|(a & b & c & H & Hw & E)]].
    - apply rnew_thold in H. rewrite T in *. unfold process_thold_in in H. cbn [to_i64] in H. now apply gprocess_ok.
    - apply rnew_sith in H. apply (rsith_clauses canon u ts t Hu) in H. apply gprocess_ok in H. rewrite T. exact H.
    - unfold release_new in H. apply gaccepted in H as [(k & Q)|(cs & Q)]. { destruct Q as [_ (n & _ & ->)]. discriminate. }
      exists cs. split; [|exact Q]. rewrite <- E, (gw_thold _ _ _ _ Q). apply gcanon; apply Q. }
  pose proof (rtexts_near v ts ws cs T F V) as N. exists cs. split; [exact W|]. split; [exact N|]. rewrite T. change (VArr _) with (vals ts). rewrite keys_vals, <- (concat_near cs ws N). now apply concat_reads.
Qed.
(** Its evaluation. *)
Lemma rsatisfy canon v ts ws t : texts v ts -> Forall2 (Forall2 reads) ts ws -> keys v < 2 ^ 32 -> rmade canon v ts t ->
  exists cs, Forall2 (Forall2 near) cs ws /\ Forall (fun c => heavy_wrapping c = Ok true) cs /\
    forall idx, release_satisfy t idx = if existsb (fun i => keys v <=? i) idx then Panic else gsat heavy_wrapping idx 0 cs.
Proof.
  intros T F L H. destruct (rmade_gw canon v ts ws t T F H) as (cs & W & N & K). exists cs. split; [exact N|]. split; [apply W|]. intros idx. unfold release_satisfy.
  rewrite (gsatisfy_eq _ _ cs t idx W). pose proof (gw_size _ _ _ _ W) as S. change (2 ^ 32) with 4294967296 in L. apply wrapping_size in S; [|unfold word; lia|unfold word; lia]. rewrite N.add_0_l, K in S. rewrite S, K, N.ltb_irrefl. reflexivity.
Qed.
Lemma outside_or v idx : (existsb (fun i => keys v <=? i) idx = true /\ exists i, In i idx /\ keys v <= i) \/ (existsb (fun i => keys v <=? i) idx = false /\ forall i, In i idx -> i < keys v).
Proof.
  destruct (existsb _ idx) eqn:E; [left|right]; (split; [reflexivity|]).
  - apply existsb_exists in E as (i & Hi & Ei). exists i. split; [exact Hi|lia].
  - intros i Hi. apply N.lt_nge. intros Q. rewrite <- not_true_iff_false in E. apply E. apply existsb_exists. exists i. split; auto. now apply N.leb_le.
Qed.
(*# C115_sound
   A weighted threshold in a release build is sound, whatever its weights: it is never accepted unless the exact sum of the weights of each clause is at least one, and never satisfied by a list of
   indices unless the exact sum of the signed weights of each clause is at least one, although sums wrap around at 32 bits. Its evaluation fails only by a panic, exactly when an index is not below the number of weights.
   (For fewer than 2^32 weights, given as value or as sith, or as reported by a threshold however made.)
##
Example C115_sound_case : exists t, let v := VArr [VArr [VStr (s! "1"); VStr (s! "1/65537"); VStr (s! "1/65539"); VStr (s! "1")]] in
  release_new (fun _ => None) (Some v) None None = Ok t /\ release_satisfy t [0; 1] = Ok true /\ release_satisfy t [1; 2] = Ok false /\ release_satisfy t [4] = Panic /\
  tholder_new (fun _ => None) (Some v) None None = Panic /\ Forall2 reads [s! "1"; s! "1/65537"; s! "1/65539"; s! "1"] [1; 1 # 65537; 1 # 65539; 1]%Q.
Proof.
  eexists. cbv zeta. split; [vm_compute; reflexivity|]. do 4 (split; [vm_compute; reflexivity|]).
  assert (reads (s! "1") 1) by (right; split; [vm_compute; discriminate|]; exists (s! "1"); auto).
  assert (forall d n, decimal d n -> numeral d n) as D by (intros d n H'; exists d; auto).
  assert (reads (s! "1/65537") (1 # 65537)) by (left; exists (s! "1"), (s! "65537"), 1, 65537%positive; split; [reflexivity|];
    do 2 (split; [apply D; split; [discriminate|]; split; [repeat constructor; vm_compute; discriminate|]; split; reflexivity|]); split; [vm_compute; discriminate|]; split; reflexivity).
  assert (reads (s! "1/65539") (1 # 65539)) by (left; exists (s! "1"), (s! "65539"), 1, 65539%positive; split; [reflexivity|];
    do 2 (split; [apply D; split; [discriminate|]; split; [repeat constructor; vm_compute; discriminate|]; split; reflexivity|]); split; [vm_compute; discriminate|]; split; reflexivity).
  apply Forall2_cons; [assumption|]. apply Forall2_cons; [assumption|]. apply Forall2_cons; [assumption|]. apply Forall2_cons; [assumption|]. apply Forall2_nil.
Qed.
#*)
Lemma C115_sound_l (canon : bytes -> option bytes) (v : value) (ts : list (list bytes)) (ws : list (list Q)) (t : tholder) :
  texts v ts -> Forall2 (Forall2 reads) ts ws -> keys v < 2 ^ 32 ->
  release_new canon (Some v) None None = Ok t \/ (exists u, sith_clauses u ts /\ release_new canon None None (Some u) = Ok t) \/
  (exists a b c, release_new canon a b c = Ok t /\ t_weighted t = true /\ t_thold t = v) ->
  Forall (fun c => 1 <= total c)%Q ws /\
  forall idx, (release_satisfy t idx = Panic <-> exists i, In i idx /\ keys v <= i) /\ (forall e, release_satisfy t idx <> Err e) /\
    (release_satisfy t idx = Ok true -> (forall i, In i idx -> i < keys v) /\ meets idx 0 ws).
Proof.
  intros T F L H. destruct (rsatisfy canon v ts ws t T F L H) as (cs & N & C & E). split.
  { clear - N C. induction N as [|c q cs qs Fc _ IH]; constructor; inversion C; subst; auto. now apply (heavy_total c q). }
  intros idx. rewrite E. destruct (gsat_sound idx cs ws N 0) as (b & Eb & Hb). rewrite Eb. destruct (outside_or v idx) as [(-> & i & Hi & Q)|(-> & B)].
  - split; [split; [eauto|reflexivity]|]. split; [discriminate|discriminate].
  - split; [split; [discriminate|]; intros (i & Hi & Q); apply B in Hi; lia|]. split; [discriminate|]. intros Q. injection Q as Q. auto.
Qed.
(*# C115_reported
   Every weighted threshold made in a release build reports clauses of texts that can be read, so the soundness above applies to it.
##
Example C115_reported_case : exists t, release_new (fun _ => None) None None (Some (VArr [VStr (s! "2/4"); VStr (s! "1/2")])) = Ok t /\ t_weighted t = true /\ texts (t_thold t) [[s! "1/2"; s! "1/2"]].
Proof. eexists. split; [vm_compute; reflexivity|]. split; reflexivity. Qed.
#*)
Lemma C115_reported_l (canon : bytes -> option bytes) (thold sith : option value) (limen : option bytes) (t : tholder) :
  release_new canon thold limen sith = Ok t -> t_weighted t = true -> exists ts ws, texts (t_thold t) ts /\ Forall2 (Forall2 reads) ts ws.
Proof.
  intros H Hw. unfold release_new in H. apply gaccepted in H as [(k & Q)|(cs & Q)]. { destruct Q as [_ (n & _ & ->)]. discriminate. }
  pose proof (gcanon _ cs (gw_wf _ _ _ _ Q) (gw_ok _ _ _ _ Q)) as V. apply gvalues_ok in V as (ts & E & M & _). apply clauses_reads in M as (ts' & qs & E' & Ft & _).
  exists ts', qs. split; [|exact Ft]. unfold texts. rewrite (gw_thold _ _ _ _ Q), E, <- E'. reflexivity.
Qed.
Lemma mapR_panic l : mapR clause_rats l = Panic <-> exists ts qs t q s rest more, l = map (fun c => VArr (map VStr c)) ts ++ VArr (map VStr t ++ VStr s :: rest) :: more /\
    Forall2 (Forall2 reads) ts qs /\ Forall2 reads t q /\ zero_over_zero s.
Proof.
  split.
  - intros M. apply mapR_first in M as (a & ys & x & b & -> & Ma & P). apply clauses_reads in Ma as (ts & qs & -> & Ft & _). unfold clause_rats in P. destruct x as [| | | | |ws|]; try discriminate.
    cbn [to_vec] in P. rewrite bind_Ok in P. apply mapR_first in P as (t & c & y & r & -> & Mt & P). apply list_reads in Mt as (t' & q & -> & Fq & _). destruct y; try discriminate. cbn [to_string] in P. rewrite bind_Ok in P.
    apply weight_panic_iff in P. exists ts, qs, t', q, s, r, b. auto.
  - intros (ts & qs & t & q & s & rest & more & -> & Fts & Ft & Z). apply mapR_first. destruct (reads_clauses ts qs Fts) as (cs & M & _).
    exists (map (fun c => VArr (map VStr c)) ts), cs, (VArr (map VStr t ++ VStr s :: rest)), more. split; auto. split; auto. unfold clause_rats. cbn [to_vec]. rewrite bind_Ok. apply mapR_first.
    destruct (reads_list t q Ft) as (c & Mc & _). exists (map VStr t), c, (VStr s), rest. split; auto. split; auto. cbn [to_string]. rewrite bind_Ok. now apply weight_panic_iff.
Qed.
Lemma check_np cs : Forall (Forall wfw) cs -> check_clauses_in heavy_wrapping cs <> Panic.
Proof. induction 1 as [|c cs W _ IH]; cbn [check_clauses_in]; [discriminate|]. destruct (heavy_wrapping_sound c W) as (b & -> & _). rewrite bind_Ok. destruct b; [exact IH|discriminate]. Qed.
Lemma bext_len' cs : Forall (Forall wfw) cs -> Forall (fun c => heavy_wrapping c = Ok true) cs -> len (rationals_to_bext cs) <= 23 * len (concat cs).
Proof.
  intros W C. unfold rationals_to_bext. fold clause_text. etransitivity; [apply join_len|]. rewrite len_map. revert C. induction W as [|c cs Wc W IH]; intros C; [vm_compute; discriminate|].
  inversion C as [|? ? Cc C']; subst. specialize (IH C'). cbn [map concat]. rewrite !len_app, len_cons. pose proof (clause_text_len c Wc). destruct c as [|w c]; [vm_compute in Cc; discriminate|].
  rewrite len_cons in *. lia.
Qed.
(*# C115_construction_panics
   Which threshold values panic in a release build: exactly those whose first entry that is not a weight is zero over zero. No sum of weights makes it panic. (For fewer than 2^27 weights.)
##
Example C115_construction_case : release_new (fun _ => None) (Some (VArr [VArr [VStr (s! "1"); VStr (s! "0/0")]])) None None = Panic /\
  release_new (fun _ => None) (Some (VArr [VArr [VStr (s! "1/65537"); VStr (s! "1/65539")]])) None None = Err EValue.
Proof. split; vm_compute; reflexivity. Qed.
#*)
Lemma C115_panics_l (canon : bytes -> option bytes) (v : value) : keys v < 2 ^ 27 ->
  release_new canon (Some v) None None = Panic <->
  exists ts qs t q s rest more, v = VArr (map (fun c => VArr (map VStr c)) ts ++ VArr (map VStr t ++ VStr s :: rest) :: more) /\
    Forall2 (Forall2 reads) ts qs /\ Forall2 reads t q /\ zero_over_zero s.
Proof.
  intros L. assert (release_new canon (Some v) None None = process_thold_in heavy_wrapping (plus wrapping) v) as ->. { unfold release_new, tholder_new_in. destruct (process_thold_in _ _ v); reflexivity. }
  assert (process_weighted_in heavy_wrapping (plus wrapping) v = Panic <-> exists l, v = VArr l /\ mapR clause_rats l = Panic) as K.
  { unfold process_weighted_in, values_to_rationals_in. destruct v as [| | | | |l|]; try (split; [discriminate|]; intros (l' & E & _); discriminate). cbn [to_vec]. rewrite bind_Ok.
    destruct (mapR clause_rats l) as [cs|e|] eqn:M; cbn [bind]; [|split; [discriminate|]; intros (l' & E & Q); injection E as <-; congruence|split; eauto].
    split; [|intros (l' & E & Q); injection E as <-; congruence]. pose proof (rats_wfw l cs M) as W. pose proof (check_np cs W) as NP.
    destruct (check_clauses_in heavy_wrapping cs) as [[]|e|] eqn:C; cbn [bind]; [|discriminate|contradiction]. apply gclauses_ok in C. destruct (wrapping_size_ok cs 0) as (n & ->). rewrite bind_Ok. cbv zeta.
    assert (len (concat cs) = keys (VArr l)) as E. { apply clauses_reads in M as (ts & qs & -> & Ft & Fc). change (VArr _) with (vals ts). rewrite keys_vals, <- (concat_near cs qs Fc). now apply concat_reads. }
    pose proof (bext_len' cs W C) as B. rewrite E in B. change (2 ^ 27) with 134217728 in L. destruct (C39_l (rationals_to_bext cs)) as (_ & X); [change (2 ^ 32) with 4294967296; lia|].
    destruct (bexter_new _ _ _ _ _ _); cbn [bind]; congruence. }
  assert (process_thold_in heavy_wrapping (plus wrapping) v = Panic <-> exists l, v = VArr l /\ mapR clause_rats l = Panic) as ->.
  { unfold process_thold_in. destruct (to_i64 v) as [z|e|] eqn:Z; [|exact K|exact K]. split; [intros Q; now apply process_unweighted_np in Q|]. intros (l & -> & _). discriminate. }
  split.
  - intros (l & -> & M). apply mapR_panic in M as (ts & qs & t & q & s & rest & more & -> & H). exists ts, qs, t, q, s, rest, more. split; [reflexivity|exact H].
  - intros (ts & qs & t & q & s & rest & more & -> & H). eexists. split; [reflexivity|]. apply mapR_panic. exists ts, qs, t, q, s, rest, more. split; [reflexivity|exact H].
Qed.

(*# C116_complete_refuted
   False as stated in a release build: with wrapped sums, an accepted threshold is not satisfied by indices whose weights are exactly enough; more signatures can undo a satisfied threshold; and
   a threshold value whose weights exceed one is rejected.
#*)
Lemma C116_no_l (canon : bytes -> option bytes) :
  (exists v t ws, weights v ws /\ release_new canon (Some v) None None = Ok t /\ meets [0; 1] 0 ws /\ release_satisfy t [0; 1] = Ok false) /\
  (exists v t, release_new canon (Some v) None None = Ok t /\ release_satisfy t [0] = Ok true /\ release_satisfy t [0; 1; 2] = Ok false) /\
  (exists v ws, weights v ws /\ Forall (fun c => 1 < total c)%Q ws /\ release_new canon (Some v) None None = Err EValue).
Proof.
  assert (forall s n, decimal s n -> numeral s n) as D by (intros s n H; exists s; auto).
  Ltac dec := split; [discriminate|]; split; [repeat constructor; vm_compute; discriminate|]; split; reflexivity.
  split; [|split].
  - exists (VArr [VArr [VStr (s! "32769/65537"); VStr (s! "32770/65539"); VStr (s! "1")]]). eexists. exists [[32769 # 65537; 32770 # 65539; inject_Z 1]]%Q.
    split; [|split; [vm_compute; reflexivity|split; [|vm_compute; reflexivity]]].
    + exists [[s! "32769/65537"; s! "32770/65539"; s! "1"]]. split; [reflexivity|]. repeat constructor.
      * apply (weight_frac (s! "32769") (s! "65537") 32769 65537); apply D; dec.
      * apply (weight_frac (s! "32770") (s! "65539") 32770 65539); apply D; dec.
      * apply (weight_int (s! "1") 1). dec.
    + cbn [meets earned]. repeat (destruct (in_dec _ _ _) as [?|?]; cbn in *; try (exfalso; tauto)); try (exfalso; intuition discriminate). split; [|exact I]. vm_compute. discriminate.
  - exists (VArr [VArr [VStr (s! "1"); VStr (s! "1/65537"); VStr (s! "1/65539"); VStr (s! "1")]]). eexists. split; [vm_compute; reflexivity|]. split; vm_compute; reflexivity.
  - exists (VArr [VArr [VStr (s! "1"); VStr (s! "1/65537"); VStr (s! "1/65539")]]), [[inject_Z 1; 1 # 65537; 1 # 65539]]%Q. split; [|split].
    + exists [[s! "1"; s! "1/65537"; s! "1/65539"]]. split; [reflexivity|]. repeat constructor.
      * apply (weight_int (s! "1") 1). dec.
      * apply (weight_frac (s! "1") (s! "65537") 1 65537); apply D; dec.
      * apply (weight_frac (s! "1") (s! "65539") 1 65539); apply D; dec.
    + repeat constructor.
    + vm_compute. reflexivity.
Qed.
(*# C116_complete_partial
   A weighted threshold in a release build is satisfied exactly when the exact sum of the signed weights of each clause is at least one, provided no sum of signed weights needs more than 31 bits at a step.
   And where a debug build does not panic, building and evaluating any threshold give the same result in a release build.
   Missing for the full statement: sums that need more bits, for which only soundness holds (C115).
##
Example C116_partial_case : exists t, let v := VArr [VArr [VStr (s! "1/2"); VStr (s! "1/3"); VStr (s! "1/6"); VStr (s! "1")]] in
  release_new (fun _ => None) (Some v) None None = Ok t /\ release_satisfy t [0; 1; 2] = Ok true /\ release_satisfy t [0; 1] = Ok false /\ tholder_new (fun _ => None) (Some v) None None = Ok t /\
  ~ overflows [1 # 2; 1 # 3]%Q.
Proof.
  eexists. cbv zeta. do 4 (split; [vm_compute; reflexivity|]). intros (a & w & b & E & H). destruct a as [|a1 [|a2 a]]; inversion E; subst.
  - destruct H as [H|H]; vm_compute in H; congruence.
  - destruct H as [H|H]; vm_compute in H; congruence.
  - destruct a; discriminate.
Qed.
#*)
Lemma C116_partial_l (canon : bytes -> option bytes) (v : value) (ts : list (list bytes)) (ws : list (list Q)) (t : tholder) (idx : list N) :
  (texts v ts -> Forall2 (Forall2 reads) ts ws -> keys v < 2 ^ 32 ->
   release_new canon (Some v) None None = Ok t \/ (exists u, sith_clauses u ts /\ release_new canon None None (Some u) = Ok t) \/
   (exists a b c, release_new canon a b c = Ok t /\ t_weighted t = true /\ t_thold t = v) ->
   (forall i, In i idx -> i < keys v) -> (forall c, In c (signed_clauses idx 0 ws) -> ~ overflows c) ->
   release_satisfy t idx = Ok true /\ meets idx 0 ws \/ release_satisfy t idx = Ok false /\ ~ meets idx 0 ws) /\
  (forall a b c, tholder_new canon a b c <> Panic -> release_new canon a b c = tholder_new canon a b c) /\
  (satisfy t idx <> Panic -> release_satisfy t idx = satisfy t idx).
Proof.
  split; [|split; [intros a b c; apply agree_new|apply agree_satisfy]]. intros T F L H B O. destruct (rsatisfy canon v ts ws t T F L H) as (cs & N & _ & E). rewrite E.
  destruct (outside_or v idx) as [(_ & i & Hi & Q)|(-> & _)]; [apply B in Hi; lia|]. clear - N O. revert O. generalize 0 as pos.
  induction N as [|c q cs qs Fc F IH]; intros pos O; cbn [gsat meets signed_clauses] in *; [left; auto|].
  pose proof (wlist_near idx c q Fc pos) as Nw. assert (~ overflows (signed_by idx pos q)) as Oq by (apply O; left; reflexivity).
  assert (Forall wfr (wlist idx pos c)) as Wr by (apply near_wfw in Nw; revert Nw; apply Forall_impl; intros a Ha; apply Ha).
  destruct (rat_sum (wlist idx pos c)) as [z|e|] eqn:S; [|exfalso; eapply rat_sum_noerr; eauto|exfalso; apply Oq; now apply (sum_panic _ _ Nw)].
  assert (heavy_wrapping (wlist idx pos c) = Ok (negb (rat_lt1 z))) as ->. { rewrite (agree_heavy _ Wr); unfold heavy_checked; rewrite S, bind_Ok; [reflexivity|discriminate]. }
  rewrite bind_Ok. assert ((rat_lt1 z = false <-> (1 <= earned idx pos q)%Q)) as K.
  { rewrite (sum_ok _ _ z Nw S). rewrite <- (near_total _ _ Nw), (earned_wlist idx pos c q); [reflexivity|]. clear - Fc. induction Fc as [|w x c q (_ & Ew) _ IH]; constructor; auto. }
  destruct (rat_lt1 z); cbn [negb].
  - right. split; [reflexivity|]. intros (Q & _). apply K in Q. discriminate.
  - rewrite (near_len c q Fc) in *. destruct (IH (pos + len c)) as [(-> & M)|(-> & M)]; [intros x Hx; apply O; right; exact Hx|left|right]; (split; [reflexivity|]); [|tauto]. split; [now apply K|exact M].
Qed.
