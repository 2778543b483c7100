(** Issuing and revoking credentials. Theorem statements only; the proofs are in [IssueThms]. *)
From Coq Require Import String.
From Coq Require Import NArith ZArith QArith Bool List Lia.
From Verif Require Import Base Util Tables Matter Indexer Counter Prims Json Tholder Common Saider Diger Sadder Signer Prefixer Pather Messaging Short Verify Ingest Events Issue Spec SpecPrims SpecJson SpecSaider SpecSadder SpecPrefixer SpecSigner SpecLog SpecIngest SpecCred SpecBuild SpecIssue World Issued SignerThms VerifyThms IssueCases IssueThms.
Import ListNotations.
Open Scope N_scope.

(** What issue_acdc makes for an issuer who controls an identifier and owns the registry is accepted: the interaction that anchors the issuance, then the issuance, then the signed credential, each taken in
   on its own and without looking back, and each attachment is written as it has to be. The issuer still controls the identifier and owns the registry, and the credential is held. This is for data that can be
   written and read back, a parser that reads these three texts as what they are, a schema that the credential meets, edges to credentials that are there, a recent time, and an identifier not in use. *)
Theorem C142_issued_credentials_accepted :
  forall (canon : bytes -> option bytes) (hash : bytes -> bytes -> bytes) (cr : crypto) (keys : bytes -> R keyset) (l : ledger) (k : keyset) (now salts : bytes * bytes) (nonce : bytes) (rng1 rng2 : N -> bytes)
    (status issuer schema data : bytes) (recipient : option bytes) (private : option bool) (source rules : option bytes) (said ixn iss signed : bytes),
  correct cr -> sized_hash hash -> controls canon hash cr l issuer k -> keys issuer = Ok k -> owns canon l issuer status -> len (l_kel l issuer) < 2 ^ 32 ->
  issue_acdc canon hash cr now salts nonce rng1 rng2 (purse canon keys l) status issuer schema data recipient private source rules = Ok (said, ixn, iss, signed) ->
  l_tel l said = [] -> unheld canon l said -> len ixn < 2 ^ 32 -> len signed < 2 ^ 32 ->
  exists e1 g1 t1 e2 g2 t2 c g3 t3, ixn = d_raw e1 ++ t1 /\ written g1 t1 /\ iss = d_raw e2 ++ t2 /\ written g2 t2 /\ signed = d_raw c ++ t3 /\ written g3 t3 /\ sad_said c = Ok said /\
    forall messages_of group_text schema_check age seen_said fuel verify secs,
    readable e1 -> readable e2 -> readable c -> sectioned (d_ked c) -> (forall node, edge (d_ked c) node -> edge_fits canon schema_check l issuer node) -> schema_check schema (d_raw c) = Ok true ->
    age (snd now) = Ok secs -> (secs <= 36000000000)%Z -> textual group_text ->
    carried messages_of group_text (d_raw e1) g1 t1 -> carried messages_of group_text (d_raw e2) g2 t2 -> carried messages_of group_text (d_raw c) g3 t3 -> verify <> Some false ->
    let l1 := insert_key_event l issuer ixn in let l2 := insert_transaction_event l1 said iss in let l3 := insert_acdc l2 signed in
    ingest_messages canon hash cr messages_of group_text schema_check age seen_said (S (S fuel)) l ixn (Some false) verify = (l1, Ok tt) /\
    ingest_messages canon hash cr messages_of group_text schema_check age seen_said (S (S fuel)) l1 iss (Some false) verify = (l2, Ok tt) /\
    ingest_messages canon hash cr messages_of group_text schema_check age seen_said (S (S fuel)) l2 signed (Some false) verify = (l3, Ok tt) /\
    controls canon hash cr l3 issuer k /\ owns canon l3 issuer status /\ held canon (view canon l3) said c.
Proof. exact C142_l. Qed.
Print Assumptions C142_issued_credentials_accepted.

Example C142_case : correct toy /\ sized_hash mix /\ controls no_floats mix toy ledger1 pre0 keys0 /\ owner_keys pre0 = Ok keys0 /\ owns no_floats ledger1 pre0 rpre0 /\
  issue_acdc no_floats mix toy (time0, time0) ([], []) (s! "n") no_rng no_rng (purse no_floats owner_keys ledger1) rpre0 pre0 (s! "schema") (s! "{""name"":""x""}") None None None None = Ok (said_i, ixn_i, iss_i, signed_i) /\
  l_tel ledger1 said_i = [] /\ unheld no_floats ledger1 said_i /\ ixn_i = d_raw e_i1 ++ attached e_i1 ixn_i /\ iss_i = d_raw e_i2 ++ attached e_i2 iss_i /\ signed_i = d_raw c_i ++ attached c_i signed_i /\
  written g_i1 (attached e_i1 ixn_i) /\ written g_i2 (attached e_i2 iss_i) /\ written g_i3 (attached c_i signed_i) /\ Forall readable [e_i1; e_i2; c_i] /\ sectioned (d_ked c_i) /\ (forall node, ~ edge (d_ked c_i) node) /\
  textual parcel_text /\ carried parcel parcel_text (d_raw e_i1) g_i1 (attached e_i1 ixn_i) /\ carried parcel parcel_text (d_raw e_i2) g_i2 (attached e_i2 iss_i) /\ carried parcel parcel_text (d_raw c_i) g_i3 (attached c_i signed_i).
Proof.
  split; [exact toy_correct|]. split; [exact mix_sized|]. split; [exact controls1|]. split; [reflexivity|]. split; [exact owns1|]. split; [exact issue_done|]. split; [vm_compute; reflexivity|]. split; [intros t e []|].
  destruct all_parts as (_ & _ & P1 & P2 & P3 & _). split; [exact P1|]. split; [exact P2|]. split; [exact P3|]. split; [exact sigs_written|]. split; [exact source_written|]. split; [exact path_is_written|].
  pose proof all_readable as R. rewrite Forall_forall in R. split; [apply Forall_forall; intros e [<-|[<-|[<-|[]]]]; apply R; cbn; tauto|]. destruct no_edges as (_ & N1 & N2). split; [exact N1|]. split; [exact N2|].
  split; [exact parcels_textual|]. destruct all_carried as (_ & _ & C1 & C2 & C3 & _). auto.
Qed.

(** What revoke_acdc makes for the issuer is accepted: the interaction that anchors the revocation, then the revocation. Afterwards no credential with this identifier is, whatever is attached to it. *)
Theorem C143_revocation_accepted :
  forall (canon : bytes -> option bytes) (hash : bytes -> bytes -> bytes) (cr : crypto) (keys : bytes -> R keyset) (l : ledger) (k : keyset) (now nonce : bytes) (rng : N -> bytes)
    (status issuer said ixn rev : bytes) (p : matter),
  correct cr -> sized_hash hash -> controls canon hash cr l issuer k -> keys issuer = Ok k -> owns canon l issuer status -> len (l_kel l issuer) < 2 ^ 32 -> prefixer_with_qb64 hash said = Ok p ->
  revoke_acdc canon hash cr now nonce rng (purse canon keys l) status issuer said = Ok (ixn, rev) -> len ixn < 2 ^ 32 ->
  exists e1 g1 t1 e2 g2 t2, ixn = d_raw e1 ++ t1 /\ written g1 t1 /\ rev = d_raw e2 ++ t2 /\ written g2 t2 /\
    forall messages_of group_text schema_check age seen_said fuel verify,
    readable e1 -> readable e2 -> textual group_text -> carried messages_of group_text (d_raw e1) g1 t1 -> carried messages_of group_text (d_raw e2) g2 t2 -> verify <> Some false ->
    let l1 := insert_key_event l issuer ixn in let l2 := insert_transaction_event l1 said rev in
    ingest_messages canon hash cr messages_of group_text schema_check age seen_said (S (S fuel)) l ixn (Some false) verify = (l1, Ok tt) /\
    ingest_messages canon hash cr messages_of group_text schema_check age seen_said (S (S fuel)) l1 rev (Some false) verify = (l2, Ok tt) /\
    controls canon hash cr l2 issuer k /\ owns canon l2 issuer status /\
    forall c f g deep seen r, sad_said c = Ok said -> verify_acdc canon hash cr messages_of schema_check age f (view canon l2) c g deep seen <> Ok r.
Proof. exact C143_l. Qed.
Print Assumptions C143_revocation_accepted.

Example C143_case : controls no_floats mix toy ledger2 pre0 keys0 /\ owns no_floats ledger2 pre0 rpre0 /\ (exists p, prefixer_with_qb64 mix said_i = Ok p) /\
  revoke_acdc no_floats mix toy time0 (s! "m") no_rng (purse no_floats owner_keys ledger2) rpre0 pre0 said_i = Ok revoked_texts /\
  fst revoked_texts = d_raw e_v1 ++ attached e_v1 (fst revoked_texts) /\ snd revoked_texts = d_raw e_v2 ++ attached e_v2 (snd revoked_texts) /\
  written g_v1 (attached e_v1 (fst revoked_texts)) /\ written g_v2 (attached e_v2 (snd revoked_texts)) /\ Forall readable [e_v1; e_v2] /\
  carried parcel parcel_text (d_raw e_v1) g_v1 (attached e_v1 (fst revoked_texts)) /\ carried parcel parcel_text (d_raw e_v2) g_v2 (attached e_v2 (snd revoked_texts)).
Proof.
  split; [exact controls2|]. split; [exact owns2|]. split; [eexists; vm_compute; reflexivity|]. split; [exact revoke_done|].
  destruct all_parts as (_ & _ & _ & _ & _ & P1 & P2). split; [exact P1|]. split; [exact P2|]. destruct more_written as (_ & _ & W1 & W2). split; [exact W1|]. split; [exact W2|].
  pose proof all_readable as R. rewrite Forall_forall in R. split; [apply Forall_forall; intros e [<-|[<-|[]]]; apply R; cbn; tauto|]. destruct all_carried as (_ & _ & _ & _ & _ & C1 & C2). auto.
Qed.

(** The inception of a registry, anchored by an interaction of its owner and followed by the place of this interaction, is accepted, and the owner owns the registry. *)
Theorem C144_registry_accepted :
  forall (canon : bytes -> option bytes) (hash : bytes -> bytes -> bytes) (cr : crypto) (l : ledger) (k : keyset) (rng : N -> bytes) (owner dig registry event anchor ixn text : bytes),
  correct cr -> sized_hash hash -> controls canon hash cr l owner k -> len (l_kel l owner) < 2 ^ 32 -> l_tel l registry = [] ->
  registry_incept canon hash owner = Ok (registry, event) -> w_said (purse canon (fun _ => Ok k) l) owner = Ok dig ->
  do_interact hash cr canon rng k owner dig (len (l_kel l owner)) (one_seal registry (s! "0") registry) = Ok (anchor, ixn) ->
  anchored_text event (len (l_kel l owner)) anchor = Ok text -> len ixn < 2 ^ 32 ->
  exists e1 g1 t1 e2 g2 t2, ixn = d_raw e1 ++ t1 /\ written g1 t1 /\ text = d_raw e2 ++ t2 /\ written g2 t2 /\
    forall messages_of group_text schema_check age seen_said fuel verify,
    readable e1 -> readable e2 -> textual group_text -> carried messages_of group_text (d_raw e1) g1 t1 -> carried messages_of group_text (d_raw e2) g2 t2 -> verify <> Some false ->
    let l1 := insert_key_event l owner ixn in let l2 := insert_transaction_event l1 registry text in
    ingest_messages canon hash cr messages_of group_text schema_check age seen_said (S (S fuel)) l ixn (Some false) verify = (l1, Ok tt) /\
    ingest_messages canon hash cr messages_of group_text schema_check age seen_said (S (S fuel)) l1 text (Some false) verify = (l2, Ok tt) /\
    controls canon hash cr l2 owner k /\ owns canon l2 owner registry.
Proof. exact C144_l. Qed.
Print Assumptions C144_registry_accepted.

Example C144_case : controls no_floats mix toy ledger0 pre0 keys0 /\ l_tel ledger0 rpre0 = [] /\ registry_incept no_floats mix pre0 = Ok (rpre0, d_raw e_r2) /\
  w_said (purse no_floats (fun _ => Ok keys0) ledger0) pre0 = Ok (got [] (sad_said event0)) /\
  do_interact mix toy no_floats no_rng keys0 pre0 (got [] (sad_said event0)) (len (l_kel ledger0 pre0)) (one_seal rpre0 (s! "0") rpre0) = Ok anchor_text1 /\
  anchored_text (d_raw e_r2) (len (l_kel ledger0 pre0)) (fst anchor_text1) = Ok registry_text /\
  written g_r1 (attached e_r1 (snd anchor_text1)) /\ written g_r2 (attached e_r2 registry_text) /\ Forall readable [e_r1; e_r2] /\
  carried parcel parcel_text (d_raw e_r1) g_r1 (attached e_r1 (snd anchor_text1)) /\ carried parcel parcel_text (d_raw e_r2) g_r2 (attached e_r2 registry_text).
Proof.
  destruct registry_done as (D1 & D2 & D3). split; [exact controls0|]. split; [reflexivity|]. split; [exact D1|]. split; [vm_compute; reflexivity|].
  assert (len (l_kel ledger0 pre0) = 1) as -> by (vm_compute; reflexivity). split; [exact D2|]. split; [exact D3|]. destruct more_written as (W1 & W2 & _). split; [exact W1|]. split; [exact W2|].
  pose proof all_readable as R. rewrite Forall_forall in R. split; [apply Forall_forall; intros e [<-|[<-|[]]]; apply R; cbn; tauto|]. destruct all_carried as (C1 & C2 & _). auto.
Qed.
