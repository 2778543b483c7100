(** Property C132, continued: anyone can forge credentials. Theorem statements only; the proofs are in [ForgeThms]. *)
From Coq Require Import String.
From Coq Require Import NArith ZArith QArith Bool List Lia.
From Verif Require Import Base Tables Matter Indexer Prims Json Tholder Common Saider Diger Sadder Signer Prefixer Pather Messaging Short Verify Ingest Events Issue Spec SpecPrims SpecJson SpecCommon SpecTholder SpecSaider SpecSadder SpecPrefixer SpecSigner SpecLog SpecIngest SpecCred SpecBuild SpecIssue SpecForge World Forgery Issued SignerThms VerifyThms IssueCases IssueThms ForgeThms.
Import ListNotations.
Open Scope N_scope.

(** It is false of every issuer that only they can make credentials that name them. Take any ledger and anyone who controls an identifier there and owns a registry. They make a credential that names anyone as its
   issuer and any registry, anchor its issuance in their own registry, and sign it with their own keys: the anchor, the issuance and the credential are taken in, with verification on, and the credential is held,
   with the issuer and the registry it names. Nothing at all is asked of these: the ledger may know them, and all they ever did, or not. *)
Theorem C132_anyone_forges :
  forall (canon : bytes -> option bytes) (hash : bytes -> bytes -> bytes) (cr : crypto) (keys : bytes -> R keyset) (l : ledger) (k : keyset) (now salts : bytes * bytes) (nonce : bytes) (rng1 rng2 : N -> bytes)
    (mine forger named registry schema : bytes) (data : value) (recipient : option bytes) (private : option bool) (source rules : option value) (said ixn iss signed : bytes),
  correct cr -> sized_hash hash -> controls canon hash cr l forger k -> keys forger = Ok k -> owns canon l forger mine -> len (l_kel l forger) < 2 ^ 32 ->
  forge canon hash cr now salts nonce rng1 rng2 (purse canon keys l) mine forger named registry schema data recipient private source rules = Ok (said, ixn, iss, signed) ->
  l_tel l said = [] -> unheld canon l said -> len ixn < 2 ^ 32 -> len signed < 2 ^ 32 ->
  exists e1 g1 t1 e2 g2 t2 c g3 t3, ixn = d_raw e1 ++ t1 /\ written g1 t1 /\ iss = d_raw e2 ++ t2 /\ written g2 t2 /\ signed = d_raw c ++ t3 /\ written g3 t3 /\ sad_said c = Ok said /\
    field_of (d_ked c) (s! "i") (VStr named) /\ field_of (d_ked c) (s! "ri") (VStr registry) /\
    forall messages_of group_text schema_check age seen_said fuel verify secs,
    readable e1 -> readable e2 -> readable c -> sectioned (d_ked c) -> (forall node, edge (d_ked c) node -> edge_fits canon schema_check l named node) -> schema_check schema (d_raw c) = Ok true ->
    age (snd now) = Ok secs -> (secs <= 36000000000)%Z -> textual group_text ->
    carried messages_of group_text (d_raw e1) g1 t1 -> carried messages_of group_text (d_raw e2) g2 t2 -> carried messages_of group_text (d_raw c) g3 t3 -> verify <> Some false ->
    let l1 := insert_key_event l forger ixn in let l2 := insert_transaction_event l1 said iss in let l3 := insert_acdc l2 signed in
    ingest_messages canon hash cr messages_of group_text schema_check age seen_said (S (S fuel)) l ixn (Some false) verify = (l1, Ok tt) /\
    ingest_messages canon hash cr messages_of group_text schema_check age seen_said (S (S fuel)) l1 iss (Some false) verify = (l2, Ok tt) /\
    ingest_messages canon hash cr messages_of group_text schema_check age seen_said (S (S fuel)) l2 signed (Some false) verify = (l3, Ok tt) /\
    held canon (view canon l3) said c.
Proof. exact C132_forge_l. Qed.
Print Assumptions C132_anyone_forges.

Example C132_forge_case : correct toy /\ sized_hash mix /\ controls no_floats mix toy ledger1 pre0 keys0 /\ owner_keys pre0 = Ok keys0 /\ owns no_floats ledger1 pre0 rpre0 /\ pre_m <> pre0 /\ l_kel ledger1 pre_m = [] /\
  exists said ixn iss signed, forge no_floats mix toy (time0, time0) ([], []) (s! "n") no_rng no_rng (purse no_floats owner_keys ledger1) rpre0 pre0 pre_m rpre_m (s! "schema") (VObj [(s! "name", VStr (s! "x"))]) None None None None =
    Ok (said, ixn, iss, signed) /\ l_tel ledger1 said = [] /\ unheld no_floats ledger1 said /\ len ixn < 2 ^ 32 /\ len signed < 2 ^ 32.
Proof.
  split; [exact toy_correct|]. split; [exact mix_sized|]. split; [exact controls1|]. split; [reflexivity|]. split; [exact owns1|]. split; [vm_compute; discriminate|]. split; [vm_compute; reflexivity|].
  assert (is_ok (forge no_floats mix toy (time0, time0) ([], []) (s! "n") no_rng no_rng (purse no_floats owner_keys ledger1) rpre0 pre0 pre_m rpre_m (s! "schema") (VObj [(s! "name", VStr (s! "x"))]) None None None None) = true /\
    match forge no_floats mix toy (time0, time0) ([], []) (s! "n") no_rng no_rng (purse no_floats owner_keys ledger1) rpre0 pre0 pre_m rpre_m (s! "schema") (VObj [(s! "name", VStr (s! "x"))]) None None None None with
    | Ok (said, ixn, iss, signed) => match l_tel ledger1 said with [] => (len ixn <? 2 ^ 32) && (len signed <? 2 ^ 32) | _ => false end | _ => false end = true) as (A & B) by (split; vm_compute; reflexivity).
  destruct (forge no_floats mix toy (time0, time0) ([], []) (s! "n") no_rng no_rng (purse no_floats owner_keys ledger1) rpre0 pre0 pre_m rpre_m (s! "schema") (VObj [(s! "name", VStr (s! "x"))]) None None None None) as [(((said, ixn), iss), signed)| |]; try discriminate A.
  exists said, ixn, iss, signed. split; [reflexivity|]. destruct (l_tel ledger1 said); [|discriminate B]. apply andb_true_iff in B as (B1 & B2). split; [reflexivity|]. split; [intros t e []|]. split; apply N.ltb_lt; assumption.
Qed.
