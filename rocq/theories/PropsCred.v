(** Properties C129 to C133: registries and credentials. Theorem statements only; the proofs are in [CredThms]. *)
From Coq Require Import String.
From Coq Require Import NArith ZArith QArith Bool List Lia.
From Verif Require Import Base Tables Matter Indexer Prims Json Tholder Common Saider Diger Sadder Signer Prefixer Pather Short Verify Ingest Events Spec SpecPrims SpecJson SpecCommon SpecTholder SpecSaider SpecSadder SpecPrefixer SpecSigner SpecLog SpecIngest SpecCred World Forgery CredThms VerifyThms BaseFacts.
Import ListNotations.
Open Scope N_scope.

(** An accepted registry event comes with one couple of a number and an identifier. The log of the registry's owner holds under that number a key event with that identifier, and this event holds one seal and no
   more: with prefix, number and identifier of the registry event. The owner is named in field ii of the registry's inception. *)
Theorem C129_anchored :
  forall (canon : bytes -> option bytes) (hash : bytes -> bytes -> bytes) (cr : crypto) (messages_of : bytes -> R (list message)) (fuel : nat) (st : store) (e : sadder)
    (couples : list (matter * matter)) (deep : option bool) (seen seen' : list bytes) (there : bool),
  verify_transaction_event canon hash cr messages_of fuel st e couples deep seen = Ok (there, seen') ->
  exists seqner saider owner pre number said n t anchor, couples = [(seqner, saider)] /\ seqner_sn seqner = Ok n /\ infil saider = Ok t /\
    field_of (d_ked e) (s! "i") (VStr pre) /\ field_of (d_ked e) (s! "s") (VStr number) /\ sad_said e = Ok said /\
    owned canon st e owner /\ logged canon st owner (asked_for n) anchor t /\ sealed (d_ked anchor) pre number said.
Proof. exact C129_l. Qed.
Print Assumptions C129_anchored.

Example C129_case : let l := fst (take_in empty (s! "issued")) in l_tel l rpre0 <> [] /\ l_tel l csaid0 <> [] /\
  verify_transaction_event no_floats mix toy runic 9 (view no_floats l) iss0 [couple 2 anchor2] None [] = Ok (true, []) /\
  verify_transaction_event no_floats mix toy runic 9 (view no_floats l) iss0 [couple 1 anchor1] None [] = Err EVerification.
Proof. split; [vm_compute; discriminate|]. split; [vm_compute; discriminate|]. split; vm_compute; reflexivity. Qed.

(** False that only the owner of the registry in which a credential was issued can revoke it: a revocation is judged by the registry it names itself. Here another party's revocation, in that party's own registry, is
   taken into the log of a credential issued by the first party, whose key events hold no seal for it. *)
Theorem C129_only_owner_revokes_refuted :
  correct toy /\ sized_hash mix /\ exists l iss rev said owner1 owner2, reached no_floats mix toy runic rune_of (fun _ _ => Ok true) (fun _ => Ok 0%Z) (fun _ _ => true) l /\
  length (l_tel l said) = 2%nat /\ recorded no_floats (view no_floats l) said 0 iss /\ of_type (d_ked iss) (s! "iss") /\ owned no_floats (view no_floats l) iss owner1 /\
  current no_floats (view no_floats l) said rev /\ of_type (d_ked rev) (s! "rev") /\ owned no_floats (view no_floats l) rev owner2 /\ owner1 <> owner2 /\
  forall text e pre number d, In text (l_kel l owner1) -> serder_with_raw no_floats text = Ok e -> sad_said rev = Ok d -> ~ sealed (d_ked e) pre number d.
Proof. exact C129_no_l. Qed.
Print Assumptions C129_only_owner_revokes_refuted.

(** An accepted registry event has the fields of its type. Inceptions and issuances have number 0; a revocation follows the event stored under the number before it, whose identifier is in its field p.
   It was there already exactly if its number is below the length of the log, and then the store holds an event with its identifier under its number. *)
Theorem C130_registry_continuity :
  forall (canon : bytes -> option bytes) (hash : bytes -> bytes -> bytes) (cr : crypto) (messages_of : bytes -> R (list message)) (fuel : nat) (st : store) (e : sadder)
    (couples : list (matter * matter)) (deep : option bool) (seen seen' : list bytes) (there : bool),
  verify_transaction_event canon hash cr messages_of fuel st e couples deep seen = Ok (there, seen') ->
  exists pre n said ilk labels count, field_of (d_ked e) (s! "i") (VStr pre) /\ ordinal (d_ked e) n /\ sad_said e = Ok said /\ of_type (d_ked e) ilk /\
    In (ilk, labels) registry_required /\ Forall (has_field (d_ked e)) labels /\ count_transaction_events st pre = Ok count /\ n <= count /\
    (there = true <-> n < count) /\ (there = true -> exists e', recorded canon st pre (asked_for n) e' /\ sad_said e' = Ok said) /\
    (ilk <> s! "rev" -> n = 0) /\
    (ilk = s! "rev" -> 1 <= n /\ 1 <= asked_for n /\ exists before p, recorded canon st pre (asked_for n - 1) before /\ sad_said before = Ok p /\ field_of (d_ked e) (s! "p") (VStr p)).
Proof. exact C130_l. Qed.
Print Assumptions C130_registry_continuity.

Example C130_case : let l := fst (take_in (fst (take_in empty (s! "issued"))) (s! "revoked")) in
  verify_transaction_event no_floats mix toy runic 9 (view no_floats l) rev0 [couple 3 anchor3] None [] <> Panic /\
  exists seen, verify_transaction_event no_floats mix toy runic 9 (view no_floats l) rev0 [couple 3 anchor3] None [] = Ok (true, seen).
Proof. split; [vm_compute; discriminate|]. eexists. vm_compute. reflexivity. Qed.

(** Once a revocation stands in the log of a credential, in a store built by taking in streams, the last event in this log is a revocation forever after, and the credential is refused, whatever is taken in. *)
Theorem C131_revocation_is_final :
  forall (canon : bytes -> option bytes) (hash : bytes -> bytes -> bytes) (cr : crypto) (messages_of : bytes -> R (list message)) (group_text : group -> R bytes)
    (schema_check : bytes -> bytes -> R bool) (age : bytes -> R Z) (seen_said : ledger -> bytes -> bool) (l l' : ledger) (said text : bytes) (e : sadder),
  finds_all canon seen_said -> textual group_text -> reached canon hash cr messages_of group_text schema_check age seen_said l -> reached canon hash cr messages_of group_text schema_check age seen_said l' -> extends l l' ->
  In text (l_tel l said) -> serder_with_raw canon text = Ok e -> of_type (d_ked e) (s! "rev") ->
  (exists e', current canon (view canon l') said e' /\ of_type (d_ked e') (s! "rev")) /\
  (forall c fuel g deep seen r, sad_said c = Ok said -> verify_acdc canon hash cr messages_of schema_check age fuel (view canon l') c g deep seen <> Ok r).
Proof. exact C131_l. Qed.
Print Assumptions C131_revocation_is_final.

Example C131_case : let l := fst (take_in (fst (take_in empty (s! "issued"))) (s! "revoked")) in reached no_floats mix toy runic rune_of (fun _ _ => Ok true) (fun _ => Ok 0%Z) (fun _ _ => true) l /\
  In (d_raw rev0 ++ s! "g") (l_tel l csaid0) /\ sad_said cred0 = Ok csaid0 /\
  verify_acdc no_floats mix toy runic (fun _ _ => Ok true) (fun _ => Ok 0%Z) 9 (view no_floats (fst (take_in empty (s! "issued")))) cred0 [GPaths [csigs0]] (Some false) [] = Ok (true, []).
Proof. split; [apply taken, taken, reached_empty|]. split; [vm_compute; right; left; reflexivity|]. split; vm_compute; reflexivity. Qed.

(** An accepted credential has a registry; its identifier verifies over its data; the last event in the log of its identifier is no revocation and not older than 36000000000 seconds; its schema accepts it. All attached groups are
   of signatures on parts of it. There is one on the whole of it, and each on the whole of it counts: the log of the identifier in the group holds an event, with the number and identifier in the group, whose
   keys made enough signatures on the credential's bytes. *)
Theorem C132_credential_checked :
  forall (canon : bytes -> option bytes) (hash : bytes -> bytes -> bytes) (cr : crypto) (messages_of : bytes -> R (list message)) (schema_check : bytes -> bytes -> R bool) (age : bytes -> R Z)
    (fuel : nat) (st : store) (e : sadder) (g : list group) (deep : option bool) (seen : list bytes) (r : bool * list bytes),
  verify_acdc canon hash cr messages_of schema_check age fuel st e g deep seen = Ok r ->
  exists registry said schema state ilk dt secs, field_of (d_ked e) (s! "ri") (VStr registry) /\ sad_said e = Ok said /\ field_of (d_ked e) (s! "s") (VStr schema) /\
    (exists saider, said_of_qb64 said = Ok saider /\ said_verify hash saider (d_ked e) (Some false) (Some true) (Some (s! "JSON")) None [] = Ok true) /\
    current canon st said state /\ of_type (d_ked state) ilk /\ ilk <> s! "rev" /\ ilk <> s! "brv" /\ field_of (d_ked state) (s! "dt") (VStr dt) /\ age dt = Ok secs /\ (secs <= 36000000000)%Z /\
    schema_check schema (d_raw e) = Ok true /\ Forall (fun x => exists l, x = GPaths l) g /\ (exists p, about_all g p) /\ (forall p, about_all g p -> exists pre, vouched canon cr st (d_raw e) p pre).
Proof. exact C132_l. Qed.
Print Assumptions C132_credential_checked.

Example C132_case : let l := fst (take_in empty (s! "issued")) in about_all [GPaths [csigs0]] csigs0 /\ length (sp_sigers csigs0) = 2%nat /\
  verify_acdc no_floats mix toy runic (fun _ _ => Ok true) (fun _ => Ok 0%Z) 9 (view no_floats l) cred0 [GPaths [csigs0]] (Some false) [] = Ok (true, []).
Proof. split; [exists [csigs0]; split; [now left|]; split; [now left|]; vm_compute; reflexivity|]. split; vm_compute; reflexivity. Qed.

(** False that an accepted credential was issued or signed by its issuer: nothing compares the issuer it names with the identifier in the signature group, or the registry it names, or this registry's owner, with those of
   the issuance event. Here a credential that names one party as its issuer is taken into a store that has never had any event of that party or of its registry: it is issued and signed by another. *)
Theorem C132_issued_by_issuer_refuted :
  correct toy /\ sized_hash mix /\ exists l e said issuer registry state owner g, reached no_floats mix toy runic rune_of (fun _ _ => Ok true) (fun _ => Ok 0%Z) (fun _ _ => true) l /\
  held no_floats (view no_floats l) said e /\ field_of (d_ked e) (s! "i") (VStr issuer) /\ field_of (d_ked e) (s! "ri") (VStr registry) /\ l_kel l issuer = [] /\ l_tel l registry = [] /\
  verify_acdc no_floats mix toy runic (fun _ _ => Ok true) (fun _ => Ok 0%Z) 9 (view no_floats l) e [GPaths [g]] None [] <> Err EVerification /\
  (exists seen, verify_acdc no_floats mix toy runic (fun _ _ => Ok true) (fun _ => Ok 0%Z) 9 (view no_floats l) e [GPaths [g]] None [] = Ok (true, seen)) /\
  current no_floats (view no_floats l) said state /\ owned no_floats (view no_floats l) state owner /\ infil (sp_prefixer g) = Ok owner /\ owner <> issuer.
Proof. exact C132_no_l. Qed.
Print Assumptions C132_issued_by_issuer_refuted.

(** Two accepted credentials with one identifier have the same fields and values, the text of field d aside, or Blake3 has a collision. *)
Theorem C133_said_binds_credential :
  forall (canon : bytes -> option bytes) (hash : bytes -> bytes -> bytes) (cr1 cr2 : crypto) (messages_of1 messages_of2 : bytes -> R (list message)) (schema_check1 schema_check2 : bytes -> bytes -> R bool) (age1 age2 : bytes -> R Z)
    (fuel1 fuel2 : nat) (st1 st2 : store) (raw1 raw2 : bytes) (e1 e2 : sadder) (g1 g2 : list group) (deep1 deep2 : option bool) (seen1 seen2 : list bytes) (r1 r2 : bool * list bytes) (said : bytes) (m1 m2 : list (bytes * value)),
  sized_hash hash -> creder_with_raw canon raw1 = Ok e1 -> creder_with_raw canon raw2 = Ok e2 -> float_free (d_ked e1) -> float_free (d_ked e2) -> d_ked e1 = VObj m1 -> d_ked e2 = VObj m2 ->
  verify_acdc canon hash cr1 messages_of1 schema_check1 age1 fuel1 st1 e1 g1 deep1 seen1 = Ok r1 -> verify_acdc canon hash cr2 messages_of2 schema_check2 age2 fuel2 st2 e2 g2 deep2 seen2 = Ok r2 ->
  sad_said e1 = Ok said -> sad_said e2 = Ok said -> without [s! "d"] m1 = without [s! "d"] m2 \/ collision hash (s! "E").
Proof. exact C133_l. Qed.
Print Assumptions C133_said_binds_credential.

Example C133_case : let l := fst (take_in empty (s! "issued")) in creder_with_raw no_floats (d_raw cred0) = Ok cred0 /\ sad_said cred0 = Ok csaid0 /\ float_free (d_ked cred0) /\ (exists m, d_ked cred0 = VObj m) /\
  verify_acdc no_floats mix toy runic (fun _ _ => Ok true) (fun _ => Ok 0%Z) 9 (view no_floats l) cred0 [GPaths [csigs0]] (Some false) [] = Ok (true, []).
Proof. split; [vm_compute; reflexivity|]. split; [vm_compute; reflexivity|]. split; [vm_compute; repeat constructor|]. split; [eexists; vm_compute; reflexivity|vm_compute; reflexivity]. Qed.
