(** Model of the building of key events, registry events and credentials in sample/keri: mod.rs (key sets), kmi/event.rs, kmi/endorsement.rs, kmi/message.rs,
    kmi/mod.rs, acdc/event.rs, acdc/endorsement.rs, acdc/message.rs, acdc/mod.rs and acdc/tel. That code is written against the crate cesride, the earlier name of this
    one: its types are taken to be those of src. Definitions only. *)
From Coq Require Import String.
From Coq Require Import NArith ZArith Bool List.
From Verif Require Import Base Util Tables Matter Indexer Counter Prims Json Tholder Common Saider Diger Sadder Signer Prefixer Pather Messaging Short.
Import ListNotations.
Open Scope N_scope.

(** A seal to be put into an event: kmi/endorsement.rs:4-23; only its data are used there. *)
Definition texts_value (l : list bytes) : value := VArr (map VStr l).

(** kmi/event.rs:409-445 ample: a witness threshold for [n] witnesses of which [f] may be faulty. u128 arithmetic, checked. [max(0, x)] of an unsigned number is it. *)
Definition u128_add (a b : N) : R N := if a + b <=? u128_max then Ok (a + b) else Panic.
Definition u128_sub (a b : N) : R N := if b <=? a then Ok (a - b) else Panic.
Definition ample (n : N) (f : option N) (weak : option bool) : R N :=
  let weak := or_else weak true in
  match f with
  | Some f =>
    let* a := u128_add n f in
    let* a := u128_add a 2 in
    let m1 := a / 2 in
    let* m2 := u128_sub n f in
    if (m2 <? m1) && (0 <? n) then Err EValue
    else Ok (if weak then N.min n (N.min m1 m2) else N.min n (N.max m1 m2))
  | None =>
    let* n1 := u128_sub n 1 in
    let f1 := N.max 1 (n1 / 3) in
    let* n2 := u128_add n1 2 in
    let f2 := N.max 1 (n2 / 3) in
    if weak then
      let* a := u128_add n f1 in
      let* a := u128_add a 3 in
      let* b := u128_add n f2 in
      let* b := u128_add b 3 in
      Ok (N.min n (N.min (a / 2) (b / 2)))
    else
      let* c := u128_sub n f1 in
      let* a := u128_add n f1 in
      let* a := u128_add a 3 in
      Ok (N.min n (N.max 0 (N.max c (a / 2))))
  end.

(** event.rs:66-71: sorted without repetition, the list keeps its length. *)
Fixpoint all_different (l : list bytes) : bool := match l with [] => true | x :: r => negb (has_code r x) && all_different r end.

(** event.rs:34-40, 52-58: the default threshold of a list of keys, at least [least]. i64 arithmetic on a length, which cannot overflow. *)
Definition half (least : N) (keys : list bytes) : value := VInt (Z.of_N (N.max least ((len keys + 1) / 2))).

(** event.rs:93-111: how a threshold is written. *)
Definition threshold_value (intive : bool) (t : tholder) : R value :=
  let* n := tholder_num t in
  match n with
  | Some n => if intive && (n <? u32_max) then Ok (VInt (Z.of_N n)) else tholder_sith t
  | None => tholder_sith t
  end.
(** event.rs:113-117: how the witness threshold is written. *)
Definition toad_value (intive : bool) (toader : matter) : R value :=
  let* n := number_num toader in
  if intive && (n <? u32_max) then Ok (VInt (Z.of_N n)) else let* h := number_numh toader in Ok (VStr h).
(** event.rs:73-88: the witness threshold. *)
Definition toader_of (toad : option N) (wits : list bytes) : R matter :=
  let* toader :=
    match toad with
    | Some n => number_with_num n
    | None => match wits with [] => number_with_num 0 | _ => let* n := ample (len wits) None None in number_with_num n end
    end in
  let* n := number_num toader in
  match wits with
  | [] => if negb (n =? 0) then Err EValue else Ok toader
  | _ => if (n <? 1) || (len wits <? n) then Err EValue else Ok toader
  end.

Section Building.
Variable canon : bytes -> option bytes.
Variable hash : bytes -> bytes -> bytes.

(** event.rs:11-174 incept. The seals are given by their data. *)
Definition incept (keys : list bytes) (sith : option value) (ndigs : option (list bytes)) (nsith : option value) (toad : option N) (wits : option (list bytes))
    (cnfg : option (list bytes)) (data : option (list value)) (ver : option version) (kind : option bytes) (code : option bytes) (intive : option bool)
    (delpre : option bytes) : R sadder :=
  let ver := or_else ver current_version in
  let kind := or_else kind (s! "JSON") in
  let intive := or_else intive false in
  let* vs := versify None (Some ver) (Some kind) (Some 0) in
  let ilk := match delpre with None => s! "icp" | Some _ => s! "dip" end in
  let* sner := number_with_num 0 in
  let* tholder := tholder_with_sith canon (or_else sith (half 1 keys)) in
  let* num := tholder_num tholder in
  if or_else num 1 <? 1 then Err EValue
  else if len keys <? t_size tholder then Err EValue
  else
    let ndigs := or_else ndigs [] in
    let* ntholder := tholder_with_sith canon (or_else nsith (half 0 ndigs)) in
    if len ndigs <? t_size ntholder then Err EValue
    else
      let wits := or_else wits [] in
      if negb (all_different wits) then Err EValue
      else
        let* toader := toader_of toad wits in
        let* kt := threshold_value intive tholder in
        let* nt := threshold_value intive ntholder in
        let* bt := toad_value intive toader in
        let* snh := number_numh sner in
        let ked := VObj [(s! "v", VStr vs); (s! "t", VStr ilk); (s! "d", VStr []); (s! "i", VStr []); (s! "s", VStr snh); (s! "kt", kt); (s! "k", texts_value keys);
          (s! "nt", nt); (s! "n", texts_value ndigs); (s! "bt", bt); (s! "b", texts_value wits); (s! "c", texts_value (or_else cnfg [])); (s! "a", VArr (or_else data []))] in
        let* ked := match delpre with Some p => set_str ked (s! "di") (VStr p) | None => Ok ked end in
        let code := match delpre with Some _ => Some (or_else code (s! "E")) | None => code end in
        let* prefixer :=
          match delpre, code, keys with
          | None, None, [key] =>
            let* p := prefixer_with_qb64 hash key in
            if digestive p then Err EValue else Ok p
          | _, _, _ =>
            let* p := prefixer_with_ked hash ked None code in
            if negb (is_none delpre) && negb (digestive p) then Err EValue else Ok p
          end in
        let* pre := infil prefixer in
        let* ked := set_str ked (s! "i") (VStr pre) in
        let* ked := if digestive prefixer then set_str ked (s! "d") (VStr pre) else let* r := saidify hash ked None None None [] in Ok (snd r) in
        serder_with_ked canon ked None None.

(** event.rs:286-295: the positions of the witnesses to cut are taken out one after the other, without regard to those that moved. *)
Fixpoint positions (cuts wits : list bytes) (i : N) : list N :=
  match wits with [] => [] | w :: r => if has_code cuts w then i :: positions cuts r (i + 1) else positions cuts r (i + 1) end.
Fixpoint removals (l : list bytes) (at_ : list N) : R (list bytes) :=
  match at_ with
  | [] => Ok l
  | i :: r => if len l <=? i then Panic else removals (firstn (N.to_nat i) l ++ skipn (S (N.to_nat i)) l) r
  end.
Definition new_witnesses (wits cuts adds : list bytes) : R (list bytes) :=
  let* l := removals wits (positions cuts wits 0) in Ok (l ++ adds).

(** event.rs:177-369 rotate. *)
Definition rotate (pre : bytes) (keys : list bytes) (dig : bytes) (ilk : option bytes) (sn : N) (sith : option value) (ndigs : option (list bytes)) (nsith : option value)
    (toad : option N) (wits cuts adds : option (list bytes)) (data : option (list value)) (ver : option version) (kind : option bytes) (intive : option bool) : R sadder :=
  let ilk := or_else ilk (s! "rot") in
  let ver := or_else ver current_version in
  let kind := or_else kind (s! "JSON") in
  let intive := or_else intive false in
  let* vs := versify None (Some ver) (Some kind) None in
  if negb (has_code [s! "rot"; s! "drt"] ilk) then Err EValue
  else
    let* sner := number_with_num sn in
    let* n := number_num sner in
    if n <? 1 then Err EValue
    else
      let* tholder := tholder_with_sith canon (or_else sith (half 1 keys)) in
      let* num := tholder_num tholder in
      if or_else num 1 <? 1 then Err EValue
      else if len keys <? t_size tholder then Err EValue
      else
        let ndigs := or_else ndigs [] in
        let* ntholder := tholder_with_sith canon (or_else nsith (half 0 ndigs)) in
        let* nnum := tholder_num ntholder in
        if or_else nnum 1 <? 1 then Err EValue
        else if len ndigs <? t_size ntholder then Err EValue
        else
          let wits := or_else wits [] in
          let cuts := or_else cuts [] in
          let adds := or_else adds [] in
          if negb (all_different wits) || negb (all_different cuts) || negb (all_different adds) then Err EValue
          else if existsb (has_code adds) cuts || existsb (has_code adds) wits then Err EValue
          else
            let* newits := new_witnesses wits cuts adds in
            let* toader := toader_of toad newits in
            let* kt := threshold_value intive tholder in
            let* nt := threshold_value intive ntholder in
            let* bt := toad_value intive toader in
            let* snh := number_numh sner in
            let ked := VObj [(s! "v", VStr vs); (s! "t", VStr ilk); (s! "d", VStr []); (s! "i", VStr pre); (s! "s", VStr snh); (s! "p", VStr dig); (s! "kt", kt);
              (s! "k", texts_value keys); (s! "nt", nt); (s! "n", texts_value ndigs); (s! "bt", bt); (s! "br", texts_value cuts); (s! "ba", texts_value adds);
              (s! "a", VArr (or_else data []))] in
            let* r := saidify hash ked None None None [] in
            serder_with_ked canon (snd r) None None.

(** event.rs:371-407 interact. *)
Definition interact (pre dig : bytes) (sn : option N) (data : option value) (ver : option version) (kind : option bytes) : R sadder :=
  let ver := or_else ver current_version in
  let kind := or_else kind (s! "JSON") in
  let* vs := versify None (Some ver) (Some kind) (Some 0) in
  let* sner := number_with_num (or_else sn 1) in
  let* n := number_num sner in
  if n <? 1 then Err EValue
  else
    let* snh := number_numh sner in
    let ked := VObj [(s! "v", VStr vs); (s! "t", VStr (s! "ixn")); (s! "d", VStr []); (s! "i", VStr pre); (s! "s", VStr snh); (s! "p", VStr dig);
      (s! "a", or_else data (VArr []))] in
    let* r := saidify hash ked None None None [] in
    serder_with_ked canon (snd r) None None.

(** acdc/tel/management.rs:8-31 incept: a registry of an issuer, its identifier and its text. *)
Definition registry_incept (issuer : bytes) : R (bytes * bytes) :=
  let* vs := versify None (Some current_version) (Some (s! "JSON")) (Some 0) in
  let ted := VObj [(s! "v", VStr vs); (s! "t", VStr (s! "vcp")); (s! "d", VStr []); (s! "i", VStr []); (s! "ii", VStr issuer); (s! "s", VStr (s! "0"));
    (s! "c", VArr [VStr (s! "NB")]); (s! "bt", VStr (s! "0")); (s! "b", VArr [])] in
  let* prefixer := prefixer_with_ked hash ted None (Some (s! "E")) in
  let* prefix := infil prefixer in
  let* ted := set_str ted (s! "i") (VStr prefix) in
  let* ted := set_str ted (s! "d") (VStr prefix) in
  let* serder := serder_with_ked canon ted None None in
  let* text := from_utf8 (d_raw serder) in
  Ok (prefix, text).

(** acdc/tel/vc.rs:8-27 issue and 29-49 revoke; the time and the nonce (a fresh private key) are given. *)
Definition credential_issue (now nonce said ri : bytes) : R (bytes * bytes) :=
  let* vs := versify None (Some current_version) (Some (s! "JSON")) (Some 0) in
  let ted := VObj [(s! "v", VStr vs); (s! "t", VStr (s! "iss")); (s! "d", VStr []); (s! "i", VStr said); (s! "s", VStr (s! "0")); (s! "ri", VStr ri);
    (s! "dt", VStr now); (s! "n", VStr nonce)] in
  let* r := saidify hash ted None None None [] in
  let* serder := serder_with_ked canon (snd r) None None in
  let* own := sad_said serder in
  let* text := from_utf8 (d_raw serder) in
  Ok (own, text).
Definition credential_revoke (now nonce said ri prior : bytes) : R (bytes * bytes) :=
  let* vs := versify None (Some current_version) (Some (s! "JSON")) (Some 0) in
  let ted := VObj [(s! "v", VStr vs); (s! "t", VStr (s! "rev")); (s! "d", VStr []); (s! "i", VStr said); (s! "s", VStr (s! "1")); (s! "ri", VStr ri); (s! "p", VStr prior);
    (s! "dt", VStr now); (s! "n", VStr nonce)] in
  let* r := saidify hash ted None None None [] in
  let* serder := serder_with_ked canon (snd r) None None in
  let* own := sad_said serder in
  let* text := from_utf8 (d_raw serder) in
  Ok (own, text).

(** acdc/event.rs:10-90 create; [now] is the time, [salts] the two fresh salts (as text) of a private credential without a given salt. *)
Fixpoint set_all (v : value) (l : list (bytes * value)) : R value :=
  match l with [] => Ok v | (k, x) :: r => let* v := set_str v k x in set_all v r end.
Definition create (now : bytes) (salts : bytes * bytes) (schema issuer : bytes) (data : value) (recipient : option bytes) (private : option bool) (salt status : option bytes)
    (source rules : option value) (ver : option version) (kind : option bytes) : R sadder :=
  let ver := or_else ver current_version in
  let kind := or_else kind (s! "JSON") in
  let* vs := versify (Some (s! "ACDC")) (Some ver) (Some kind) (Some 0) in
  let vc := VObj [(s! "v", VStr vs); (s! "d", VStr [])] in
  let subject := VObj [(s! "d", VStr [])] in
  let* vc := if or_else private false then set_str vc (s! "u") (VStr (or_else salt (fst salts))) else Ok vc in
  let* subject := if or_else private false then set_str subject (s! "u") (VStr (or_else salt (snd salts))) else Ok subject in
  let* subject := match recipient with Some r => set_str subject (s! "i") (VStr r) | None => Ok subject end in
  let* data_map := to_map data in
  let* subject := set_str subject (s! "dt") (match assoc (s! "dt") data_map with Some x => x | None => VStr now end) in
  let* subject := set_all subject data_map in
  let* vc := set_str vc (s! "i") (VStr issuer) in
  let* vc := match status with Some r => set_str vc (s! "ri") (VStr r) | None => Ok vc end in
  let* vc := set_str vc (s! "s") (VStr schema) in
  let* vc := set_str vc (s! "a") (VObj []) in
  let* vc := match source with Some x => set_str vc (s! "e") x | None => Ok vc end in
  let* vc := match rules with Some x => set_str vc (s! "r") x | None => Ok vc end in
  let* sad := saidify hash subject None (Some kind) (Some (s! "d")) [] in
  let* vc := set_str vc (s! "a") (snd sad) in
  let* r := saidify hash vc None None None [] in
  creder_with_ked canon (snd r) None None.

End Building.

(** ** Attachments *)
(** kmi/endorsement.rs:25-91 endorse_serder. A signature is an indexed primitive and its key; the seal is that of the event that established the keys. *)
Definition seal_head (value : value) (last : bool) : R bytes :=
  let* i := index_str value (s! "i") in
  let* c := counter_of_code_count (if last then s! "-H" else s! "-F") 1 in
  let* h := cinfil c in
  let* i := to_string i in
  if last then Ok (h ++ i)
  else
    let* s := index_str value (s! "s") in
    let* s := to_string s in
    let* seqner := seqner_with_snh s in
    let* sn := infil seqner in
    let* d := index_str value (s! "d") in
    let* d := to_string d in
    Ok (h ++ i ++ sn ++ d).
(** 62-73 and 75-88: witness signatures and unindexed signatures, whose keys must not be transferable. *)
Fixpoint wiger_texts (l : list (indexer * matter)) : R bytes :=
  match l with
  | [] => Ok []
  | (x, v) :: r =>
    if transferable v then Err EEncoding
    else let* t := iinfil x in let* ts := wiger_texts r in Ok (t ++ ts)
  end.
Fixpoint cigar_texts (l : list (matter * matter)) : R bytes :=
  match l with
  | [] => Ok []
  | (x, v) :: r =>
    if transferable v then Err EEncoding
    else let* t := infil x in let* ts := cigar_texts r in Ok (t ++ ts)
  end.
Definition headed {A} (code : bytes) (l : list A) (text : R bytes) : R bytes :=
  let* c := counter_of_code_count code (as_u32 (len l)) in
  let* h := cinfil c in
  let* t := text in
  Ok (h ++ t).
Definition endorse_serder (sigers : option (list (indexer * matter))) (seal : option (value * bool)) (wigers : option (list (indexer * matter)))
    (cigars : option (list (matter * matter))) : R bytes :=
  if is_none sigers && is_none wigers && is_none cigars then Err EValue
  else
    let* a :=
      match sigers with
      | None => Ok []
      | Some l =>
        let* h := match seal with Some (v, last) => seal_head v last | None => Ok [] end in
        let* g := headed (s! "-A") l (siger_texts l) in
        Ok (h ++ g)
      end in
    let* b := match wigers with None => Ok [] | Some l => headed (s! "-B") l (wiger_texts l) end in
    let* c := match cigars with None => Ok [] | Some l => headed (s! "-C") l (cigar_texts l) end in
    Ok (a ++ b ++ c).

(** kmi/message.rs:9-31 messagize_serder and acdc/message.rs:4-18 messagize_creder, which always has the counter. *)
Definition messagize_serder (serder : sadder) (endorsement : bytes) (pipelined : option bool) : R bytes :=
  let* message := from_utf8 (d_raw serder) in
  let* glue :=
    if or_else pipelined false then
      if negb (len endorsement mod 4 =? 0) then Err EValue
      else let* c := counter_of_code_count (s! "-V") (as_u32 (len endorsement / 4)) in cinfil c
    else Ok [] in
  Ok (message ++ glue ++ endorsement).
Definition messagize_creder (creder : sadder) (proof : bytes) : R bytes :=
  let* message := from_utf8 (d_raw creder) in
  if negb (len proof mod 4 =? 0) then Err EValue
  else
    let* c := counter_of_code_count (s! "-V") (as_u32 (len proof) / 4) in
    let* glue := cinfil c in
    Ok (message ++ glue ++ proof).
(** acdc/endorsement.rs:4-32 ratify_creder. *)
Definition ratify_creder (prefix : bytes) (seqner : matter) (said : bytes) (sigers : list (indexer * matter)) : R bytes :=
  let* c := counter_of_code_count (s! "-J") 1 in
  let* pather := pather_with_path (VArr []) in
  let* h := cinfil c in
  let* p := infil pather in
  let* c := counter_of_code_count (s! "-F") 1 in
  let* f := cinfil c in
  let* sn := infil seqner in
  let* g := headed (s! "-A") sigers (siger_texts sigers) in
  Ok (h ++ p ++ f ++ prefix ++ sn ++ said ++ g).

(** ** Key sets: mod.rs:12-146 *)
Record keyset := Ks { k_keys : list bytes; k_offset : N; k_transferable : bool }.

Section Keys.
Variable hash : bytes -> bytes -> bytes.
Variable cr : crypto.
Variable kdf : bytes -> bytes -> N -> N -> N -> option bytes.

(** Text of each: the loops of 32-34, 53-57, 85-93, 105-113. *)
Fixpoint prints (l : list matter) : R (list bytes) := match l with [] => Ok [] | m :: r => let* t := infil m in let* ts := prints r in Ok (t :: ts) end.
(** 20-37 generate, with a fresh salt (as 16 random bytes), 40-60 generate_from_salt. The keys kept are the private ones. *)
Definition generated (salter : R (matter * bytes)) (code : option bytes) (count : option N) (offset : N) (made transferable : bool) (path : bytes) (temp : option bool) : R keyset :=
  let* salter := salter in
  let* l := salter_signers cr kdf salter count None (Some path) code (Some made) None temp in
  let* keys := prints (map g_seed l) in
  Ok (Ks keys offset transferable).
Definition generate_keys (random : bytes) (code : option bytes) (count : option N) (offset : N) (transferable : option bool) (path : bytes) (tier : option bytes)
    (temp : option bool) : R keyset :=
  generated (salter_with_defaults random tier) code count offset true (or_else transferable false) path temp.
Definition keys_from_salt (random salt : bytes) (code : option bytes) (count : option N) (offset : N) (transferable : option bool) (path : bytes) (tier : option bytes)
    (temp : option bool) : R keyset :=
  generated (salter_new random tier None (Some salt) None None None) code count offset (or_else transferable false) (or_else transferable false) path temp.

(** 66-73 signers, 75-83 verfers, 95-103 digers and their texts. *)
Fixpoint signers_of (transferable : bool) (keys : list bytes) : R (list signer) :=
  match keys with
  | [] => Ok []
  | k :: r => let* g := signer_with_qb64 cr k (Some transferable) in let* l := signers_of transferable r in Ok (g :: l)
  end.
Definition ks_signers (k : keyset) : R (list signer) := signers_of (k_transferable k) (k_keys k).
Definition ks_verfers (k : keyset) : R (list matter) := let* l := ks_signers k in Ok (map g_verfer l).
Definition ks_verfers_qb64 (k : keyset) : R (list bytes) := let* l := ks_verfers k in prints l.
Fixpoint digers_of (l : list matter) : R (list matter) :=
  match l with
  | [] => Ok []
  | v :: r =>
    let* ser := infil v in
    let* d := diger_new hash (Some ser) None None None None None in
    let* ds := digers_of r in
    Ok (d :: ds)
  end.
Definition ks_digers (k : keyset) : R (list matter) := let* l := ks_verfers k in digers_of l.
Definition ks_digers_qb64 (k : keyset) : R (list bytes) := let* l := ks_digers k in prints l.

(** 125-131: the position of the first digest that is of the key. *)
Fixpoint match_diger (ser : bytes) (digers : list matter) (i : N) : R (option N) :=
  match digers with
  | [] => Ok None
  | d :: r => let* ok := diger_verify hash d ser in if ok then Ok (Some (as_u32 i)) else match_diger ser r (i + 1)
  end.
(** 117-146 sign; [rng i] is the randomness used for the signature with index [i]. *)
Fixpoint sign_each (rng : N -> bytes) (ser : bytes) (digers : option (list matter)) (l : list signer) (index : N) : R (list (indexer * matter) * N) :=
  match l with
  | [] => Ok ([], 0)
  | g :: r =>
    let* ondex := match digers with None => Ok None | Some ds => let* q := infil (g_verfer g) in match_diger q ds 0 end in
    let* x := sign_indexed cr (rng index) g ser false index ondex in
    let* next := u32_add index 1 in
    let* rest := sign_each rng ser digers r next in
    Ok (x :: fst rest, (match ondex with Some _ => 1 | None => 0 end) + snd rest)
  end.
Definition ks_sign (rng : N -> bytes) (k : keyset) (ser : bytes) (digers : option (list matter)) : R (list (indexer * matter)) :=
  let* l := ks_signers k in
  let* r := sign_each rng ser digers l (as_u32 (k_offset k)) in
  match digers with
  | Some _ => if len (k_keys k) =? snd r then Ok (fst r) else Err EValidation
  | None => Ok (fst r)
  end.

(** ** Whole messages: kmi/mod.rs *)
Variable canon : bytes -> option bytes.
(** 164-166, 300-303, 354-356, 369-371: sign, attach, print. *)
Definition signed_message (serder : sadder) (sigers : list (indexer * matter)) : R bytes :=
  let* endorsement := endorse_serder (Some sigers) None None None in
  messagize_serder serder endorsement (Some true).

(** 120-174 incept: identifier, keys, next keys and message; [random] are the two fresh salts. *)
Definition do_incept (random : bytes * bytes) (rng : N -> bytes) (code : option bytes) (count : option N) (sith : option value) (ncode : option bytes) (ncount : option N)
    (nsith : option value) (wcount : option N) (transferable : option bool) (pcode tier : option bytes) : R (bytes * keyset * option keyset * bytes) :=
  let* ckeys := generate_keys (fst random) code count 0 transferable (s! "0") tier None in
  let* keys := ks_verfers_qb64 ckeys in
  let* nk :=
    if or_else transferable false then
      let* n := generate_keys (snd random) ncode ncount 0 transferable (s! "0") tier None in
      let* d := ks_digers_qb64 n in
      Ok (d, Some n)
    else Ok ([], None) in
  let* serder := incept canon hash keys sith (Some (fst nk)) nsith wcount None None None None None pcode None None in
  let* sigers := ks_sign rng ckeys (d_raw serder) None in
  let* event := signed_message serder sigers in
  let* pre := serder_pre serder in
  Ok (pre, ckeys, snd nk, event).

(** 312-359 rotate: identifier of the event, next keys and message. *)
Definition do_rotate (random : bytes) (rng : N -> bytes) (pre : bytes) (ckeys : keyset) (dig : bytes) (sn : N) (sith : option value) (ncode : option bytes) (ncount : option N)
    (nsith : option value) (wcount : option N) (tier : option bytes) : R (bytes * keyset * bytes) :=
  let* nkeys := generate_keys random ncode ncount 0 (Some true) (dec_text sn) tier None in
  let* ndigs := ks_digers_qb64 nkeys in
  let* public_keys := ks_verfers_qb64 ckeys in
  let* serder := rotate canon hash pre public_keys dig None sn sith (Some ndigs) nsith wcount None None None None None None None in
  let* sigers := ks_sign rng ckeys (d_raw serder) None in
  let* event := signed_message serder sigers in
  let* said := sad_said serder in
  Ok (said, nkeys, event).

(** 361-374 interact: identifier of the event and message. *)
Definition do_interact (rng : N -> bytes) (keys : keyset) (pre dig : bytes) (sn : N) (data : value) : R (bytes * bytes) :=
  let* serder := interact canon hash pre dig (Some sn) (Some data) None None in
  let* sigers := ks_sign rng keys (d_raw serder) None in
  let* event := signed_message serder sigers in
  let* said := sad_said serder in
  Ok (said, event).

End Keys.
