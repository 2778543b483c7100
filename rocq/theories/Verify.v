(** Model of the verification of key events, registry events and credentials in sample/keri: verification.rs, kmi/verification.rs, acdc/tel/verification.rs,
    acdc/verification.rs, labels.rs and parsing.rs. That code is written against the crate cesride, the earlier name of this one: its types are taken to be those of
    src. The crate parside, which splits a stream into messages, the schema validator boon and the clock are parameters; so is the store. Definitions only. *)
From Coq Require Import String.
From Coq Require Import NArith ZArith Bool List.
From Verif Require Import Base Tables Matter Indexer Prims Json Tholder Common Saider Diger Sadder Signer Prefixer Pather Short.
Import ListNotations.
Open Scope N_scope.

(** ** Messages (crate parside) *)
(** A signature over (part of) a credential: path, signer, sequence number and digest of the establishment event, indexed signatures. *)
Record sad_path_sig := Sps { sp_pather : matter; sp_prefixer : matter; sp_seqner : matter; sp_saider : matter; sp_sigers : list indexer }.
(** The groups the code looks at; any other is [GOther]. *)
Inductive group :=
| GSigs (l : list indexer)
| GSources (l : list (matter * matter)) (* seqner, saider *)
| GPaths (l : list sad_path_sig)
| GQuadlets (l : list group)
| GOther.
(** A message is an event or credential, given by its JSON text, or a group of attachments. *)
Inductive message := MPayload (raw : bytes) | MGroup (g : group).

(** ** The store: the part of the trait KeriStore (sample/keri/mod.rs:150-184) that verification reads. *)
Record store := Store {
  count_key_events : bytes -> R N;
  get_key_event : bytes -> N -> R bytes;
  get_latest_establishment_event_as_of_sn : bytes -> N -> R bytes; (* without the sequence number returned with it *)
  count_transaction_events : bytes -> R N;
  get_transaction_event : bytes -> N -> R bytes;
  get_latest_transaction_event : bytes -> R bytes;
  get_acdc : bytes -> R bytes }.

(** labels.rs:3-30, those used. A label that an event may lack shows here: [ii] of a registry, [ri] of a revocation. *)
Definition icp_labels : list bytes :=
  [s! "v"; s! "t"; s! "d"; s! "i"; s! "s"; s! "kt"; s! "k"; s! "nt"; s! "n"; s! "bt"; s! "b"; s! "c"; s! "a"].
Definition rot_labels : list bytes :=
  [s! "v"; s! "d"; s! "i"; s! "s"; s! "t"; s! "p"; s! "kt"; s! "k"; s! "nt"; s! "n"; s! "bt"; s! "br"; s! "ba"; s! "a"].
Definition ixn_labels : list bytes := [s! "v"; s! "d"; s! "i"; s! "s"; s! "t"; s! "p"; s! "a"].
Definition vcp_labels : list bytes := [s! "v"; s! "d"; s! "i"; s! "s"; s! "t"; s! "bt"; s! "b"; s! "c"].
Definition iss_labels : list bytes := [s! "v"; s! "i"; s! "s"; s! "t"; s! "ri"; s! "dt"].
Definition rev_labels : list bytes := [s! "v"; s! "i"; s! "s"; s! "t"; s! "p"; s! "dt"].

(** verification.rs:18-27 verify_ked_labels. *)
Definition verify_ked_labels (ked : value) (labels : list bytes) : R bool :=
  let* map := to_map ked in Ok (forallb (fun l => contains_key l map) labels).

(** The text of a field: [ked[label].to_string()?]. *)
Definition text_at (ked : value) (label : bytes) : R bytes := let* v := index_str ked label in to_string v.

(** [sn as u32 - 1]. *)
Definition before (sn : N) : R N := u32_sub (as_u32 sn) 1.

(** verification.rs:9-15 extract_registry_from_serder. *)
Definition registry_of (ilk : bytes) (serder : sadder) : R bytes :=
  if beq ilk (s! "vcp") then serder_pre serder
  else if beq ilk (s! "iss") || beq ilk (s! "rev") then text_at (d_ked serder) (s! "ri")
  else Err EDecoding.

Section Verification.
Variable canon : bytes -> option bytes.
Variable hash : bytes -> bytes -> bytes.
Variable cr : crypto.
(** MessageList::from_stream_bytes. *)
Variable messages_of : bytes -> R (list message).

(** [message_list.messages[0].cesr_group()?] of a text. *)
Definition first_group (text : bytes) : R group :=
  let* l := messages_of text in
  match l with
  | [] => Panic
  | MGroup g :: _ => Ok g
  | MPayload _ :: _ => Err EForeign
  end.

(** ** Key events: kmi/verification.rs *)
(** 96-116: the controller signatures that verify, with their index and other index. The bound is checked with [>], so that an index equal to the number of keys
    goes on to panic. *)
Fixpoint check_sigs (verfers : list matter) (raw : bytes) (sigs : list indexer) : R (list (N * N)) :=
  match sigs with
  | [] => Ok []
  | x :: r =>
    if len verfers <? i_index x then Err EVerification
    else
      match nth_error verfers (N.to_nat (i_index x)) with
      | None => Panic
      | Some v =>
        let* ok := verfer_verify cr v (i_raw x) raw in
        let* l := check_sigs verfers raw r in
        Ok (if ok then (i_index x, i_ondex x) :: l else l)
      end
  end.
Fixpoint check_groups (verfers : list matter) (raw : bytes) (groups : list group) : R (list (N * N)) :=
  match groups with
  | [] => Ok []
  | GSigs l :: r =>
    let* a := check_sigs verfers raw l in
    let* b := check_groups verfers raw r in
    Ok (a ++ b)
  | _ :: _ => Err EDecoding
  end.

(** 150-160: the other indices at which the key that signed is the one whose digest was announced. *)
Fixpoint revealed (verfers digers : list matter) (found : list (N * N)) : R (list N) :=
  match found with
  | [] => Ok []
  | (i, o) :: r =>
    let* same :=
      if o <? len digers then
        match nth_error verfers (N.to_nat i), nth_error digers (N.to_nat o) with
        | Some v, Some d =>
          let* ser := infil v in
          let* diger := diger_new hash (Some ser) None None None None None in
          let* a := infil diger in
          let* b := infil d in
          Ok (beq a b)
        | _, _ => Panic
        end
      else Ok false in
    let* l := revealed verfers digers r in
    Ok (if same then o :: l else l)
  end.

(** 76-82, 87-93: keys and threshold of an establishment event. *)
Definition signing_keys (e : sadder) : R (list matter * tholder) :=
  let* t := serder_tholder canon e in
  match t with
  | None => Err EDecoding
  | Some t => let* v := serder_verfers e in Ok (v, t)
  end.
(** 142, 147: digests of the next keys and their threshold; without one the default. *)
Definition next_keys (e : sadder) : R (list matter * tholder) :=
  let* d := serder_digers e in
  let* t := serder_ntholder canon e in
  Ok (d, or_else t tholder_default).

(** 33-73: whether the event is there already. *)
Definition place_event (st : store) (serder : sadder) (prefixer : matter) (pre said : bytes) (sn : N) (inceptive : bool) : R bool :=
  let* count := count_key_events st pre in
  if inceptive then
    let* ok := prefixer_verify hash prefixer (d_ked serder) (Some true) in
    if negb ok then Err EVerification
    else if negb (sn =? 0) then Err EDecoding
    else
      let* own := serder_pre serder in
      if negb (beq said own) then Err EVerification else Ok (negb (count =? 0))
  else
    let* ok := said_verify hash (d_saider serder) (d_ked serder) (Some inceptive) (Some true) None None [] in
    if negb ok then Err EVerification
    else if sn <? 1 then Err EValidation
    else if count <? sn then Err EOutOfOrder
    else Ok (negb (sn =? count)).

(** 75-94: the keys and the threshold the event is to be signed with. *)
Definition keys_for (st : store) (serder : sadder) (pre : bytes) (sn : N) : R (list matter * tholder) :=
  let* est := serder_est serder in
  if est then signing_keys serder
  else
    let* n := before sn in
    let* raw := get_latest_establishment_event_as_of_sn st pre n in
    let* e := serder_with_raw canon raw in
    signing_keys e.

(** 122-127 *)
Definition labels_of (ilk : bytes) : R (list bytes) :=
  if beq ilk (s! "icp") then Ok icp_labels
  else if beq ilk (s! "rot") then Ok rot_labels
  else if beq ilk (s! "ixn") then Ok ixn_labels
  else Err EDecoding.

(** 140-166: an establishment event must be signed with keys announced by the last one before it. *)
Definition check_rotation (st : store) (serder pserder : sadder) (pre : bytes) (sn : N) (verfers : list matter) (found : list (N * N)) : R unit :=
  let* est := serder_est serder in
  if est then
    let* pest := serder_est pserder in
    let* next :=
      if pest then next_keys pserder
      else
        let* n := before sn in
        let* raw := get_latest_establishment_event_as_of_sn st pre n in
        let* e := serder_with_raw canon raw in
        next_keys e in
    let* indices := revealed verfers (fst next) found in
    let* ok := satisfy (snd next) indices in
    if ok then Ok tt else Err EValidation
  else Ok tt.

(** 185-191: the event stored under the same number has the same identifier. *)
Definition check_stored (st : store) (pre said : bytes) (sn : N) : R unit :=
  let* event := get_key_event st pre (as_u32 sn) in
  let* e := serder_with_raw canon event in
  let* esaid := sad_said e in
  if negb (beq said esaid) then Err EProgrammer else Ok tt.

(** 10-195 verify_key_event. [seen] is the set of identifiers under verification, which the caller may share; [fuel] bounds the depth of the recursion, running out of
    it stands for the stack overflow that never ending recursion leads to. *)
Fixpoint verify_key_event (fuel : nat) (st : store) (serder : sadder) (quadlets : list group) (deep : option bool) (seen : list bytes) {struct fuel}
    : R (bool * list bytes) :=
  match fuel with
  | O => Panic
  | S fuel =>
    let* pre := serder_pre serder in
    let* prefixer := prefixer_with_qb64 hash pre in
    let* sn := serder_sn serder in
    let* ilk := text_at (d_ked serder) (s! "t") in
    let* said := sad_said serder in
    let inceptive := beq ilk (s! "icp") in
    let* existing := place_event st serder prefixer pre said sn inceptive in
    let* keys := keys_for st serder pre sn in
    let* found := check_groups (fst keys) (d_raw serder) quadlets in
    let* enough := satisfy (snd keys) (map fst found) in
    if negb enough then Err EVerification
    else
      let* labels := labels_of ilk in
      let* complete := verify_ked_labels (d_ked serder) labels in
      if negb complete then Err EValidation
      else
        let* seen :=
          if inceptive then Ok seen
          else
            let* n := before sn in
            let* event := get_key_event st pre n in
            let* pserder := serder_with_raw canon event in
            let* psaid := sad_said pserder in
            let* p := text_at (d_ked serder) (s! "p") in
            if negb (beq psaid p) then Err EValidation
            else
              let* _u := check_rotation st serder pserder pre sn (fst keys) found in
              if or_else deep false && negb (has_code seen psaid) then
                let* rest := from_str event (len (d_raw pserder)) in
                let* g := first_group rest in
                match g with
                | GQuadlets value => let* r := verify_key_event fuel st pserder value deep (psaid :: seen) in Ok (snd r)
                | _ => Err EDecoding
                end
              else Ok seen in
        let* _u := if existing then check_stored st pre said sn else Ok tt in
        Ok (existing, seen)
  end.

(** ** Anchors: verification.rs:30-86 verify_anchor *)
Definition verify_anchor (fuel : nat) (st : store) (anchor_pre : bytes) (seqner saider : matter) (serder : sadder) (deep : option bool) (seen : list bytes)
    : R (bool * list bytes) :=
  let* sn := seqner_sn seqner in
  let* event := get_key_event st anchor_pre (as_u32 sn) in
  let* aserder := serder_with_raw canon event in
  let* asaid := sad_said aserder in
  let* want := infil saider in
  if negb (beq asaid want) then Ok (false, seen)
  else
    let* a := index_str (d_ked aserder) (s! "a") in
    let* seals := to_vec a in
    match seals with
    | [seal] =>
      let* spre := text_at seal (s! "i") in
      let* ssn := text_at seal (s! "s") in
      let* sdig := text_at seal (s! "d") in
      let* seen :=
        if or_else deep false && negb (has_code seen asaid) then
          let* rest := from_str event (len (d_raw aserder)) in
          let* g := first_group rest in
          match g with
          | GQuadlets value => let* r := verify_key_event fuel st aserder value deep (asaid :: seen) in Ok (snd r)
          | _ => Err EDecoding
          end
        else Ok seen in
      let* s := text_at (d_ked serder) (s! "s") in
      if negb (beq ssn s) then Ok (false, seen)
      else
        let* pre := serder_pre serder in
        if negb (beq spre pre) then Ok (false, seen)
        else
          let* said := sad_said serder in
          Ok (beq sdig said, seen)
    | _ => Ok (false, seen)
    end.

(** ** Registry events: acdc/tel/verification.rs *)
(** 42-47 *)
Definition transaction_labels (ilk : bytes) : R (list bytes) :=
  if beq ilk (s! "vcp") then Ok vcp_labels
  else if beq ilk (s! "iss") then Ok iss_labels
  else if beq ilk (s! "rev") then Ok rev_labels
  else Err EDecoding.
(** 55-74: the identifier whose key events are to anchor the event. *)
Definition anchoring (st : store) (serder : sadder) (prefixer : matter) (ilk ri : bytes) : R bytes :=
  if beq ilk (s! "vcp") then
    let* ok := prefixer_verify hash prefixer (d_ked serder) (Some true) in
    if negb ok then Err EVerification else text_at (d_ked serder) (s! "ii")
  else if beq ilk (s! "iss") || beq ilk (s! "rev") then
    let* ok := said_verify hash (d_saider serder) (d_ked serder) (Some false) (Some true) None None [] in
    if negb ok then Err EVerification
    else
      let* rievent := get_transaction_event st ri 0 in
      let* riserder := serder_with_raw canon rievent in
      text_at (d_ked riserder) (s! "ii")
  else Err EDecoding.
(** 146-152 *)
Definition check_stored_transaction (st : store) (pre said : bytes) (sn : N) : R unit :=
  let* event := get_transaction_event st pre (as_u32 sn) in
  let* e := serder_with_raw canon event in
  let* esaid := sad_said e in
  if negb (beq said esaid) then Err EProgrammer else Ok tt.

(** 10-159 verify_transaction_event. *)
Fixpoint verify_transaction_event (fuel : nat) (st : store) (serder : sadder) (couples : list (matter * matter)) (deep : option bool) (seen : list bytes) {struct fuel}
    : R (bool * list bytes) :=
  match fuel with
  | O => Panic
  | S fuel =>
    let* pre := serder_pre serder in
    let* prefixer := prefixer_with_qb64 hash pre in
    let* sn := serder_sn serder in
    let* ilk := text_at (d_ked serder) (s! "t") in
    let* said := sad_said serder in
    let* ri := registry_of ilk serder in
    match couples with
    | [(source_seqner, source_saider)] =>
      let* labels := transaction_labels ilk in
      let* complete := verify_ked_labels (d_ked serder) labels in
      if negb complete then Err EValidation
      else
        let inceptive := beq ilk (s! "vcp") || beq ilk (s! "iss") in
        let* count := count_transaction_events st pre in
        let* apre := anchoring st serder prefixer ilk ri in
        let* an := verify_anchor fuel st apre source_seqner source_saider serder deep seen in
        if negb (fst an) then Err EVerification
        else
          let* es :=
            if inceptive then
              if negb (sn =? 0) then Err EDecoding else Ok (negb (count =? 0), snd an)
            else if sn <? 1 then Err EValidation
            else if count <? sn then Err EOutOfOrder
            else
              let* n := before sn in
              let* event := get_transaction_event st pre n in
              let* pserder := serder_with_raw canon event in
              let* psaid := sad_said pserder in
              let* seen :=
                if or_else deep true && negb (has_code (snd an) psaid) then
                  let* rest := from_str event (len (d_raw pserder)) in
                  let* g := first_group rest in
                  match g with
                  | GSources value => let* r := verify_transaction_event fuel st pserder value deep (psaid :: snd an) in Ok (snd r)
                  | _ => Err EDecoding
                  end
                else Ok (snd an) in
              let* p := text_at (d_ked serder) (s! "p") in
              if negb (beq psaid p) then Err EVerification else Ok (negb (sn =? count), seen) in
          let* _u := if fst es then check_stored_transaction st pre said sn else Ok tt in
          Ok es
    | _ => Err EDecoding
    end
  end.

(** ** Credentials: acdc/verification.rs *)
(** The schema cache (schemer.rs:126-128: an unknown schema panics) with the validator boon. *)
Variable schema_check : bytes -> bytes -> R bool.
(** Seconds since a date-time (chrono), an error when it does not parse. *)
Variable age : bytes -> R Z.

(** [Vec::contains] on signatures: all parts are compared (the key attached by parside is always the default one). *)
Definition sig_eqb (x y : indexer) : bool := beq (i_code x) (i_code y) && beq (i_raw x) (i_raw y) && (i_index x =? i_index y) && (i_ondex x =? i_ondex y).
(** 124-130 *)
Fixpoint distinct (acc l : list indexer) : list indexer :=
  match l with
  | [] => acc
  | x :: r => distinct (if existsb (sig_eqb x) acc then acc else acc ++ [x]) r
  end.

(** 86-149: one signature group; [None] when the path is not the whole credential. *)
Definition check_path_sig (fuel : nat) (st : store) (creder : sadder) (deep : option bool) (g : sad_path_sig) (seen : list bytes) : R (option (list bytes)) :=
  let* path := bext_of (sp_pather g) in
  if negb (beq path (s! "-")) then Ok None
  else
    let* pre := infil (sp_prefixer g) in
    let* sn := seqner_sn (sp_seqner g) in
    let* event := get_key_event st pre (as_u32 sn) in
    let* e := serder_with_raw canon event in
    let* said := sad_said e in
    let* want := infil (sp_saider g) in
    if negb (beq said want) then Err EVerification
    else
      let* seen :=
        if or_else deep true && negb (has_code seen said) then
          let* rest := from_str event (len (d_raw e)) in
          let* g := first_group rest in
          match g with
          | GQuadlets value => let* r := verify_key_event fuel st e value deep (said :: seen) in Ok (snd r)
          | _ => Err EDecoding
          end
        else Ok seen in
      let* verfers := serder_verfers e in
      let* found := check_sigs verfers (d_raw creder) (distinct [] (sp_sigers g)) in
      let* t := serder_tholder canon e in
      match t with
      | None => Err EVerification
      | Some t =>
        let* ok := satisfy t (map fst found) in
        if negb ok then Err EVerification else Ok (Some seen)
      end.
Fixpoint check_path_sigs (fuel : nat) (st : store) (creder : sadder) (deep : option bool) (l : list sad_path_sig) (rooted : bool) (seen : list bytes)
    : R (bool * list bytes) :=
  match l with
  | [] => Ok (rooted, seen)
  | g :: r =>
    let* o := check_path_sig fuel st creder deep g seen in
    match o with
    | None => check_path_sigs fuel st creder deep r rooted seen
    | Some seen => check_path_sigs fuel st creder deep r true seen
    end
  end.
Fixpoint check_path_groups (fuel : nat) (st : store) (creder : sadder) (deep : option bool) (l : list group) (rooted : bool) (seen : list bytes) : R (bool * list bytes) :=
  match l with
  | [] => Ok (rooted, seen)
  | GPaths g :: r =>
    let* o := check_path_sigs fuel st creder deep g rooted seen in
    check_path_groups fuel st creder deep r (fst o) (snd o)
  | _ :: _ => Err EDecoding
  end.

(** 187-212: the operators of an edge that count. An element that is not a text panics. *)
Fixpoint texts (l : list value) : R (list bytes) :=
  match l with
  | [] => Ok []
  | v :: r => match to_string v with Ok t => let* ts := texts r in Ok (t :: ts) | _ => Panic end
  end.
Definition operators_of (map : list (bytes * value)) : R (list bytes) :=
  let* operators :=
    match assoc (s! "o") map with
    | None => Ok []
    | Some v => match to_string v with Ok t => Ok [t] | _ => let* l := to_vec v in texts l end
    end in
  if has_code operators (s! "NOT") then Err EValue else Ok (filter (has_code [s! "I2I"; s! "NI2I"; s! "DI2I"]) operators).
(** 214-227: the one operator, with its default. *)
Definition operator_of (operators : list bytes) (node_subject : list (bytes * value)) : R bytes :=
  match operators with
  | [] => Ok (if contains_key (s! "i") node_subject then s! "I2I" else s! "NI2I")
  | [o] => Ok o
  | _ => Err EValidation
  end.
(** [map[label]] of an IndexMap panics when absent. *)
Definition entry (map : list (bytes * value)) (label : bytes) : R value := match assoc label map with Some v => Ok v | None => Panic end.

(** 174-239: one edge to another credential, up to its verification; the identifier, the stored message and the credential found there. *)
Definition check_node (st : store) (creder : sadder) (node : value) : R (bytes * bytes * sadder) :=
  let* map := to_map node in
  let* n := entry map (s! "n") in
  let* node_said := to_string n in
  let* message := get_acdc st node_said in
  let* pacdc := creder_with_raw canon message in
  let* ok :=
    match assoc (s! "s") map with
    | Some v =>
      let* node_schema := to_string v in
      let* text := from_utf8 (d_raw pacdc) in
      schema_check node_schema text
    | None => Ok true
    end in
  if negb ok then Err EValidation
  else
    let* operators := operators_of map in
    let* subject := creder_subject pacdc in
    let* node_subject := to_map subject in
    let* op := operator_of operators node_subject in
    if beq op (s! "I2I") then
      let* i := entry node_subject (s! "i") in
      let* holder := to_string i in
      let* issuer := creder_issuer creder in
      if negb (beq holder issuer) then Err EValidation else Ok (node_said, message, pacdc)
    else if beq op (s! "NI2I") then Ok (node_said, message, pacdc)
    else Panic.

(** 16-275 verify_acdc, with its loops over the edges. *)
Fixpoint verify_acdc (fuel : nat) (st : store) (creder : sadder) (quadlets : list group) (deep : option bool) (seen : list bytes) {struct fuel} : R (bool * list bytes) :=
  match fuel with
  | O => Panic
  | S fuel =>
    let* status := creder_status creder in
    match status with
    | None => Err EValidation
    | Some _ =>
      let* vcid := sad_said creder in
      let* schema := creder_schema creder in
      let* prov := creder_chains creder in
      let* saider := said_of_qb64 vcid in
      let* ok := said_verify hash saider (d_ked creder) (Some false) (Some true) (Some (s! "JSON")) None [] in
      if negb ok then Err EVerification
      else
        let* event := get_latest_transaction_event st vcid in
        let* state := serder_with_raw canon event in
        let* dt := text_at (d_ked state) (s! "dt") in
        let* seconds := age dt in
        if (36000000000 <? seconds)%Z then Err EValidation
        else
          let* ssaid := sad_said state in
          let* seen :=
            if or_else deep true && negb (has_code seen ssaid) then
              let* rest := from_str event (len (d_raw state)) in
              let* g := first_group rest in
              match g with
              | GSources value => let* r := verify_transaction_event fuel st state value deep (ssaid :: seen) in Ok (snd r)
              | _ => Err EDecoding
              end
            else Ok seen in
          let* t := text_at (d_ked state) (s! "t") in
          if has_code [s! "rev"; s! "brv"] t then Err EValidation
          else
            let* text := from_utf8 (d_raw creder) in
            let* valid := schema_check schema text in
            if negb valid then Err EValidation
            else
              let* rs := check_path_groups fuel st creder deep quadlets false seen in
              if negb (fst rs) then Err EVerification
              else
                let* edges :=
                  match prov with
                  | VObj _ => Ok [prov]
                  | VArr l => Ok l
                  | _ => Err EVerification
                  end in
                let* seen :=
                  (fix each_edge (edges : list value) (seen : list bytes) : R (list bytes) :=
                     match edges with
                     | [] => Ok seen
                     | edge :: edges =>
                       let* map := to_map edge in
                       let* seen :=
                         (fix each_node (nodes : list (bytes * value)) (seen : list bytes) : R (list bytes) :=
                            match nodes with
                            | [] => Ok seen
                            | (label, node) :: nodes =>
                              if has_code [s! "d"; s! "o"] label then each_node nodes seen
                              else
                                let* n := check_node st creder node in
                                let '(node_said, message, pacdc) := n in
                                let* seen :=
                                  if or_else deep true && negb (has_code seen node_said) then
                                    let* rest := from_str message (len (d_raw pacdc)) in
                                    let* g := first_group rest in
                                    match g with
                                    | GQuadlets value => let* r := verify_acdc fuel st pacdc value deep (node_said :: seen) in Ok (snd r)
                                    | _ => Err EDecoding
                                    end
                                  else Ok seen in
                                each_node nodes seen
                            end) map seen in
                       each_edge edges seen
                     end) edges (snd rs) in
                match get_acdc st vcid with
                | Ok message =>
                  let* e := creder_with_raw canon message in
                  let* esaid := sad_said e in
                  if negb (beq vcid esaid) then Err EProgrammer else Ok (true, seen)
                | Err _ => Ok (false, seen)
                | Panic => Panic
                end
    end
  end.

End Verification.
