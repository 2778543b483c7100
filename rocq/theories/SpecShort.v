(** Vocabulary of the statements about short constructors. *)
From Coq Require Import String.
From Coq Require Import NArith List Bool.
From Verif Require Import Base Matter Indexer Prims Saider Diger Prefixer Signer Pather Short Spec SpecKinds.
Import ListNotations.
Open Scope N_scope.

(** A kind of primitive: its codes and the four short constructors for its encodings. *)
Record short := Kind { sh_codes : list bytes; sh_raw : bytes -> option bytes -> R matter; sh_qb64b : bytes -> R matter; sh_qb64 : bytes -> R matter; sh_qb2 : bytes -> R matter }.
Definition shorts (hash : bytes -> bytes -> bytes) (now : bytes) : list short :=
  [ Kind keys verfer_with_raw verfer_with_qb64b verfer_with_qb64 verfer_with_qb2;
    Kind digests (diger_with_raw hash) (diger_with_qb64b hash) (diger_with_qb64 hash) (diger_with_qb2 hash);
    Kind digests (said_with_raw hash) (said_with_qb64b hash) (said_with_qb64 hash) (said_with_qb2 hash);
    Kind numbers number_with_raw number_with_qb64b number_with_qb64 number_with_qb2;
    Kind sequence_numbers seqner_with_raw seqner_with_qb64b seqner_with_qb64 seqner_with_qb2;
    Kind date_times (dater_with_raw now) (dater_with_qb64b now) (dater_with_qb64 now) (dater_with_qb2 now);
    Kind base64_texts bexter_with_raw bexter_with_qb64b bexter_with_qb64 bexter_with_qb2;
    Kind base64_texts pather_with_raw pather_with_qb64b pather_with_qb64 pather_with_qb2;
    Kind prefixes (prefixer_with_raw hash) (prefixer_with_qb64b hash) (prefixer_with_qb64 hash) (prefixer_with_qb2 hash) ].

(** All four give the value [x] whose primitive part is [m], printed in each form. *)
Definition all_give {A} (m : matter) (x : A) (raw : bytes -> option bytes -> R A) (qb64b qb64 qb2 : bytes -> R A) : Prop :=
  exists t b, infil m = Ok t /\ binfil m = Ok b /\ qb64 t = Ok x /\ qb64b t = Ok x /\ qb2 b = Ok x /\ raw (m_raw m) (Some (m_code m)) = Ok x.
