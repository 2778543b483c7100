(** Properties C34-C39, C80. Theorem statements only; the proofs are in [PrimsThms]. *)
From Coq Require Import String.
From Coq Require Import NArith ZArith QArith Bool List.
From Verif Require Import Base B64 Util Tables Matter Indexer Prims Spec SpecPrims PrimsThms BaseFacts.
Import ListNotations.
Open Scope N_scope.

(** Every integer below 2^128 can be made into a number; it reads back, also after printing and parsing in each of the forms; the code is the smallest
   of the four sizes that fits. *)
Theorem C34_number_round_trip_minimal :
  forall (n : N),
  n < 2 ^ 128 ->
  exists m t b, number_new (Some n) None None None None None None = Ok m /\ number_num m = Ok n /\ number_positive m = Ok (0 <? n) /\
    infil m = Ok t /\ binfil m = Ok b /\
    number_new None None None None None (Some t) None = Ok m /\
    number_new None None None None (Some t) None None = Ok m /\
    number_new None None None None None None (Some b) = Ok m /\
    exists w, In (m_code m, w) number_sizes /\ n < 256 ^ w /\ forall c' w', In (c', w') number_sizes -> n < 256 ^ w' -> w <= w'.
Proof. exact C34_l. Qed.
Print Assumptions C34_number_round_trip_minimal.

Example C34_case : exists m, number_new (Some 65536) None None None None None None = Ok m /\ infil m = Ok (s! "0HAAAQAA") /\ m_code m = s! "0H".
Proof. exists (Mt (s! "0H") 0 [x00; x01; x00; x00]). repeat split; (vm_compute; reflexivity). Qed.

(** Every integer below 2^128 can be made into a sequence number; it reads back, also after printing and parsing in each of the forms. *)
Theorem C35_sequence_number_round_trip :
  forall (n : N),
  n < 2 ^ 128 ->
  exists m t b, seqner_new (Some n) None None None None None None = Ok m /\ seqner_sn m = Ok n /\ infil m = Ok t /\ binfil m = Ok b /\
    seqner_new None None None None None (Some t) None = Ok m /\
    seqner_new None None None None (Some t) None None = Ok m /\
    seqner_new None None None None None None (Some b) = Ok m.
Proof. exact C35_round_l. Qed.
Print Assumptions C35_sequence_number_round_trip.

Example C35_case : exists m, seqner_new (Some 5) None None None None None None = Ok m /\ infil m = Ok (s! "0AAAAAAAAAAAAAAAAAAAAAAF").
Proof. exists (Mt (s! "0A") 0 (be_bytes 16 5)). repeat split; (vm_compute; reflexivity). Qed.

(** The lexicographic order of the raw bytes, and of the binary forms, of two sequence numbers is the numeric order. *)
Theorem C35_sequence_numbers_sort :
  forall (x y : N) (mx my : matter) (bx by_ : bytes),
  x < 2 ^ 128 -> y < 2 ^ 128 ->
  seqner_new (Some x) None None None None None None = Ok mx -> seqner_new (Some y) None None None None None None = Ok my ->
  binfil mx = Ok bx -> binfil my = Ok by_ ->
  lex (m_raw mx) (m_raw my) = (x ?= y) /\ lex bx by_ = (x ?= y).
Proof. exact C35_sort_l. Qed.
Print Assumptions C35_sequence_numbers_sort.

(** The hexadecimal form of a number or sequence number is lower case without leading zeros, denotes the integer, and building from it gives the
   same number or sequence number. *)
Theorem C36_hex_round_trip :
  forall (n : N),
  n < 2 ^ 128 ->
  exists h m q, lower_hex h /\ hex_number h = n /\
    number_new (Some n) None None None None None None = Ok m /\ number_numh m = Ok h /\ number_new None (Some h) None None None None None = Ok m /\
    seqner_new (Some n) None None None None None None = Ok q /\ seqner_snh q = Ok h /\ seqner_new None (Some h) None None None None None = Ok q.
Proof. exact C36_l. Qed.
Print Assumptions C36_hex_round_trip.

Example C36_case : exists m, number_new (Some 48879) None None None None None None = Ok m /\ number_numh m = Ok (s! "beef") /\ hex_number (s! "beef") = 48879.
Proof. exists (Mt (s! "M") 0 [xbe; xef]). repeat split; (vm_compute; reflexivity). Qed.

(** A number or a sequence number is built from a non-empty text exactly when the text is a hexadecimal numeral below 2^128, and then it is the number
   or sequence number of the integer denoted. *)
Theorem C36_only_hex_accepted :
  forall (h : bytes) (m : matter),
  h <> [] ->
  (number_new None (Some h) None None None None None = Ok m <->
    exists n, hex_reading h n /\ n < 2 ^ 128 /\ number_new (Some n) None None None None None None = Ok m) /\
  (seqner_new None (Some h) None None None None None = Ok m <->
    exists n, hex_reading h n /\ n < 2 ^ 128 /\ seqner_new (Some n) None None None None None None = Ok m).
Proof. exact C36b_l. Qed.
Print Assumptions C36_only_hex_accepted.

Example C36_reading_case : hex_reading (s! "+bEef") 48879 /\ number_new None (Some (s! "beeg")) None None None None None = Err EForeign.
Proof.
  split; [|vm_compute; reflexivity]. exists (s! "+"), (s! "bEef"). split; [reflexivity|]. split; [now right|]. split; [discriminate|].
  split; [|vm_compute; reflexivity]. intros c H. cbn in H. intuition (subst; vm_compute; tauto).
Qed.

(** False as stated: text carrying a base64 padding sign parses as a number (or sequence number) whose integer cannot be read without a panic. *)
Theorem C80_parsed_integer_readable_refuted :
  (exists m, number_new None None None None None (Some (s! "MAA=")) None = Ok m /\ number_num m = Panic) /\
  (exists m, seqner_new None None None None None (Some (s! "0AAAAAAAAAAAAAAAAAAAAAA=")) None = Ok m /\ seqner_sn m = Panic).
Proof. exact C80_refuted_l. Qed.
Print Assumptions C80_parsed_integer_readable_refuted.

(** What holds: without the padding sign, and for every binary form, reading the integer returns a value below 256 to the width of the code, or (a
   number whose code is not an integer code) an error. Missing: text with '=' (exactly which: C80_unreadable_exactly). *)
Theorem C80_parsed_integer_readable_partial :
  forall (qb64b qb64 qb2 : option bytes) (m : matter),
  (forall s, qb64b = Some s \/ qb64 = Some s -> no_padding_sign s) ->
  (number_new None None None None qb64b qb64 qb2 = Ok m ->
    (exists w n, In (m_code m, w) number_sizes /\ number_num m = Ok n /\ n < 256 ^ w /\ number_numh m = Ok (to_hex n)) \/
    (~ In (m_code m) (map fst number_sizes) /\ number_num m = Err EUnexpectedCode)) /\
  (seqner_new None None None None qb64b qb64 qb2 = Ok m -> exists n, seqner_sn m = Ok n /\ n < 2 ^ 128 /\ seqner_snh m = Ok (to_hex n)).
Proof. exact C80_partial_l. Qed.
Print Assumptions C80_parsed_integer_readable_partial.

Example C80_case : exists m, number_new None None None None None (Some (s! "MAAF")) None = Ok m /\ number_num m = Ok 5.
Proof. exists (Mt (s! "M") 0 [x00; x05]). split; (vm_compute; reflexivity). Qed.

(** False as stated: a string longer than 32 characters is accepted and silently cut, and the letters c, d and p come back as other characters. *)
Theorem C37_date_time_round_trip_refuted :
  forall (now : bytes),
  (exists m, dater_new now (Some (s! "2020-08-22T17:50:09.988921+00:00:30")) None None None None None = Ok m /\
     dater_dts m = Ok (s! "2020-08-22T17:50:09.988921+00:00")) /\
  (exists m, dater_new now (Some (s! "2020-08-22T17:50:09.988921p00:00")) None None None None None = Ok m /\
     dater_dts m = Ok (s! "2020-08-22T17:50:09.988921+00:00")).
Proof. exact C37_refuted_l. Qed.
Print Assumptions C37_date_time_round_trip_refuted.

(** What holds: a string of exactly 32 characters, none of them c, d or p, reads back the same, also through qb64, qb64b and qb2. Missing: the
   strings of the refutation. *)
Theorem C37_date_time_round_trip_partial :
  forall (now dts : bytes),
  over iso_alphabet dts -> len dts = 32 ->
  exists m t b, dater_new now (Some dts) None None None None None = Ok m /\ dater_dts m = Ok dts /\ infil m = Ok t /\ binfil m = Ok b /\
    dater_new now None None None None (Some t) None = Ok m /\
    dater_new now None None None (Some t) None None = Ok m /\
    dater_new now None None None None None (Some b) = Ok m.
Proof. exact C37_partial_l. Qed.
Print Assumptions C37_date_time_round_trip_partial.

Example C37_case : over iso_alphabet (s! "2020-08-22T17:50:09.988921+00:00") /\ len (s! "2020-08-22T17:50:09.988921+00:00") = 32.
Proof. split; [|reflexivity]. intros c H. repeat (destruct H as [<-|H]; [vm_compute; tauto|]). destruct H. Qed.

(** Over those characters acceptance is exactly a matter of length: at least 32 characters are needed, and the first 32 are what is kept. *)
Theorem C37_date_time_truncation :
  forall (now dts : bytes),
  over iso_alphabet dts ->
  (32 <= len dts -> exists m, dater_new now (Some dts) None None None None None = Ok m /\ dater_dts m = Ok (take 32 dts)) /\
  (len dts < 32 -> exists e, dater_new now (Some dts) None None None None None = Err e).
Proof. exact C37_truncation_l. Qed.
Print Assumptions C37_date_time_truncation.

Example C37_truncation_case : dater_new [] (Some (s! "2020-08-22T17:50:09+00:00")) None None None None None = Err EShortage.
Proof. vm_compute. reflexivity. Qed.

(** These are exactly the strings that read back the same: 32 characters, none of them c, d or p. Any other string is refused or reads back different. *)
Theorem C37_date_time_round_trip_exactly :
  forall (now dts : bytes),
  (exists m, dater_new now (Some dts) None None None None None = Ok m /\ dater_dts m = Ok dts) <-> over iso_alphabet dts /\ len dts = 32.
Proof. exact C37_exact_l. Qed.
Print Assumptions C37_date_time_round_trip_exactly.

Example C37_exactly_case : (exists m, dater_new [] (Some (s! "2020-08-22T17:50:09.988921+00:00")) None None None None None = Ok m /\
    dater_dts m = Ok (s! "2020-08-22T17:50:09.988921+00:00")) /\
  ~ over iso_alphabet (s! "2020-08-22T17:50:09.988921p00:00").
Proof.
  split; [exists (Mt (s! "1AAG") 0 [xdb; x4d; xb4; xfb; x4f; x3e; xdb; x64; xf5; xed; xce; x74; x73; x4f; x5d; xf7; xcf; x3d; xdb; x5a; x74; xd1; xcd; x34]);
    split; (vm_compute; reflexivity)|].
  intros H. specialize (H x70). assert (In x70 (s! "2020-08-22T17:50:09.988921p00:00")) as I by (vm_compute; tauto). specialize (H I). vm_compute in H.
  repeat (destruct H as [H|H]; [discriminate|]). destruct H.
Qed.

(** False as stated: a text whose length is a multiple of four and which begins with A loses that A, so that two texts give the same primitive. *)
Theorem C38_base64_text_round_trip_refuted :
  exists m, bexter_new (Some (s! "ABCD")) None None None None None = Ok m /\
  bexter_new (Some (s! "BCD")) None None None None None = Ok m /\ bext_of m = Ok (s! "BCD").
Proof. exact C38_refuted_l. Qed.
Print Assumptions C38_base64_text_round_trip_refuted.

(** What holds: every other base64url text (up to the 16777215 quadlets of the largest code) reads back the same, also through qb64, qb64b and qb2.
   Missing: texts with a leading A whose length is a multiple of four. *)
Theorem C38_base64_text_round_trip_partial :
  forall (s : bytes),
  over base64url_alphabet s -> len s <= 67108860 -> ~ (len s mod 4 = 0 /\ prefix (s! "A") s) ->
  exists m t b, bexter_new (Some s) None None None None None = Ok m /\ bext_of m = Ok s /\ infil m = Ok t /\ binfil m = Ok b /\
    bexter_new None None None None (Some t) None = Ok m /\
    bexter_new None None None (Some t) None None = Ok m /\
    bexter_new None None None None None (Some b) = Ok m.
Proof. exact C38_partial_l. Qed.
Print Assumptions C38_base64_text_round_trip_partial.

Example C38_case : exists m, bexter_new (Some (s! "-A-Bc_def")) None None None None None = Ok m /\ bext_of m = Ok (s! "-A-Bc_def").
Proof. exists (Mt (s! "6A") 3 [x3e; x03; xe0; x5c; xfd; xd7; x9f]). split; (vm_compute; reflexivity). Qed.

(** And exactly those lose exactly that character. *)
Theorem C38_base64_text_lost_character :
  forall (r : bytes),
  over base64url_alphabet r -> len r < 67108860 -> len r mod 4 = 3 ->
  exists m, bexter_new (Some (s! "A" ++ r)) None None None None None = Ok m /\ bext_of m = Ok r.
Proof. exact C38_lost_l. Qed.
Print Assumptions C38_base64_text_lost_character.

(** Below 2^32 characters, a Bexter is built exactly from the texts over the base64url alphabet that fit the largest code; any other is rejected with
   an error. *)
Theorem C39_base64_text_validation :
  forall (s : bytes),
  len s < 2 ^ 32 ->
  ((exists m, bexter_new (Some s) None None None None None = Ok m) <-> over base64url_alphabet s /\ len s <= 67108860) /\
  bexter_new (Some s) None None None None None <> Panic.
Proof. exact C39_l. Qed.
Print Assumptions C39_base64_text_validation.

Example C39_case : over base64url_alphabet (s! "a-b_9") /\ bexter_new (Some (s! "a.b")) None None None None None = Err EValue.
Proof. split; [|vm_compute; reflexivity]. intros c H. repeat (destruct H as [<-|H]; [vm_compute; tauto|]). destruct H. Qed.
