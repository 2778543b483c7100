(** Properties C42, C82: exactly which weighted thresholds are accepted and how they are evaluated. Theorem statements only; the proofs are in [WeighThms]. *)
From Coq Require Import String.
From Coq Require Import NArith ZArith QArith Bool List.
From Verif Require Import Base Json Tholder SpecCounter SpecTholder SpecWeigh WeighThms BaseFacts.
Import ListNotations.
Open Scope N_scope.

(** The outcome of evaluating an accepted weighted threshold with fewer than 2^32 weights, on every list of indices, from the exact rational values of the
   weights it was given (as a value, as sith, or those it reports however it was made): it panics exactly when an index is not below the number of
   weights, or when in the first clause that does not earn one the sum of the signed weights needs more than 31 bits at some step; otherwise it is true exactly
   when every clause earns one, and false exactly when some clause does not. *)
Theorem C42_evaluation_exactly :
  forall (canon : bytes -> option bytes) (v : value) (ts : list (list bytes)) (ws : list (list Q)) (t : tholder) (idx : list N),
  texts v ts -> Forall2 (Forall2 reads) ts ws -> keys v < 2 ^ 32 ->
  tholder_new canon (Some v) None None = Ok t \/ (exists u, sith_clauses u ts /\ tholder_new canon None None (Some u) = Ok t) \/
  (exists a b c, tholder_new canon a b c = Ok t /\ t_weighted t = true /\ t_thold t = v) ->
  (satisfy t idx = Panic <-> (exists i, In i idx /\ keys v <= i) \/ exists a c b, signed_clauses idx 0 ws = a ++ c :: b /\ Forall passes a /\ overflows c) /\
  (satisfy t idx = Ok true <-> (forall i, In i idx -> i < keys v) /\ Forall passes (signed_clauses idx 0 ws)) /\
  (satisfy t idx = Ok false <-> (forall i, In i idx -> i < keys v) /\
    exists a c b, signed_clauses idx 0 ws = a ++ c :: b /\ Forall passes a /\ ~ overflows c /\ (total c < 1)%Q).
Proof. exact C42_exact_l. Qed.
Print Assumptions C42_evaluation_exactly.

Example C42_exact_case : exists t, let v := VArr [VArr [VStr (s! "1"); VStr (s! "1/65537"); VStr (s! "1/x/y"); VStr (s! "0/65539")]] in
  tholder_new (fun _ => None) (Some v) None None = Ok t /\ satisfy t [0; 1] = Ok true /\ satisfy t [1; 3] = Ok false /\ satisfy t [4] = Panic /\
  reads (s! "1/x/y") 1 /\ ~ overflows [1; 1 # 65537]%Q /\ overflows [1 # 65537; 1 # 65539]%Q.
Proof.
  eexists. cbv zeta. split; [vm_compute; reflexivity|]. split; [vm_compute; reflexivity|]. split; [vm_compute; reflexivity|]. split; [vm_compute; reflexivity|]. split; [|split].
  - right. split; [vm_compute; discriminate|]. exists (s! "1"). split; [right; auto|]. right. exists (s! "x/y"). reflexivity.
  - intros (a & w & b & E & H). destruct a as [|a1 [|a2 a]]; inversion E; subst.
    + destruct H as [H|H]; vm_compute in H; congruence.
    + destruct H as [H|H]; vm_compute in H; congruence.
    + destruct a; discriminate.
  - exists [1 # 65537]%Q, (1 # 65539)%Q, []. split; [reflexivity|]. left. vm_compute. discriminate.
Qed.

(** Which values are accepted as a weighted threshold. Given as threshold value: an integer from 0 to 2^32 - 1, or a list of clauses, each a list of texts
   read as weights whose sum can be formed in 32-bit arithmetic and is at least one. Given as sith: such an integer, or a non-empty list of such clauses,
   or one non-empty clause. (For fewer than 2^21 weights; the text form of the threshold must fit a Bexter.) *)
Theorem C82_accepted_exactly :
  forall (canon : bytes -> option bytes) (v : value),
  (keys v < 2 ^ 21 ->
    ((exists t, tholder_new canon (Some v) None None = Ok t) <->
      (exists z, v = VInt z /\ (0 <= z < 2 ^ 32)%Z) \/ exists ts ws, texts v ts /\ Forall2 (Forall2 reads) ts ws /\ Forall passes ws)) /\
  ((forall s, v <> VStr s) -> (forall ts, sith_clauses v ts -> len (concat ts) < 2 ^ 21) ->
    ((exists t, tholder_new canon None None (Some v) = Ok t) <->
      (exists z, v = VInt z /\ (0 <= z < 2 ^ 32)%Z) \/ exists ts ws, sith_clauses v ts /\ Forall2 (Forall2 reads) ts ws /\ Forall passes ws)).
Proof. exact C82_exact_l. Qed.
Print Assumptions C82_accepted_exactly.

Example C82_exact_case : exists t, tholder_new (fun _ => None) None None (Some (VArr [VStr (s! "+1/2"); VStr (s! "1/2")])) = Ok t /\
  sith_clauses (VArr [VStr (s! "+1/2"); VStr (s! "1/2")]) [[s! "+1/2"; s! "1/2"]] /\ tholder_new (fun _ => None) None None (Some (VArr [VStr (s! "1/2"); VStr (s! "1/3")])) = Err EValue.
Proof. eexists. split; [vm_compute; reflexivity|]. split; [|vm_compute; reflexivity]. right. exists [s! "+1/2"; s! "1/2"]. split; [discriminate|]. auto. Qed.

(** Exactly what more signatures do to a satisfied weighted threshold: it stays satisfied, unless an index is not below the number of weights or the weights that
   signed in some clause cannot be added up in 32-bit arithmetic; then checking it panics. *)
Theorem C43_monotone_exactly :
  forall (canon : bytes -> option bytes) (v : value) (ts : list (list bytes)) (ws : list (list Q)) (t : tholder) (idx more : list N),
  texts v ts -> Forall2 (Forall2 reads) ts ws -> keys v < 2 ^ 32 ->
  tholder_new canon (Some v) None None = Ok t \/ (exists u, sith_clauses u ts /\ tholder_new canon None None (Some u) = Ok t) \/
  (exists a b c, tholder_new canon a b c = Ok t /\ t_weighted t = true /\ t_thold t = v) ->
  satisfy t idx = Ok true ->
  (satisfy t (idx ++ more) = Ok true <-> (forall i, In i more -> i < keys v) /\ forall c, In c (signed_clauses (idx ++ more) 0 ws) -> ~ overflows c) /\
  (satisfy t (idx ++ more) <> Ok true -> satisfy t (idx ++ more) = Panic).
Proof. exact C43_exact_l. Qed.
Print Assumptions C43_monotone_exactly.

Example C43_exact_case : exists t, let v := VArr [VArr (map VStr [s! "1"; s! "1/65537"; s! "65536/65537"; s! "1/65539"])] in
  tholder_new (fun _ => None) (Some v) None None = Ok t /\ satisfy t [0] = Ok true /\ satisfy t [0; 1] = Ok true /\ satisfy t [0; 1; 3] = Panic /\ satisfy t [0; 1; 2; 3] = Ok true /\
  signed_clauses [0; 1; 3] 0 [[1; 1 # 65537; 65536 # 65537; 1 # 65539]%Q] = [[1; 1 # 65537; 1 # 65539]%Q] /\ overflows [1; 1 # 65537; 1 # 65539]%Q.
Proof.
  eexists. cbv zeta. do 5 (split; [vm_compute; reflexivity|]). split; [vm_compute; reflexivity|].
  exists [1; 1 # 65537]%Q, (1 # 65539)%Q, []. split; [reflexivity|]. left. vm_compute. discriminate.
Qed.
