(** Properties C36, C37: processes of a kinetic Monte Carlo simulation.
    Vocabulary: Kmc_Spec.v. *)
From Coq Require Import String Ascii List ZArith NArith Bool Arith QArith Qabs Lia.
Import ListNotations.
From Verif Require Import PyBase PyBaseFacts Kmc_Model Kmc_Spec Kmc_Proofs Kmc_Witness.
Local Open Scope list_scope.
Local Open Scope nat_scope.

(** A definition passes the check exactly when it states a well-formed process; otherwise the
    check raises SetupError. *)
Theorem C36_definition_check : forall d,
  ((exists c, check_process_dict d = Ok c) <-> (exists p, describes d p /\ well_formed p)) /\
  ((exists c, check_process_dict d = Ok c) \/ check_process_dict d = Err SetupError).
Proof. intro d. split; [exact (check_iff d)|exact (check_outcome d)]. Qed.
Print Assumptions C36_definition_check.

(** Generation succeeds exactly on lists of acceptable definitions, and then yields the
    processes of the definitions in order. *)
Theorem C36_generation : forall K (o : owner K) ds mapping ps,
  (exists m, get_processes o mapping ds = (Ok ps, m)) <->
  (exists ls, Forall2 (accepted o) ds ls /\ ps = map fst (concat ls)).
Proof.
  exact (fun K o ds mapping ps => conj
    (fun H => match H with ex_intro _ m E => get_processes_inv o ds mapping ps m E end)
    (fun H => match H with ex_intro _ ls (conj F E) =>
       match get_processes_ok o ds ls mapping F with
       | ex_intro _ m (conj E' _) => ex_intro _ m (eq_ind_r (fun ps => get_processes o mapping ds = (Ok ps, m)) E' E)
       end end)).
Qed.
Print Assumptions C36_generation.

(** One forward process per site and set of coordinates, and one reverse process unless it is a
    redistribution. *)
Theorem C36_number_of_processes : forall K d p (rf rr : K) fast (redist : bool),
  length (labelled d p rf rr fast redist) =
  length (d_sites p) * (length (d_group p) * (if redist then 1 else 2)).
Proof. exact @labelled_length. Qed.
Print Assumptions C36_number_of_processes.

(** Invalid definitions: nothing is generated and SetupError is raised if the definition is not
    well formed, its reaction is unknown or one of its elements is unknown. *)
Theorem C36_invalid_rejected : forall K (o : owner K) ds ls d rest mapping,
  Forall2 (accepted o) ds ls ->
  ((forall p, describes d p -> well_formed p -> False) \/
   (exists p, describes d p /\ well_formed p /\ ~ In (d_reaction p) (rxn_expressions o)) \/
   (exists p, describes d p /\ well_formed p /\ In (d_reaction p) (rxn_expressions o) /\
      same_kind d /\ ~ known_elements o p)) ->
  exists m, get_processes o mapping (ds ++ d :: rest) = (Err SetupError, m).
Proof.
  intros K o ds ls d rest mapping F H. apply get_processes_first_bad with ls; [exact F|].
  destruct H as [H|[(p & D & W & N)|(p & D & W & Hr & SK & N)]].
  - exact (not_described o d H).
  - exact (unknown_reaction o d p D W N).
  - exact (unknown_element o d p D W Hr SK N).
Qed.
Print Assumptions C36_invalid_rejected.

(** Not every unusable input raises SetupError: elements written once as a list and once as a
    tuple raise TypeError, and any rate algorithm other than CT and TST raises
    UnboundLocalError. *)
Theorem C36_other_errors_refuted :
  (forall K (o : owner K) d p, describes d p -> well_formed p ->
     In (d_reaction p) (rxn_expressions o) -> ~ same_kind d ->
     get_single_process o d = Err TypeError) /\
  (forall K (o : owner K) d p, describes d p -> well_formed p ->
     In (d_reaction p) (rxn_expressions o) -> same_kind d -> known_elements o p ->
     rate_algo o <> L "CT" -> rate_algo o <> L "TST" ->
     get_single_process o d = Err UnboundLocalError) /\
  (exists (o : owner nat) d p, describes d p /\ well_formed p /\
     In (d_reaction p) (rxn_expressions o) /\ ~ same_kind d).
Proof.
  split; [exact @mixed_kinds|]. split; [exact @unknown_algo|].
  exists w_owner, w_mixed, w_pdef. split; [apply w_describes; [left|right]; reflexivity|].
  split; [exact w_wf|]. split; [left; reflexivity|exact w_mixed_kinds].
Qed.
Print Assumptions C36_other_errors_refuted.

Example C36_example :
  accepted w_owner w_ads (labelled w_ads w_pdef 10 3 false false) /\
  map (fun pl => (p_site (fst pl), p_rate (fst pl), p_before (fst pl)))
    (labelled w_ads w_pdef 10 3 false false) =
  [(PInt 0, 10, PList [PStr (L "V"); PStr (L "*")]); (PInt 0, 3, PList [PStr (L "CO"); PStr (L "*")]);
   (PInt 1, 10, PList [PStr (L "V"); PStr (L "*")]); (PInt 1, 3, PList [PStr (L "CO"); PStr (L "*")])] /\
  get_processes w_owner [] [w_ads; w_unknown] = (Err SetupError,
    [L "CO_g + *_t -> CO_t(->)"; L "CO_g + *_t -> CO_t(<-)"; L "CO_g + *_t -> CO_t(->)"; L "CO_g + *_t -> CO_t(<-)"]).
Proof. split; [exact w_ads_accepted|]. split; reflexivity. Qed.

(** The [i]-th entry of the mapping of a new solver is the label (reaction and direction) of the
    [i]-th slow process.  Missing from the claim: definitions of redistribution processes not
    declared fast, and solvers on which generation has already been attempted. *)
Theorem C37_mapping_aligned_partial : forall K (o : owner K) ds ls,
  Forall2 (accepted o) ds ls -> Forall (fun d => ~ slow_redistribution d) ds ->
  processes o ds new_solver =
    (Ok (map fst (concat ls)),
     {| process_mapping := map snd (filter slow (concat ls));
        cached := Some (map fst (concat ls)) |}).
Proof. exact @processes_new. Qed.
Print Assumptions C37_mapping_aligned_partial.

(** Once generated, processes and mapping stay as they are. *)
Theorem C37_generated_once : forall K (o : owner K) ds s ps,
  cached s = Some ps -> processes o ds s = (Ok ps, s).
Proof. exact @processes_cached. Qed.
Print Assumptions C37_generated_once.

(** A failed attempt leaves the entries of the definitions before the failing one behind. *)
Theorem C37_failed_attempt : forall K (o : owner K) ds ls d rest e s,
  cached s = None ->
  Forall2 (accepted o) ds ls -> Forall (fun d => ~ slow_redistribution d) ds ->
  get_single_process o d = Err e ->
  processes o (ds ++ d :: rest) s =
    (Err e, {| process_mapping := process_mapping s ++ map snd (filter slow (concat ls));
               cached := None |}).
Proof. exact @processes_retry. Qed.
Print Assumptions C37_failed_attempt.

(** The alignment fails: (1) a redistribution that is not fast has no reverse process but gets a
    mapping entry for it; (2) after a failed attempt the mapping of the next, successful one is
    longer than the list of processes; (3) so it is if [get_processes] is called again. *)
Theorem C37_refuted :
  (exists (o : owner nat) d l ps s, accepted o d l /\
     processes o [d] new_solver = (Ok ps, s) /\
     length ps = 2 /\ length (process_mapping s) = 4) /\
  (exists (o : owner nat) bad good s ps s', fst (processes o bad new_solver) = Err SetupError /\
     s = snd (processes o bad new_solver) /\
     processes o good s = (Ok ps, s') /\ forallb (fun p => negb (p_fast p)) ps = true /\
     length ps = 4 /\ length (process_mapping s') = 8) /\
  (exists (o : owner nat) d ps m m', get_processes o [] [d] = (Ok ps, m) /\
     get_processes o m [d] = (Ok ps, m') /\
     forallb (fun p => negb (p_fast p)) ps = true /\
     length ps = 4 /\ length m' = 8).
Proof.
  split; [|split].
  - exists w_owner, w_slow_redist, (labelled w_slow_redist w_pdef 10 3 false true).
    do 2 eexists. split; [exact w_slow_redist_accepted|]. split; [vm_compute; reflexivity|].
    split; reflexivity.
  - exists w_owner, [w_ads; w_unknown], [w_ads]. do 3 eexists. split; [vm_compute; reflexivity|].
    split; [vm_compute; reflexivity|]. split; [vm_compute; reflexivity|]. repeat split.
  - exists w_owner, w_ads. do 3 eexists. split; [vm_compute; reflexivity|].
    split; [vm_compute; reflexivity|]. repeat split.
Qed.
Print Assumptions C37_refuted.

Example C37_example :
  Forall2 (accepted w_owner) [w_ads] [labelled w_ads w_pdef 10 3 false false] /\
  Forall (fun d => ~ slow_redistribution d) [w_ads] /\
  process_mapping (snd (processes w_owner [w_ads] new_solver)) =
  [L "CO_g + *_t -> CO_t(->)"; L "CO_g + *_t -> CO_t(<-)"; L "CO_g + *_t -> CO_t(->)"; L "CO_g + *_t -> CO_t(<-)"].
Proof.
  split; [constructor; [exact w_ads_accepted|constructor]|].
  split; [constructor; [exact w_ads_not_redist|constructor]|reflexivity].
Qed.
