(** C72: building micro-kinetic models in an MPI run. *)
From Coq Require Import List Bool Arith Lia.
Import ListNotations.
From Verif Require Import PyBase MpiDir_Model MpiDir_Proofs.
Local Open Scope list_scope.
Local Open Scope nat_scope.

(** With ./log in place, whatever the order in which the ranks run: no rank fails, no rank waits
    for ever, the number of steps is bounded, and ./data is there in the end. *)
Theorem C72_completes : forall d workers models y j,
  log_dir d = true -> steps j (init d workers models) y ->
  j <= (workers + 1) * (8 * models + 7) /\
  Forall (fun r => ~ exists e, snd r = Failed e) (let '(_, m, ws) := y in m :: ws) /\
  (Forall (eq (0, Done)) (let '(_, m, ws) := y in m :: ws) \/ exists z, step y z) /\
  (Forall (eq (0, Done)) (let '(_, m, ws) := y in m :: ws) -> models <> 0 ->
   data_dir (fst (fst y)) = true).
Proof. exact completes. Qed.
Print Assumptions C72_completes.

(** Rank 0 never fails, and the others only because the directory of the log files is missing. *)
Theorem C72_master : forall d workers models y j, steps j (init d workers models) y ->
  let '(_, m, ws) := y in
  (~ exists e, snd m = Failed e) /\ forall r e, In r ws -> snd r = Failed e -> e = IOError.
Proof. exact master_never_fails. Qed.
Print Assumptions C72_master.

(** In a fresh directory another rank may look for ./log before rank 0 has made it: for every
    number of ranks there is an order of events in which one fails. *)
Theorem C72_fresh_directory_refuted : forall data workers models, exists y,
  steps 3 (init {| log_dir := false; data_dir := data |} (S workers) (S models)) y /\
  Exists (fun r => snd r = Failed IOError) (let '(_, m, ws) := y in m :: ws).
Proof. exact race. Qed.
Print Assumptions C72_fresh_directory_refuted.

(** After that the rank stays lost, no barrier opens again, and no other rank builds more than
    the model it was at. *)
Theorem C72_after_failure : forall j x y,
  Exists (fun r => exists e, snd r = Failed e) (let '(_, m, ws) := x in m :: ws) -> steps j x y ->
  Exists (fun r => exists e, snd r = Failed e) (let '(_, m, ws) := y in m :: ws) /\
  Forall2 (fun r r' => fst r <= S (fst r'))
    (let '(_, m, ws) := x in m :: ws) (let '(_, m, ws) := y in m :: ws).
Proof. exact after_failure. Qed.
Print Assumptions C72_after_failure.

(** Rank 0 may then wait for ever although its own part went well. *)
Theorem C72_waits_for_ever_refuted : exists y ws,
  steps 7 (init {| log_dir := false; data_dir := false |} 1 1) y /\
  y = ({| log_dir := true; data_dir := false |}, (1, Bar2), ws) /\ forall z, ~ step y z.
Proof.
  exists ({| log_dir := true; data_dir := false |}, (1, Bar2), [(1, Failed IOError)]),
    [(1, Failed IOError)].
  split; [|split; [reflexivity|]].
  - eapply steps_more; [apply step_barrier; reflexivity|].
    eapply steps_more; [apply (step_worker _ _ [] (1, Decide) []); reflexivity|].
    eapply steps_more; [apply (step_worker _ _ [] (1, Open) []); reflexivity|].
    do 4 (eapply steps_more; [apply step_master; reflexivity|]).
    apply steps_none.
  - intros z Hz. inversion Hz as [d m ws d' m' H|d m a s b d' s' H|d m ws H]; subst; try discriminate.
    destruct a as [|r a].
    + match goal with E : [] ++ s :: b = _ |- _ => injection E as -> _ end. discriminate.
    + match goal with E : (r :: a) ++ s :: b = _ |- _ => injection E as _ E; now destruct a end.
Qed.
Print Assumptions C72_waits_for_ever_refuted.

(** A case: two ranks, two models, neither directory made twice; the first model makes ./data. *)
Example C72_ex : exists j y, steps j (init {| log_dir := true; data_dir := false |} 1 2) y /\
  y = ({| log_dir := true; data_dir := true |}, (0, Done), [(0, Done)]).
Proof.
  do 2 eexists. split; [|reflexivity].
  Ltac worker p := eapply steps_more; [apply (step_worker _ _ [] p []); reflexivity|]; cbn [app].
  Ltac master := eapply steps_more; [apply step_master; reflexivity|].
  Ltac barrier := eapply steps_more; [apply step_barrier; reflexivity|]; cbn [map release].
  barrier. worker (2, Decide). worker (2, Open). worker (2, Check).
  master. master. master. barrier. master.
  barrier. master. master. master. worker (1, Decide). worker (1, Open). worker (1, Check).
  apply steps_none.
Qed.
