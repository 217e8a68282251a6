(** Property C58: integration in time.  Vocabulary: Ode_Spec.v; [file_list], [shown]: KPlug_Spec.v.
    The integrator is any state machine ([start], [time], [values], [integrate]). *)
From Coq Require Import String Ascii List ZArith NArith QArith Bool Arith Lia Lqa.
From Verif Require Import PyBase PyBaseFacts PyData_Model PyData_Spec Fmt_Model
  KPlug_Model KPlug_Spec KPlug_Tof Ode_Model Ode_Spec Ode_Proofs.
Import ListNotations.
Local Open Scope list_scope.
Local Open Scope nat_scope.

(** Where the integration begins. *)
Theorem C58_start : forall given boltzmann nads,
  (forall x l, given = Some (x :: l) -> initial_values given boltzmann nads = Ok (x :: l)) /\
  (given = None \/ given = Some [] ->
     (forall v, boltzmann = Ok v -> initial_values given boltzmann nads = Ok v) /\
     (boltzmann = Err IOError -> initial_values given boltzmann nads = Ok (map (fun _ => 0%Q) (seq 0 nads))) /\
     (forall e, boltzmann = Err e -> e <> IOError -> initial_values given boltzmann nads = Err e)).
Proof.
  intros given boltzmann nads. split; [intros x l ->; reflexivity|].
  assert (R : repeat 0%Q nads = map (fun _ => 0%Q) (seq 0 nads)).
  { generalize 0 as j. induction nads as [|n IH]; intros j; [reflexivity|]. cbn [repeat seq map]. f_equal. apply IH. }
  intros [-> | ->]; (split; [intros v ->; reflexivity|]); (split; [intros ->; cbn; now rewrite R|]);
    intros e -> N; destruct e; try reflexivity; congruence.
Qed.
Print Assumptions C58_start.

(** With output, the run follows the trajectory of the integrator to its end, returns the time and
    the coverages reached (or passes the exception on), and the file, read by executing it, holds
    exactly the states number n, 2n, 3n, ... (n the output interval), also after an exception. *)
Theorem C58_recorded : forall (S : Type) (start : list Q -> Q -> S) time values integrate show version date
    interval t_start t_end t_step initial old l r last,
  (forall q, number_text (show q) = true) -> ~ In nl version -> ~ In nl date -> interval <> 0%Z ->
  trajectory time integrate t_end t_step (start initial t_start) l r last ->
  exists text, (forall fuel, length l < fuel ->
      solve_ode start time values integrate show (file_header version date) fuel true interval t_start t_end t_step initial old
      = Some (do _ <- r; Ok (time last, values last), Some text)) /\
    file_list text (L "times") (map (fun s => shown show (time s)) (every interval l)) /\
    file_list text (L "coverages") (map (fun s => VList (map (shown show) (values s))) (every interval l)).
Proof.
  intros S start time values integrate show version date interval t_start t_end t_step initial old l r last H1 H2 H3.
  exact (solve_traj start time values integrate show _ H1 (header_reads version date H2 H3)
           interval t_start t_end t_step initial old l r last).
Qed.
Print Assumptions C58_recorded.

(** A state is one of these if and only if its number is a multiple of the interval. *)
Theorem C58_every : forall (A : Type) n (l : list A) x,
  In x (every n l) <-> exists i, nth_error l i = Some x /\ (Z.of_nat (i + 1) mod n)%Z = 0%Z.
Proof.
  intros A n l x. rewrite every_nth.
  split; intros (i & E & M); exists i; (split; [exact E|]);
    [rewrite Nat.add_1_r; exact M|rewrite <- Nat.add_1_r; exact M].
Qed.
Print Assumptions C58_every.

(** Without output, the same and no file is written. *)
Theorem C58_quiet : forall (S : Type) (start : list Q -> Q -> S) time values integrate show header
    interval t_start t_end t_step initial old l r last,
  interval <> 0%Z -> trajectory time integrate t_end t_step (start initial t_start) l r last ->
  forall fuel, length l < fuel ->
    solve_ode start time values integrate show header fuel false interval t_start t_end t_step initial old
    = Some (do _ <- r; Ok (time last, values last), old).
Proof. intros S start time values integrate show header. exact (solve_quiet start time values integrate show header). Qed.
Print Assumptions C58_quiet.

(** A call that ends has a trajectory, and there is only one. *)
Theorem C58_ended : forall (S : Type) (start : list Q -> Q -> S) time values integrate show version date
    fuel traj interval t_start t_end t_step initial old res,
  (forall q, number_text (show q) = true) -> ~ In nl version -> ~ In nl date -> interval <> 0%Z ->
  solve_ode start time values integrate show (file_header version date) fuel traj interval t_start t_end t_step initial old = Some res ->
  exists l r last, trajectory time integrate t_end t_step (start initial t_start) l r last /\ length l < fuel /\
    forall l' r' last', trajectory time integrate t_end t_step (start initial t_start) l' r' last' ->
      l' = l /\ r' = r /\ last' = last.
Proof.
  intros S start time values integrate show version date fuel traj interval t_start t_end t_step initial old res H1 H2 H3 NZ E.
  destruct (solve_back start time values integrate show _ H1 (header_reads version date H2 H3)
              fuel traj interval t_start t_end t_step initial old res NZ E) as (l & r & last & TR & F).
  exists l, r, last. split; [exact TR|]. split; [exact F|]. exact (trajectory_unique _ _ _ _ _ _ _ _ TR).
Qed.
Print Assumptions C58_ended.

(** A trajectory without exception stops at the first state not before the end time. *)
Theorem C58_end_time : forall (S : Type) time integrate t_end t_step (s : S) l last,
  trajectory time integrate t_end t_step s l (Ok tt) last ->
  (t_end <= time last)%Q /\ List.last (s :: l) s = last /\
  forall x, In x (removelast (s :: l)) -> (time x < t_end)%Q.
Proof. intros S. exact (@trajectory_end S). Qed.
Print Assumptions C58_end_time.

(** An integrator that does what it is asked for reaches the end after as many steps as the time
    span needs. *)
Theorem C58_steps : forall (S : Type) time integrate t_end t_step n (s : S), (0 < t_step)%Q ->
  (forall s t, fst (integrate s t) = Ok tt /\ (time (snd (integrate s t)) == t)%Q) ->
  (forall k, k < n -> (time s + inject_Z (Z.of_nat k) * t_step < t_end)%Q) ->
  (t_end <= time s + inject_Z (Z.of_nat n) * t_step)%Q ->
  exists l last, trajectory time integrate t_end t_step s l (Ok tt) last /\ length l = n /\
    (time last == time s + inject_Z (Z.of_nat n) * t_step)%Q.
Proof. intros S time integrate t_end t_step n s. exact (trajectory_steps time integrate t_end t_step n s). Qed.
Print Assumptions C58_steps.

(** An integrator for the examples: it goes exactly to the time asked for and halves the coverages. *)
Definition halving_start (v : list Q) (t : Q) : Q * list Q := (t, v).
Definition halving (s : Q * list Q) (t : Q) : res unit * (Q * list Q) :=
  (Ok tt, (t, map (fun x => x * (1 # 2))%Q (snd s))).
Definition decimals (q : Q) : str := L "0.5".

Example C58_example :
  (forall q, number_text (decimals q) = true) /\
  (forall s t, fst (halving s t) = Ok tt /\ (fst (snd (halving s t)) == t)%Q) /\
  exists l last, trajectory fst halving 3 1 (halving_start [1] 0)%Q l (Ok tt) last /\ length l = 3 /\
    length (every 2 l) = 1.
Proof.
  split; [reflexivity|]. split; [intros; split; reflexivity|].
  do 2 eexists. split; [|split].
  - do 3 (eapply tr_step; [reflexivity|reflexivity|]). apply tr_end. intros H. vm_compute in H. discriminate.
  - reflexivity.
  - reflexivity.
Qed.

(** Output interval zero: the first step is a ZeroDivisionError; the file holds empty lists. *)
Theorem C58_interval_zero : forall (S : Type) (start : list Q -> Q -> S) time values integrate show version date
    fuel t_start t_end t_step initial old,
  (forall q, number_text (show q) = true) -> ~ In nl version -> ~ In nl date ->
  (time (start initial t_start) < t_end)%Q ->
  exists text,
    solve_ode start time values integrate show (file_header version date) (1 + fuel) true 0 t_start t_end t_step initial old
    = Some (Err ZeroDivisionError, Some text) /\
    file_list text (L "times") [] /\ file_list text (L "coverages") [].
Proof.
  intros S start time values integrate show version date fuel t_start t_end t_step initial old H1 H2 H3.
  exact (solve_zero start time values integrate show _ H1 (header_reads version date H2 H3)
           fuel t_start t_end t_step initial old).
Qed.
Print Assumptions C58_interval_zero.

(** Refuted: the state that is returned need not be in the file. *)
Theorem C58_last_refuted : forall version date old, ~ In nl version -> ~ In nl date ->
  exists text t v, solve_ode halving_start fst snd halving decimals (file_header version date) 4 true 2 0 3 1 [1%Q] old
    = Some (Ok (t, v), Some text) /\ (t == 3)%Q /\
    file_list text (L "times") [VNum (decimals 2)].
Proof.
  intros version date old H1 H2. destruct C58_example as (D & _ & l & last & TR & LN & LE).
  destruct (C58_recorded _ halving_start fst snd halving decimals version date 2 0 3 1 [1%Q] old l (Ok tt) last
              D H1 H2 ltac:(discriminate) TR) as (text & RN & F1 & _).
  exists text, (fst last), (snd last). split; [|split].
  - apply RN. rewrite LN. repeat constructor.
  - destruct (C58_end_time _ _ _ _ _ _ _ _ TR) as (_ & E & _).
    assert (TR2 : trajectory fst halving 3 1 (halving_start [1%Q] 0) 
             [(0 + 1, [1 * (1 # 2)]); (0 + 1 + 1, [1 * (1 # 2) * (1 # 2)]);
              (0 + 1 + 1 + 1, [1 * (1 # 2) * (1 # 2) * (1 # 2)])]%Q (Ok tt)
             (0 + 1 + 1 + 1, [1 * (1 # 2) * (1 # 2) * (1 # 2)])%Q).
    { do 3 (eapply tr_step; [reflexivity|reflexivity|]). apply tr_end. intros H. vm_compute in H. discriminate. }
    apply (trajectory_unique _ _ _ _ _ _ _ _ TR) in TR2 as (_ & _ & <-). reflexivity.
  - destruct (every 2 l) as [|x [|y m]]; try discriminate. exact F1.
Qed.
Print Assumptions C58_last_refuted.

(** Refuted: if the integrator fails without raising (scipy only warns) and does not advance, the
    call does not end. *)
Theorem C58_stuck_refuted : forall (S : Type) (start : list Q -> Q -> S) time values integrate show version date
    traj interval t_start t_end t_step initial old,
  (forall q, number_text (show q) = true) -> ~ In nl version -> ~ In nl date -> interval <> 0%Z ->
  (time (start initial t_start) < t_end)%Q ->
  (forall s t, fst (integrate s t) = Ok tt /\ (time (snd (integrate s t)) <= time s)%Q) ->
  forall fuel, solve_ode start time values integrate show (file_header version date) fuel traj interval
                 t_start t_end t_step initial old = None.
Proof.
  intros S start time values integrate show version date traj interval t_start t_end t_step initial old H1 H2 H3.
  exact (solve_stuck start time values integrate show _ H1 (header_reads version date H2 H3)
           traj interval t_start t_end t_step initial old).
Qed.
Print Assumptions C58_stuck_refuted.

Example C58_stuck_example : forall s t, 
  let frozen := fun (s : Q * list Q) (t : Q) => (@Ok unit tt, s) in
  fst (frozen s t) = Ok tt /\ (fst (snd (frozen s t)) <= fst s)%Q.
Proof. intros s t frozen. split; [reflexivity|apply Qle_refl]. Qed.
