(** C87: continuing a kinetic Monte Carlo run with scripts/kmc_run/change_start_time.py. *)
From Coq Require Import String Ascii List ZArith Bool Arith.
Import ListNotations.
From Verif Require Import PyBase PyData_Model PyData_Spec Restart_Model Restart_Spec Restart_Proofs Restart_Witness.
Local Open Scope list_scope.

(** What the script writes: every line that begins with start_time is replaced, without its end;
    if there is none, the run is to start at 0.0 again. *)
Theorem C87_written : forall show trajectory old new,
  change_start_time show trajectory old = Ok new <->
  exists v l, recorded trajectory v /\ lines_of l old /\
    ((Exists start_line l /\ exists t l', shows show v t /\ Forall2 (left t) l l' /\ new = concat l') \/
     (~ Exists start_line l /\ new = old ++ L "start_time = 0.0" ++ [nl])).
Proof. exact restart_iff. Qed.
Print Assumptions C87_written.

Example C87_written_example : change_start_time show0 traj1 end_last = Ok (L "kind = 1" ++ [nl] ++ L "start_time = 1.5").
Proof. vm_compute. reflexivity. Qed.

(** Every text has exactly one list of lines. *)
Theorem C87_lines : forall s, exists! l, lines_of l s.
Proof.
  exact (fun s => ex_intro _ (read_lines s)
    (conj (read_lines_sound s) (fun l H => read_lines_complete l s H))).
Qed.
Print Assumptions C87_lines.

(** Only the start time changes exactly if no start_time line has an end of line. *)
Theorem C87_intended : forall show trajectory old new v t l,
  change_start_time show trajectory old = Ok new ->
  recorded trajectory v -> shows show v t -> lines_of l old -> Exists start_line l ->
  (intended t old new <-> forall w, In w l -> start_line w -> ~ In nl w).
Proof. exact intended_iff. Qed.
Print Assumptions C87_intended.

Example C87_intended_example :
  change_start_time show0 traj1 in_front = Ok (L "start_time = 1.5kind = 1" ++ [nl]) /\
  recorded traj1 (VNum (L "1.5")) /\ shows show0 (VNum (L "1.5")) (L "1.5") /\
  lines_of [L "start_time = 0.0" ++ [nl]; L "kind = 1" ++ [nl]] in_front /\
  Exists start_line [L "start_time = 0.0" ++ [nl]; L "kind = 1" ++ [nl]].
Proof.
  exact (conj changed_in_front (conj recorded1 (conj (or_introl (ex_intro _ (L "1.5") (conj eq_refl eq_refl)))
    (conj lines_in_front (Exists_cons_hd start_line (L "start_time = 0.0" ++ [nl]) [L "kind = 1" ++ [nl]]
      (ex_intro _ (L " = 0.0" ++ [nl]) eq_refl)))))).
Qed.

(** Such a line can only be the last one, and there is only one of it. *)
Theorem C87_only_last : forall l s w, lines_of l s -> In w l -> ~ In nl w -> exists a, l = a ++ [w] /\ ~ In w a.
Proof. exact unterminated_last. Qed.
Print Assumptions C87_only_last.

Example C87_only_last_example : lines_of [L "kind = 1" ++ [nl]; L "start_time = 0.0"] end_last /\
  ~ In nl (L "start_time = 0.0").
Proof.
  split; [apply read_lines_iff; vm_compute; reflexivity|].
  intro X. cbn in X. repeat (destruct X as [X|X]; [discriminate|]). destruct X.
Qed.

(** With the start time in a last line without end, the continued run starts at the last recorded
    time and keeps all other settings. *)
Theorem C87_continues_partial : forall show trajectory a r s g,
  recorded trajectory (VNum s) -> number_text (show s) = true ->
  exec_file (a ++ [nl]) = Ok g ->
  (forall l, lines_of l (a ++ [nl]) -> ~ Exists start_line l) -> ~ In nl r ->
  exists new, change_start_time show trajectory ((a ++ [nl]) ++ L "start_time" ++ r) = Ok new /\
    exec_file new = Ok (dset g (L "start_time") (OVal (VNum (show s)))).
Proof. exact continues. Qed.
Print Assumptions C87_continues_partial.

Example C87_continues_example : recorded traj1 (VNum (L "1.5")) /\ number_text (show0 (L "1.5")) = true /\
  exec_file (L "kind = 1" ++ [nl]) = Ok [(L "kind", OVal (VNum (L "1")))] /\
  (forall l, lines_of l (L "kind = 1" ++ [nl]) -> ~ Exists start_line l).
Proof. exact (conj recorded1 (conj eq_refl (conj eq_refl kind_no_start))). Qed.

(** A start time before other settings is joined with the line behind it. *)
Theorem C87_joined : forall show trajectory s r b, recorded trajectory (VNum s) -> ~ In nl r ->
  (forall l, lines_of l b -> ~ Exists start_line l) ->
  change_start_time show trajectory (L "start_time" ++ r ++ nl :: b) = Ok (L "start_time = " ++ show s ++ b).
Proof. exact change_first. Qed.
Print Assumptions C87_joined.

Example C87_joined_example : recorded traj1 (VNum (L "1.5")) /\
  (forall l, lines_of l (L "kind = 1" ++ [nl]) -> ~ Exists start_line l).
Proof. exact (conj recorded1 kind_no_start). Qed.

(** Not always is only the start time changed; the setup may not be readable any more. *)
Theorem C87_continues_refuted : exists show trajectory old new g,
  recorded trajectory (VNum (L "1.5")) /\ exec_file old = Ok g /\
  change_start_time show trajectory old = Ok new /\ ~ intended (show (L "1.5")) old new /\
  forall g', exec_file new <> Ok g'.
Proof.
  exact (ex_intro _ show0 (ex_intro _ traj1 (ex_intro _ in_front (ex_intro _ (L "start_time = 1.5kind = 1" ++ [nl])
    (ex_intro _ [(L "start_time", OVal (VNum (L "0.0"))); (L "kind", OVal (VNum (L "1")))]
    (conj recorded1 (conj eq_refl (conj changed_in_front (conj not_intended
      (fun g' H => match (H : Err Unsupported = Ok g') with end)))))))))).
Qed.
Print Assumptions C87_continues_refuted.

(** Continued twice, such a setup loses the setting behind the start time. *)
Theorem C87_twice : forall show trajectory trajectory2 s s2 r w b,
  recorded trajectory (VNum s) -> recorded trajectory2 (VNum s2) ->
  ~ In nl r -> ~ In nl w -> ~ In nl (show s) -> ~ start_line (w ++ [nl]) ->
  (forall l, lines_of l b -> ~ Exists start_line l) ->
  (do new <- change_start_time show trajectory (L "start_time" ++ r ++ nl :: w ++ nl :: b);
   change_start_time show trajectory2 new) = Ok (L "start_time = " ++ show s2 ++ b).
Proof. exact twice. Qed.
Print Assumptions C87_twice.

Example C87_twice_example : recorded traj1 (VNum (L "1.5")) /\ recorded traj2 (VNum (L "2.5")) /\
  (do new <- change_start_time show0 traj1 in_front; change_start_time show0 traj2 new) =
    Ok (L "start_time = 2.5").
Proof. exact (conj recorded1 (conj recorded2 eq_refl)). Qed.

(** A setup without start time is not continued: its run begins at 0.0. *)
Theorem C87_missing_refuted : exists show trajectory old new,
  recorded trajectory (VNum (L "1.5")) /\ change_start_time show trajectory old = Ok new /\
  exec_file new = Ok [(L "kind", OVal (VNum (L "1"))); (L "start_time", OVal (VNum (L "0.0")))].
Proof.
  exact (ex_intro _ show0 (ex_intro _ traj1 (ex_intro _ (L "kind = 1" ++ [nl])
    (ex_intro _ (L "kind = 1" ++ [nl] ++ L "start_time = 0.0" ++ [nl]) (conj recorded1 (conj eq_refl eq_refl)))))).
Qed.
Print Assumptions C87_missing_refuted.

(** Without recorded times nothing is written. *)
Theorem C87_no_times : forall show trajectory old g, exec_file trajectory = Ok g ->
  (dget g (L "times") = Some (OVal (VList [])) \/ dget g (L "times") = Some (OVal (VTuple [])) ->
   change_start_time show trajectory old = Err IndexError) /\
  (dget g (L "times") = None -> change_start_time show trajectory old = Err KeyError) /\
  (forall n, dget g (L "times") = Some (OVal (VNum n)) -> change_start_time show trajectory old = Err TypeError).
Proof.
  exact (fun show t o g H => conj (no_times show t o g H) (conj (no_times_name show t o g H) (fun n => times_number show t o g n H))).
Qed.
Print Assumptions C87_no_times.

Example C87_no_times_example : exec_file (L "times = []" ++ [nl]) = Ok [(L "times", OVal (VList []))].
Proof. vm_compute. reflexivity. Qed.

(** A trajectory file that cannot be executed stops the script with its error. *)
Theorem C87_unreadable : forall show trajectory old e, exec_file trajectory = Err e ->
  change_start_time show trajectory old = Err e.
Proof. exact unreadable. Qed.
Print Assumptions C87_unreadable.

Example C87_unreadable_example : exec_file (L "times = [") = Err SyntaxError.
Proof. vm_compute. reflexivity. Qed.
