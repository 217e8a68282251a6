(** Proofs about the integration in time. *)
From Coq Require Import String Ascii List ZArith NArith QArith Bool Arith Lia Lqa Qround.
From Verif Require Import PyBase PyBaseFacts PyData_Model PyData_Spec PyData_Proofs Fmt_Model Fmt_Proofs
  KPlug_Model KPlug_Spec KPlug_Text KPlug_Tof Ode_Model Ode_Spec.
Import ListNotations.
Local Open Scope list_scope.
Local Open Scope nat_scope.

Section Ode.
  Context {S : Type}.
  Variable start : list Q -> Q -> S.
  Variable time : S -> Q.
  Variable values : S -> list Q.
  Variable integrate : S -> Q -> res unit * S.
  Variable show : Q -> str.
  Variable header : str.
  Notation state := (Ode_Model.state S).
  Let row (y : list Q) : val := VList (map (num show) y).

  Hypothesis show_ok : forall q, number_text (show q) = true.
  Hypothesis header_ok : reads header [].

  Definition log (file : option str) (T : list Q) (Y : list (list Q)) : Prop :=
    exists text g, file = Some text /\ reads text g /\
      the_list g (L "times") (map (num show) T) /\ the_list g (L "coverages") (map row Y).

  Lemma log_list file T Y : log file T Y -> exists text, file = Some text /\
    file_list text (L "times") (map (shown show) T) /\
    file_list text (L "coverages") (map (fun y => VList (map (shown show) y)) Y).
  Proof.
    intros (text & g & E & R & G1 & G2). exists text. split; [exact E|]. apply reads_exec in R.
    split; exists g; split; auto.
  Qed.

  Lemma log_start : log (Some (header ++ L "times = []" ++ [nl; nl] ++ L "coverages = []" ++ [nl; nl])) [] [].
  Proof.
    eexists _, _. split; [reflexivity|]. split.
    { eapply reads_app; [exact header_ok| |].
      - replace (L "times = []" ++ [nl; nl] ++ L "coverages = []" ++ [nl; nl]) with
          (((L "times" ++ L " = []" ++ [nl]) ++ [nl]) ++ ((L "coverages" ++ L " = []" ++ [nl]) ++ [nl])) by reflexivity.
        apply piece_app; apply blank_app; apply empty_line; reflexivity.
      - reflexivity. }
    split; reflexivity.
  Qed.

  Lemma flush_log file T Y k ts ys : log file T Y ->
    exists text, ode_flush show k ts ys = Ok text /\ log (append_file file text) (T ++ ts) (Y ++ ys).
  Proof.
    intros (text & g & -> & R & G1 & G2). unfold ode_flush.
    destruct (extension_piece (L "times") k (map (num show) ts) 5)
      as (t1 & -> & P1); [reflexivity|now apply nums_writable|discriminate|].
    cbn [bind].
    destruct (extension_piece (L "coverages") k (map row ys) 5)
      as (t2 & E2 & P2); [reflexivity|now apply rows_writable|discriminate|].
    unfold row in E2. rewrite E2. cbn [bind].
    eexists. split; [reflexivity|].
    destruct (ext_effect g (L "times") k (map (num show) ts) _ G1) as (g1 & X1 & Y1 & Z1).
    { vm_compute. intuition discriminate. }
    assert (NU : forall n m k, ~ In "_"%char n -> n <> m ++ L "_" ++ nat_text k).
    { intros n m k' H K. apply H. rewrite K. apply in_app_iff. right. left. reflexivity. }
    assert (G2' : the_list g1 (L "coverages") (map row Y)).
    { unfold the_list. rewrite Z1; [exact G2|discriminate|apply NU; vm_compute; intuition discriminate]. }
    destruct (ext_effect g1 (L "coverages") k (map row ys) _ G2') as (g2 & X2 & Y2 & Z2).
    { vm_compute. intuition discriminate. }
    eexists _, g2. split; [reflexivity|]. split.
    { eapply reads_app; [exact R| |].
      - apply piece_app; [apply flush_comment_piece|]. apply piece_app; [exact P1|exact P2].
      - rewrite exec_stmts_app. change (exec_stmts g [SPass; SPass]) with (Ok g). cbn [bind].
        rewrite exec_stmts_app, X1. cbn [bind]. exact X2. }
    split. { unfold the_list. rewrite Z2; try discriminate; try (apply NU; vm_compute; intuition discriminate).
             unfold the_list in Y1. rewrite Y1, map_app. reflexivity. }
    unfold the_list in *. rewrite Y2, map_app. reflexivity.
  Qed.

  (** ** The entries number n, 2n, ... *)
  Definition every_from {A} (k : nat) (n : Z) (l : list A) : list A :=
    map snd (filter (fun p => (Z.of_nat (fst p) mod n =? 0)%Z) (combine (seq k (length l)) l)).

  Lemma every_cons {A} k n (x : A) l : every_from k n (x :: l) =
    (if (Z.of_nat k mod n =? 0)%Z then [x] else []) ++ every_from (Datatypes.S k) n l.
  Proof. unfold every_from. cbn [length seq combine filter fst]. destruct (_ =? 0)%Z; reflexivity. Qed.

  Lemma not_below a b : negb (Qle_bool a b) = true <-> (b < a)%Q.
  Proof.
    rewrite negb_true_iff. split; intros H.
    - destruct (Qlt_le_dec b a) as [|C]; [assumption|]. apply Qle_bool_iff in C. congruence.
    - destruct (Qle_bool a b) eqn:E; [|reflexivity]. apply Qle_bool_iff in E. lra.
  Qed.

  Section Run.
    Variables (interval : Z) (t_end t_step : Q).

    (** The loop follows the trajectory. *)
    Lemma loop_traj : interval <> 0%Z -> forall s0 l r last, trajectory time integrate t_end t_step s0 l r last ->
      forall s T Y k, o_ode s = s0 -> o_nstep s = Z.of_nat k -> o_ts s = [] -> o_ys s = [] -> log (o_file s) T Y ->
      exists s', (forall fuel, length l < fuel ->
          ode_loop time values integrate show fuel true interval t_end t_step s = Some (r, s')) /\
        o_ode s' = last /\ o_ts s' = [] /\ o_ys s' = [] /\
        log (o_file s') (T ++ map time (every_from (Datatypes.S k) interval l))
            (Y ++ map values (every_from (Datatypes.S k) interval l)).
    Proof.
      intros NZ s0 l r last TR. induction TR as [s0 N|s0 e s1 LT EI|s0 s1 l r last LT EI TR IH]; intros s T Y k E En Et Ey Lg.
      - exists s. split; [|cbn; rewrite !app_nil_r; auto].
        intros [|fuel] F; [inversion F|]. cbn [ode_loop]. subst s0.
        destruct (negb _) eqn:B; [|reflexivity]. apply not_below in B. contradiction.
      - eexists. split.
        + intros [|fuel] F; [inversion F|]. cbn [ode_loop]. subst s0.
          rewrite (proj2 (not_below _ _) LT). unfold ode_step.
          destruct (interval =? 0)%Z eqn:Z0; [apply Z.eqb_eq in Z0; contradiction|]. rewrite EI. reflexivity.
        + cbn. rewrite !app_nil_r. auto.
      - rewrite every_cons. 
        assert (NS : (o_nstep s + 1)%Z = Z.of_nat (Datatypes.S k)) by lia.
        destruct (Z.of_nat (Datatypes.S k) mod interval =? 0)%Z eqn:M.
        + destruct (flush_log (o_file s) T Y (o_counter s) [time s1] [values s1] Lg) as (text & EF & Lg').
          destruct (IH {| o_ode := s1; o_nstep := o_nstep s + 1; o_ts := []; o_ys := [];
                          o_counter := Datatypes.S (o_counter s); o_file := append_file (o_file s) text |}
                       (T ++ [time s1]) (Y ++ [values s1]) (Datatypes.S k)) as (s' & RN & H); auto.
          exists s'. split.
          * intros [|fuel] F; [inversion F|]. cbn [length] in F. cbn [ode_loop]. subst s0.
            rewrite (proj2 (not_below _ _) LT). unfold ode_step.
            destruct (interval =? 0)%Z eqn:Z0; [apply Z.eqb_eq in Z0; contradiction|]. rewrite EI, NS, M, Et, Ey.
            cbn [andb app]. rewrite EF. rewrite <- NS. apply RN. lia.
          * cbn [app map]. change (time s1 :: map time (every_from (Datatypes.S (Datatypes.S k)) interval l))
              with ([time s1] ++ map time (every_from (Datatypes.S (Datatypes.S k)) interval l)).
            change (values s1 :: map values (every_from (Datatypes.S (Datatypes.S k)) interval l))
              with ([values s1] ++ map values (every_from (Datatypes.S (Datatypes.S k)) interval l)).
            rewrite !app_assoc. exact H.
        + destruct (IH {| o_ode := s1; o_nstep := o_nstep s + 1; o_ts := o_ts s; o_ys := o_ys s;
                          o_counter := o_counter s; o_file := o_file s |} T Y (Datatypes.S k)) as (s' & RN & H); auto.
          exists s'. split; [|exact H].
          intros [|fuel] F; [inversion F|]. cbn [length] in F. cbn [ode_loop]. subst s0.
          rewrite (proj2 (not_below _ _) LT). unfold ode_step.
          destruct (interval =? 0)%Z eqn:Z0; [apply Z.eqb_eq in Z0; contradiction|]. rewrite EI, NS, M.
          cbn [andb]. rewrite <- NS. apply RN. lia.
    Qed.

    Lemma loop_quiet : interval <> 0%Z -> forall s0 l r last, trajectory time integrate t_end t_step s0 l r last ->
      forall s, o_ode s = s0 ->
      exists s', (forall fuel, length l < fuel ->
          ode_loop time values integrate show fuel false interval t_end t_step s = Some (r, s')) /\
        o_ode s' = last /\ o_file s' = o_file s.
    Proof.
      intros NZ s0 l r last TR. induction TR as [s0 N|s0 e s1 LT EI|s0 s1 l r last LT EI TR IH]; intros s E.
      - exists s. split; [|auto].
        intros [|fuel] F; [inversion F|]. cbn [ode_loop]. subst s0.
        destruct (negb _) eqn:B; [|reflexivity]. apply not_below in B. contradiction.
      - eexists. split.
        + intros [|fuel] F; [inversion F|]. cbn [ode_loop]. subst s0.
          rewrite (proj2 (not_below _ _) LT). unfold ode_step.
          destruct (interval =? 0)%Z eqn:Z0; [apply Z.eqb_eq in Z0; contradiction|]. rewrite EI. reflexivity.
        + auto.
      - destruct (IH {| o_ode := s1; o_nstep := o_nstep s + 1; o_ts := o_ts s; o_ys := o_ys s;
                          o_counter := o_counter s; o_file := o_file s |}) as (s' & RN & H); auto.
        exists s'. split; [|exact H].
        intros [|fuel] F; [inversion F|]. cbn [length] in F. cbn [ode_loop]. subst s0.
        rewrite (proj2 (not_below _ _) LT). unfold ode_step.
        destruct (interval =? 0)%Z eqn:Z0; [apply Z.eqb_eq in Z0; contradiction|]. rewrite EI.
        cbn [andb]. apply RN. lia.
    Qed.

    (** A run that ends has a trajectory. *)
    Lemma loop_back traj fuel : interval <> 0%Z -> forall s T Y r s',
      (traj = true -> log (o_file s) T Y) -> 
      ode_loop time values integrate show fuel traj interval t_end t_step s = Some (r, s') ->
      exists l last, trajectory time integrate t_end t_step (o_ode s) l r last /\ length l < fuel.
    Proof.
      intros NZ. induction fuel as [|fuel IH]; intros s T Y r s' Lg H; [discriminate|].
      cbn [ode_loop] in H. destruct (negb _) eqn:B.
      - apply not_below in B. unfold ode_step in H.
        destruct (interval =? 0)%Z eqn:Z0; [apply Z.eqb_eq in Z0; contradiction|].
        destruct (integrate (o_ode s) (time (o_ode s) + t_step)%Q) as [[[]|e] r1] eqn:EI.
        + destruct (traj && _) eqn:TA.
          * apply andb_prop in TA as [-> _].
            destruct (flush_log (o_file s) T Y (o_counter s) (o_ts s ++ [time r1]) (o_ys s ++ [values r1]) (Lg eq_refl))
              as (text & EF & Lg'). rewrite EF in H.
            apply (IH _ (T ++ o_ts s ++ [time r1]) (Y ++ o_ys s ++ [values r1])) in H as (l & last & TR & LN); [|auto].
            exists (r1 :: l), last. split; [|cbn; lia]. eapply tr_step; eauto.
          * apply (IH _ T Y) in H as (l & last & TR & LN); [|auto].
            exists (r1 :: l), last. split; [|cbn; lia]. eapply tr_step; eauto.
        + injection H as <- <-. exists [], r1. split; [|cbn; lia]. now apply tr_raise.
      - injection H as <- <-. exists [], (o_ode s). split; [|cbn; lia]. apply tr_end. intros C.
        apply not_below in C. congruence.
    Qed.
  End Run.

  Theorem solve_traj interval t_start t_end t_step initial old l r last : interval <> 0%Z ->
    trajectory time integrate t_end t_step (start initial t_start) l r last ->
    exists text, (forall fuel, length l < fuel ->
      solve_ode start time values integrate show header fuel true interval t_start t_end t_step initial old
      = Some (do _ <- r; Ok (time last, values last), Some text)) /\
    file_list text (L "times") (map (fun s => shown show (time s)) (every interval l)) /\
    file_list text (L "coverages") (map (fun s => VList (map (shown show) (values s))) (every interval l)).
  Proof.
    intros NZ TR.
    destruct (loop_traj interval t_end t_step NZ _ _ _ _ TR
      {| o_ode := start initial t_start; o_nstep := 0; o_ts := []; o_ys := []; o_counter := 0;
         o_file := Some (header ++ L "times = []" ++ [nl; nl] ++ L "coverages = []" ++ [nl; nl]) |}
      [] [] 0%nat eq_refl eq_refl eq_refl eq_refl log_start) as (s' & RN & EL & Et & Ey & Lg).
    destruct (flush_log (o_file s') _ _ (o_counter s') [] [] Lg) as (text & EF & Lg').
    rewrite !app_nil_r in Lg'. apply log_list in Lg' as (full & E & F1 & F2).
    exists full. split.
    - intros fuel F. unfold solve_ode. rewrite (RN fuel F), Et, Ey, EF, E, EL. reflexivity.
    - change (every_from 1 interval l) with (every interval l) in F1, F2. cbn [app] in F1, F2.
      rewrite map_map in F1, F2. split; assumption.
  Qed.

  Theorem solve_quiet interval t_start t_end t_step initial old l r last : interval <> 0%Z ->
    trajectory time integrate t_end t_step (start initial t_start) l r last ->
    forall fuel, length l < fuel ->
      solve_ode start time values integrate show header fuel false interval t_start t_end t_step initial old
      = Some (do _ <- r; Ok (time last, values last), old).
  Proof.
    intros NZ TR fuel F.
    destruct (loop_quiet interval t_end t_step NZ _ _ _ _ TR
      {| o_ode := start initial t_start; o_nstep := 0; o_ts := []; o_ys := []; o_counter := 0; o_file := old |}
      eq_refl) as (s' & RN & EL & EF).
    unfold solve_ode. rewrite (RN fuel F), EF, EL. reflexivity.
  Qed.

  Theorem solve_back fuel traj interval t_start t_end t_step initial old res : interval <> 0%Z ->
    solve_ode start time values integrate show header fuel traj interval t_start t_end t_step initial old = Some res ->
    exists l r last, trajectory time integrate t_end t_step (start initial t_start) l r last /\ length l < fuel.
  Proof.
    intros NZ H. unfold solve_ode in H.
    destruct (ode_loop _ _ _ _ _ _ _ _ _ _) as [[r s]|] eqn:E; [|discriminate].
    eapply (loop_back _ _ _ _ _ NZ _ [] []) in E; [|intros ->; exact log_start].
    destruct E as (l & last & TR & LN). eauto.
  Qed.

  (** Interval zero. *)
  Theorem solve_zero fuel t_start t_end t_step initial old : (time (start initial t_start) < t_end)%Q ->
    exists text,
      solve_ode start time values integrate show header (Datatypes.S fuel) true 0 t_start t_end t_step initial old
      = Some (Err ZeroDivisionError, Some text) /\
    file_list text (L "times") [] /\ file_list text (L "coverages") [].
  Proof.
    intros LT. destruct (flush_log _ _ _ 0 [] [] log_start) as (text & EF & Lg).
    apply log_list in Lg as (full & E & F1 & F2). exists full. split; [|auto].
    unfold solve_ode. cbn [ode_loop o_ode]. rewrite (proj2 (not_below _ _) LT). unfold ode_step. cbn [Z.eqb].
    cbn [o_counter o_ts o_ys o_file]. rewrite EF, E. reflexivity.
  Qed.

  (** An integrator that does not advance. *)
  Theorem solve_stuck traj interval t_start t_end t_step initial old : interval <> 0%Z ->
    (time (start initial t_start) < t_end)%Q ->
    (forall s t, fst (integrate s t) = Ok tt /\ (time (snd (integrate s t)) <= time s)%Q) ->
    forall fuel, solve_ode start time values integrate show header fuel traj interval t_start t_end t_step initial old = None.
  Proof.
    intros NZ LT ST fuel. destruct (solve_ode _ _ _ _ _ _ _ _ _ _ _ _ _ _) as [res|] eqn:E; [exfalso|reflexivity].
    apply solve_back in E as (l & r & last & TR & _); [|exact NZ].
    induction TR as [s N|s e s1 L2 EI|s s1 l r last L2 EI TR IH].
    - contradiction.
    - destruct (ST s (time s + t_step)%Q) as [A _]. rewrite EI in A. discriminate.
    - apply IH. destruct (ST s (time s + t_step)%Q) as [_ A]. rewrite EI in A. cbn [snd] in A. lra.
  Qed.

  (** An integrator that advances by the step asked for. *)
  Lemma trajectory_steps t_end t_step n : forall s, (0 < t_step)%Q ->
    (forall s t, fst (integrate s t) = Ok tt /\ (time (snd (integrate s t)) == t)%Q) ->
    (forall k, k < n -> (time s + inject_Z (Z.of_nat k) * t_step < t_end)%Q) ->
    (t_end <= time s + inject_Z (Z.of_nat n) * t_step)%Q ->
    exists l last, trajectory time integrate t_end t_step s l (Ok tt) last /\ length l = n /\
      (time last == time s + inject_Z (Z.of_nat n) * t_step)%Q.
  Proof.
    induction n as [|n IH]; intros s TP AD LT GE.
    - exists [], s. change (inject_Z (Z.of_nat 0)) with 0%Q in *. split; [apply tr_end; lra|]. split; [reflexivity|ring].
    - destruct (AD s (time s + t_step)%Q) as [A1 A2]. destruct (integrate s (time s + t_step)%Q) as [r1 s1] eqn:EI.
      cbn [fst snd] in A1, A2. subst r1.
      assert (SH : forall k, (time s1 + inject_Z (Z.of_nat k) * t_step == time s + inject_Z (Z.of_nat (Datatypes.S k)) * t_step)%Q).
      { intros k. rewrite A2, Nat2Z.inj_succ. unfold Z.succ. rewrite inject_Z_plus. change (inject_Z 1) with 1%Q. ring. }
      destruct (IH s1) as (l & last & TR & LN & TL); auto.
      + intros k K. rewrite SH. apply LT. lia.
      + rewrite SH. exact GE.
      + exists (s1 :: l), last. split; [|split].
        * eapply tr_step; eauto. pose proof (LT 0%nat ltac:(lia)) as H. change (inject_Z (Z.of_nat 0)) with 0%Q in H. lra.
        * cbn. now rewrite LN.
        * rewrite TL. apply SH.
  Qed.
End Ode.

Lemma trajectory_end {S} time integrate t_end t_step (s : S) l last :
  trajectory time integrate t_end t_step s l (Ok tt) last ->
  (t_end <= time last)%Q /\ List.last (s :: l) s = last /\ forall x, In x (removelast (s :: l)) -> (time x < t_end)%Q.
Proof.
  remember (Ok tt) as r eqn:ER. intros TR. induction TR as [s N|s e s1 LT EI|s s1 l r last LT EI TR IH]; [| discriminate|].
  - split; [lra|]. split; [reflexivity|]. intros x [].
  - destruct (IH ER) as (A & B & C). split; [exact A|]. split.
    + rewrite <- B. destruct l as [|y l]; [reflexivity|]. cbn. clear. revert y. induction l as [|z l IH]; intros y; [reflexivity|].
      apply IH.
    + intros x I. change (removelast (s :: s1 :: l)) with (s :: removelast (s1 :: l)) in I.
      destruct I as [<-|I]; [exact LT|]. now apply C.
Qed.

Lemma trajectory_unique {S} time integrate t_end t_step (s : S) l r last :
  trajectory time integrate t_end t_step s l r last -> forall l' r' last',
  trajectory time integrate t_end t_step s l' r' last' -> l' = l /\ r' = r /\ last' = last.
Proof.
  induction 1 as [s N|s e s1 LT EI|s s1 l r last LT EI TR IH]; intros l' r' last' TR'; inversion TR'; subst;
    try contradiction; try congruence; auto.
  - rewrite EI in H0. injection H0 as <- <-. auto.
  - rewrite EI in H0. injection H0 as <-. apply IH in H1 as (-> & -> & ->). auto.
Qed.

Lemma every_nth {A} n (l : list A) x : In x (every n l) <->
  exists i, nth_error l i = Some x /\ (Z.of_nat (Datatypes.S i) mod n)%Z = 0%Z.
Proof.
  unfold every. rewrite in_map_iff. split.
  - intros ([k y] & <- & I). cbn [snd]. apply filter_In in I as [I M]. cbn [fst] in M. apply Z.eqb_eq in M.
    apply In_nth_error in I as [i E]. exists i.
    assert (LT : i < length l).
    { assert (i < length (combine (seq 1 (length l)) l)) by (apply nth_error_Some; congruence).
      rewrite combine_length, seq_length in H. lia. }
    destruct (nth_error l i) as [z|] eqn:EZ; [|apply nth_error_None in EZ; lia].
    assert (NE : forall (u : list nat) (v : list A) j a b, nth_error (combine u v) j = Some (a, b) ->
                 nth_error u j = Some a /\ nth_error v j = Some b).
    { induction u as [|a u IH]; intros [|b v] [|j] a' b' H; try discriminate; cbn in H.
      - injection H as -> ->. auto.
      - apply IH in H. auto. }
    apply NE in E as [E1 E2]. rewrite E2 in EZ. injection EZ as ->. split; [reflexivity|].
    rewrite nth_error_nth' with (d := 0%nat) in E1 by (rewrite seq_length; lia).
    rewrite seq_nth in E1 by lia. injection E1 as <-. exact M.
  - intros (i & E & M). exists (Datatypes.S i, x). split; [reflexivity|]. apply filter_In. split.
    + assert (NE : forall (u : list nat) (v : list A) j a b, nth_error u j = Some a -> nth_error v j = Some b ->
                 In (a, b) (combine u v)).
      { induction u as [|a u IH]; intros [|b v] [|j] a' b' H1 H2; try discriminate; cbn in H1, H2.
        - injection H1 as ->. injection H2 as ->. now left.
        - right. eapply IH; eauto. }
      assert (LT : i < length l) by (apply nth_error_Some; congruence).
      apply (NE _ _ i); [|exact E]. rewrite nth_error_nth' with (d := 0%nat) by (rewrite seq_length; lia).
      rewrite seq_nth by lia. reflexivity.
    + cbn [fst]. now apply Z.eqb_eq.
Qed.
