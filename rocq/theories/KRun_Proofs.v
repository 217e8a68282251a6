From Coq Require Import String Ascii List ZArith Bool Arith Lia.
Import ListNotations.
From Verif Require Import PyBase PyBaseFacts PyData_Model Kmc_Model KIn_Model KIn_Proofs KRun_Model KRun_Spec.
Local Open Scope list_scope.
Local Open Scope nat_scope.

Section Control.
  Context {V : Type}.
  Variable truth : V -> bool.

  Ltac pick := first [left; reflexivity | right; pick].

  Lemma control_iff (a : str -> V) k v :
    In (k, v) (control_params truth a) <->
    exists attribute, v = a attribute /\
      (always_passed k attribute \/
       (truth (a (L "do_redistribution")) = true /\ passed_if_redistributed k attribute)).
  Proof.
    assert (forall b : bool,
      In (k, v) ([ (L "time_limit", a (L "time_limit"));
                  (L "number_of_steps", a (L "nstep"));
                  (L "dump_interval", a (L "trajectory_dump_interval"));
                  (L "seed", a (L "random_seed"));
                  (L "rng_type", a (L "random_generator"));
                  (L "analysis_interval", a (L "analysis_interval"));
                  (L "start_time", a (L "start_time"));
                  (L "extra_traj", a (L "extra_trajectories"));
                  (L "do_redistribution", a (L "do_redistribution")) ]) <->
      exists attribute, v = a attribute /\ always_passed k attribute) as Hb.
    { intros _. split.
      - intro H.
        repeat (destruct H as [H|H];
          [injection H as <- <-; eexists; split; [reflexivity|];
           first [apply ap_steps|apply ap_dump|apply ap_seed|apply ap_rng|apply ap_extra
                 |apply ap_same; pick]|]).
        contradiction.
      - intros (at_ & -> & H). destruct H as [k H| | | | |]; try pick.
        repeat (destruct H as [<-|H]; [pick|]). contradiction. }
    assert (In (k, v) [ (L "redistribution_interval", a (L "redistribution_interval"));
                   (L "fast_species", a (L "fast_species"));
                   (L "nsplits", a (L "nsplits"));
                   (L "distributor_type", a (L "distributor_type"));
                   (L "empty_element", a (L "empty_type")) ] <->
      exists attribute, v = a attribute /\ passed_if_redistributed k attribute) as Hr.
    { split.
      - intro H.
        repeat (destruct H as [H|H];
          [injection H as <- <-; eexists; split; [reflexivity|];
           first [apply pr_empty|apply pr_same; pick]|]).
        contradiction.
      - intros (at_ & -> & H). destruct H as [k H|]; try pick.
        repeat (destruct H as [<-|H]; [pick|]). contradiction. }
    specialize (Hb true).
    unfold control_params. cbv zeta. destruct (truth (a (L "do_redistribution"))) eqn:Et.
    - rewrite in_app_iff, Hb, Hr. split.
      + intros [(x&->&H)|(x&->&H)]; exists x; auto.
      + intros (x&->&[H|[_ H]]); [left|right]; eauto.
    - rewrite Hb. split; intros (x&->&H); exists x; split; auto. destruct H as [H|[H _]]; [auto|discriminate].
  Qed.

  Lemma control_NoDup (a : str -> V) : NoDup (map fst (control_params truth a)).
  Proof.
    unfold control_params. cbv zeta. destruct (truth _); cbn [map fst app];
    repeat (constructor; [cbn [In]; intuition discriminate|]); constructor.
  Qed.

  Lemma control_relevant (a b : str -> V) :
    (forall n, relevant n -> a n = b n) -> control_params truth a = control_params truth b.
  Proof.
    intro H. unfold control_params.
    assert (forall n, relevant n -> a n = b n) as H' by exact H.
    rewrite (H (L "do_redistribution")) by (eexists; left; apply ap_same; pick).
    rewrite (H (L "time_limit")) by (eexists; left; apply ap_same; pick).
    rewrite (H (L "analysis_interval")) by (eexists; left; apply ap_same; pick).
    rewrite (H (L "start_time")) by (eexists; left; apply ap_same; pick).
    rewrite (H (L "nstep")) by (eexists; left; apply ap_steps).
    rewrite (H (L "trajectory_dump_interval")) by (eexists; left; apply ap_dump).
    rewrite (H (L "random_seed")) by (eexists; left; apply ap_seed).
    rewrite (H (L "random_generator")) by (eexists; left; apply ap_rng).
    rewrite (H (L "extra_trajectories")) by (eexists; left; apply ap_extra).
    rewrite (H (L "redistribution_interval")) by (eexists; right; apply pr_same; pick).
    rewrite (H (L "fast_species")) by (eexists; right; apply pr_same; pick).
    rewrite (H (L "nsplits")) by (eexists; right; apply pr_same; pick).
    rewrite (H (L "distributor_type")) by (eexists; right; apply pr_same; pick).
    rewrite (H (L "empty_type")) by (eexists; right; apply pr_empty).
    reflexivity.
  Qed.

  Lemma time_seed_irrelevant : ~ relevant (L "time_seed").
  Proof.
    intros (k & [H|H]).
    - inversion H as [k' Hk| | | | |]; subst.
      repeat (destruct Hk as [Hk|Hk]; [discriminate Hk|]); contradiction.
    - inversion H as [k' Hk|]; subst.
      repeat (destruct Hk as [Hk|Hk]; [discriminate Hk|]); contradiction.
  Qed.
End Control.

Section Run.
  Context {K E V Cf Sm An Int Lm Cp : Type}.
  Notation state := (state K E Cf Sm An Lm Cp).
  Notation setting := (setting K V Cf Sm An Int Lm Cp).

  Lemma analysis_iff (x : setting) ps mp an : get_analysis x ps mp = Ok an <-> analyses x ps mp an.
  Proof.
    unfold get_analysis. destruct (x_analysis x) as [|n ns] eqn:En.
    - split; [intros [= <-]; now constructor|]. inversion 1; congruence.
    - split.
      + intro H. destruct (mapM _ (n :: ns)) as [l|e] eqn:Em; [|discriminate]. cbn [bind] in H.
        injection H as <-. apply an_some; [congruence|]. rewrite En. now apply mapM_ok_iff.
      + inversion 1 as [?|l Hn HF]; [congruence|]. rewrite En in HF. apply mapM_ok_iff in HF.
        now rewrite HF.
  Qed.

  Lemma mapM_err_iff {A B} (f : A -> res B) l e :
    mapM f l = Err e <->
    exists a x b ys, l = a ++ x :: b /\ Forall2 (fun u v => f u = Ok v) a ys /\ f x = Err e.
  Proof.
    split.
    - induction l as [|x t IH]; cbn; [discriminate|].
      destruct (f x) as [y|e'] eqn:Ex; cbn [bind].
      + destruct (mapM f t) as [ys|e'] eqn:Et; cbn [bind]; [discriminate|]. intros [= ->].
        destruct (IH eq_refl) as (a&x'&b&zs&->&HF&Hx). exists (x :: a), x', b, (y :: zs).
        split; [reflexivity|]. split; [now constructor|auto].
      + intros [= ->]. exists [], x, t, []. auto.
    - intros (a&x&b&ys&->&HF&Hx). rewrite mapM_app. apply mapM_ok_iff in HF. rewrite HF. cbn.
      now rewrite Hx.
  Qed.

  Lemma analysis_err (x : setting) ps mp e : get_analysis x ps mp = Err e <-> analyses_fail x ps mp e.
  Proof.
    unfold get_analysis. destruct (x_analysis x) as [|n ns] eqn:En.
    - split; [discriminate|]. intro H. destruct H as [a m b l e Ha _ _]. rewrite En in Ha. now destruct a.
    - split.
      + intro H. destruct (mapM _ (n :: ns)) as [l|e'] eqn:Em; [discriminate|]. cbn [bind] in H.
        injection H as ->. apply mapM_err_iff in Em. destruct Em as (a&m&b&ys&Ha&HF&Hm).
        refine (af x ps mp a m b ys e _ HF Hm). now rewrite En.
      + intro H. destruct H as [a m b l e Ha HF Hm].
        assert (mapM (fun n0 => x_make_analysis x n0 ps mp) (n :: ns) = Err e) as ->; [|reflexivity].
        apply mapM_err_iff. exists a, m, b, l. split; [now rewrite <- En|auto].
  Qed.

  Lemma preparation_iff (x : setting) m ps mp r :
    (do an <- get_analysis x ps mp;
     do i <- x_interactions x ps;
     do c <- the_configuration (E := E) m;
     do s <- the_sitesmap m;
     do lm <- x_lattice_model x c s i;
     Ok (an, lm)) = r
    <-> preparation x (the_configuration m) (the_sitesmap m) ps mp r.
  Proof.
    split.
    - intros <-. destruct (get_analysis x ps mp) as [an|e] eqn:Ea; cbn [bind].
      2: { apply pr_analysis. now apply analysis_err. }
      apply analysis_iff in Ea.
      destruct (x_interactions x ps) as [i|e] eqn:Ei; cbn [bind]; [|eapply pr_interactions; eauto].
      destruct (the_configuration m) as [c|e] eqn:Ec; cbn [bind]; [|eapply pr_configuration; eauto].
      destruct (the_sitesmap m) as [s|e] eqn:Es; cbn [bind]; [|eapply pr_sites; eauto].
      destruct (x_lattice_model x c s i) as [lm|e] eqn:El; cbn [bind]; [|eapply pr_lattice; eauto].
      eapply pr_ready; eauto.
    - destruct 1 as [e H|an e H H1|an i e H H1 H2|an i c' e H H1 H2 H3|an i c' s' e H H1 H2 H3 H4
                    |an i c' s' lm H H1 H2 H3 H4];
      try (apply analysis_iff in H; rewrite H; cbn [bind]; rewrite H1; cbn [bind]; try rewrite H2; cbn [bind];
           try rewrite H3; cbn [bind]; try rewrite H4; reflexivity).
      apply analysis_err in H. now rewrite H.
  Qed.

  Definition put (st : state) (s : solver K) : state :=
    {| s_model := s_model st; s_solver := s; s_processes := s_processes st;
       s_mapping := s_mapping st; s_files := s_files st; s_calls := s_calls st |}.

  Lemma put_same st : put st (s_solver st) = st.
  Proof. now destruct st. Qed.

  Lemma gives_ok (x : setting) (st : state) r sv : gives x st r sv -> solver_processes x st = (r, put st sv).
  Proof.
    unfold solver_processes.
    destruct 1 as [ps H|e H H1|ds ps mp H H1 H2|ds e mp H H1 H2]; rewrite H; rewrite ?put_same; auto;
      rewrite H1; auto; unfold processes; rewrite H, H2; reflexivity.
  Qed.

  (** A model whose attribute was stored by [parse_data]. *)
  Definition well_kinded (st : state) : Prop :=
    forall a, process_dicts (s_model st) = Ok a -> exists ds, a = AProcesses ds.

  Lemma gives_total (x : setting) (st : state) : well_kinded st -> exists r sv, gives x st r sv.
  Proof.
    intro W. destruct (cached (s_solver st)) as [ps|] eqn:Ec.
    - exists (Ok ps), (s_solver st). now constructor.
    - destruct (process_dicts (s_model st)) as [a|e] eqn:Ep.
      + destruct (W a Ep) as (ds&->).
        destruct (get_processes (x_owner x) (process_mapping (s_solver st)) ds) as [[ps|e] mp] eqn:Eg.
        * eexists; eexists. eapply gi_generated; eauto.
        * eexists; eexists. eapply gi_failed; eauto.
      + eexists; eexists. eapply gi_no_input; eauto.
  Qed.

  Lemma run_no_processes (x : setting) scr ty (st : state) e sv : gives x st (Err e) sv ->
    exists st', run x scr ty st = (st', Err e) /\
      after st st' sv (s_processes st) (s_mapping st) (s_files st) (s_calls st).
  Proof.
    intro H. apply gives_ok in H. unfold run. rewrite H. eexists. split; [reflexivity|].
    unfold after. cbn. auto 10.
  Qed.

  Lemma same_class (x : setting) : x_class x = L "KMCModel" ->
    str_eqb (mangled_name (x_class x) (L "solver")) (mangled_name (L "KMCModel") (L "solver")) = true.
  Proof. intros ->. apply str_eqb_refl. Qed.
  Lemma other_class (x : setting) : x_class x <> L "KMCModel" ->
    str_eqb (mangled_name (x_class x) (L "solver")) (mangled_name (L "KMCModel") (L "solver")) = false.
  Proof. intro H. apply str_eqb_neq. intro Hm. exact (H (mangle_inj _ _ _ _ Hm eq_refl)). Qed.

  Lemma run_derived (x : setting) scr ty (st : state) ps sv : gives x st (Ok ps) sv -> x_class x <> L "KMCModel" ->
    exists st', run x scr ty st = (st', Err AttributeError) /\
      after st st' sv (Some ps) (Some (process_mapping sv)) (s_files st) (s_calls st).
  Proof.
    intros H Hc. apply gives_ok in H. unfold run. rewrite H, other_class by auto.
    eexists. split; [reflexivity|]. unfold after. cbn. auto 10.
  Qed.

  Lemma run_prepare_fail (x : setting) scr ty (st : state) ps sv e :
    gives x st (Ok ps) sv -> x_class x = L "KMCModel" ->
    preparation x (the_configuration (s_model st)) (the_sitesmap (s_model st)) ps (process_mapping sv) (Err e) ->
    exists st', run x scr ty st = (st', Err e) /\
      after st st' sv (Some ps) (Some (process_mapping sv)) (s_files st) (s_calls st).
  Proof.
    intros H Hc Hp. apply gives_ok in H. unfold run. rewrite H, same_class by auto.
    apply preparation_iff in Hp. unfold solver_run.
    cbn [s_model put s_solver]. rewrite Hp.
    eexists. split; [reflexivity|]. unfold after. cbn. auto 10.
  Qed.

  Lemma scripted_ok (x : setting) scr lm fs :
    scripted x scr lm fs (if (scr && x_log x)%bool
                  then snd (script (x_header x) (x_lattice_script x lm) (Some (L "kmc_model.py")) fs)
                  else fs).
  Proof.
    intro n. destruct (scr && x_log x)%bool; cbn [andb]; [|reflexivity].
    unfold script. cbn [L list_ascii_of_string snd]. rewrite dget_dset. reflexivity.
  Qed.

  Lemma run_params_fail (x : setting) scr ty (st : state) ps sv an lm e :
    gives x st (Ok ps) sv -> x_class x = L "KMCModel" ->
    preparation x (the_configuration (s_model st)) (the_sitesmap (s_model st)) ps (process_mapping sv) (Ok (an, lm)) ->
    x_control x (control_params (x_truth x) (x_attr x)) = Err e ->
    exists st' fs, run x scr ty st = (st', Err e) /\ scripted x scr lm (s_files st) fs /\
      after st st' sv (Some ps) (Some (process_mapping sv)) fs (s_calls st).
  Proof.
    intros H Hc Hp Hx. apply gives_ok in H. unfold run. rewrite H, same_class by auto.
    apply preparation_iff in Hp. unfold solver_run.
    cbn [s_model put s_solver]. rewrite Hp, Hx.
    eexists. eexists. split; [reflexivity|]. split; [apply scripted_ok|]. unfold after. cbn. auto 10.
  Qed.

  Lemma run_started (x : setting) scr ty (st : state) ps sv an lm cp :
    gives x st (Ok ps) sv -> x_class x = L "KMCModel" ->
    preparation x (the_configuration (s_model st)) (the_sitesmap (s_model st)) ps (process_mapping sv) (Ok (an, lm)) ->
    x_control x (control_params (x_truth x) (x_attr x)) = Ok cp ->
    let c := {| c_model := lm; c_params := cp; c_file := L "auto_" ++ ty ++ L "_trajectory.py";
                c_type := ty; c_analysis := an |} in
    exists st' fs, run x scr ty st = (st', x_run x c) /\ scripted x scr lm (s_files st) fs /\
      after st st' sv (Some ps) (Some (process_mapping sv)) fs (s_calls st ++ [c]).
  Proof.
    intros H Hc Hp Hx. apply gives_ok in H. unfold run. rewrite H, same_class by auto.
    apply preparation_iff in Hp. unfold solver_run.
    cbn [s_model put s_solver]. rewrite Hp, Hx.
    eexists. eexists. split; [reflexivity|]. split; [apply scripted_ok|]. unfold after. cbn. auto 10.
  Qed.

  Lemma run_keeps (x : setting) scr ty (st : state) ps :
    cached (s_solver st) = Some ps -> s_solver (fst (run x scr ty st)) = s_solver st /\
      s_processes (fst (run x scr ty st)) = Some ps.
  Proof.
    intro H. unfold run, solver_processes. rewrite H.
    destruct (str_eqb _ _); [|cbn; auto]. unfold solver_run.
    destruct (do an <- _; _) as [[an lm]|e]; [|cbn; auto].
    destruct (x_control x _); cbn; auto.
  Qed.
End Run.
