(** C95: the run scripts. *)
From Coq Require Import String Ascii List ZArith QArith Bool.
Import ListNotations.
From Verif Require Import PyBase PyBase_Spec Run_Model Script_Model Script_Spec Script_Proofs Script_Witness.
Local Open Scope list_scope.

(** mkm_run/run.py: the outputs of earlier runs are gone, every other file stays.  The model is
    built from the last setup file in the order of the names; then come the data, the integration
    and the run from the end point of the integration, each once and in this order up to the first
    that raises; that exception ends the script.  The master alone tells of it, or of the time
    used.  Without a setup file the model is built from the complaint of the shell. *)
Theorem C95_mkm_partial : forall C G X (o : outside C G X) c master files n g h r,
  (forall m, remaining files m -> setup_file m -> ordinary m) ->
  taken (remaining files) n ->
  (forall x g', o_ode o [Clock; Build n; ParseData None; GetData] (OdeInterval c) (OdeEnd c) (OdeOutput c)
     = Ok (x, g') -> g' = g) ->
  performed o [Clock] (mkm_plan c n g) h r ->
  exists said files',
    mkm_script o c master files = Ok (ending r, h ++ said, files') /\
    (forall m, In m files' <-> remaining files m) /\
    match r with
    | Ok _ => exists text,
        said = Clock :: (if master then [Say (L "INFO") text] else []) /\
        ((o_time o [] <= o_time o h)%Q -> reports o (o_time o h - o_time o []) text)
    | Err e => said = if master then [Say (L "ERROR") (o_name_of o e ++ L " exception is catched.")] else []
    end.
Proof. exact @mkm_script_ok. Qed.
Print Assumptions C95_mkm_partial.

(** The way of the actions is determined, so that the theorem above says all. *)
Theorem C95_determined : forall C G X (o : outside C G X) h p h1 r1 h2 r2,
  performed o h p h1 r1 -> performed o h p h2 r2 -> h1 = h2 /\ r1 = r2.
Proof. exact @performed_det. Qed.
Print Assumptions C95_determined.

(** kmc_run/run.py under Python 2: every file stays, the model is built from the last setup file,
    the data is read from rel_energy.py, then the simulation is run.  Exceptions of the first two
    are not reported. *)
Theorem C95_kmc_partial : forall C G X (o : outside C G X) (master : bool) files n h r,
  (forall m, In m files -> setup_file m -> ordinary m) ->
  taken (fun m => In m files) n ->
  performed o [] [Build n; ParseData (Some (L "rel_energy.py"))] h r ->
  match r with
  | Err e => kmc_script o Python2 master files = Ok (Raised e, h, files)
  | Ok _ =>
      let h1 := if master then h ++ [Clock] else h in
      exists said,
        kmc_script o Python2 master files = Ok (ending (o_run_kmc o h1), h1 ++ RunKmc :: said, files) /\
        match o_run_kmc o h1 with
        | Err e => said = if master then [Say (L "ERROR") (o_name_of o e ++ L " exception is catched.")] else []
        | Ok _ =>
            if master then
              exists text, said = [Clock; Say (L "INFO") text] /\
                ((o_time o h <= o_time o (h1 ++ [RunKmc]))%Q ->
                 reports o (o_time o (h1 ++ [RunKmc]) - o_time o h) text)
            else said = []
        end
  end.
Proof. exact @kmc_script_ok. Qed.
Print Assumptions C95_kmc_partial.

(** The keywords of [run]: each has its own default, the others are left over. *)
Theorem C95_keywords : forall C G X (kw : dict (kwval C G X)) a rest,
  NoDup (map fst kw) ->
  (keywords kw = Ok (a, rest) <->
   keyword kw (L "init_cvgs") KGuess NoGuess (a_init a) /\
   keyword kw (L "relative_energies") KEnergies None (a_energies a) /\
   keyword kw (L "fsolve") KBool false (a_fsolve a) /\
   keyword kw (L "coarse_guess") KBool true (a_coarse a) /\
   keyword kw (L "XRC") KBool false (a_xrc a) /\
   ((exists x, In (L "epsilon", KNumber x) kw /\ a_epsilon a = Some x) \/
    (~ In (L "epsilon") (map fst kw) /\ a_epsilon a = None)) /\
   ((exists s, In (L "product_name", KText s) kw /\ a_product a = Some s) \/
    (~ In (L "product_name") (map fst kw) /\ a_product a = None)) /\
   rest = filter (fun n => negb (str_mem n known_keywords)) (map fst kw)).
Proof. exact @keywords_iff. Qed.
Print Assumptions C95_keywords.

(** The search for the steady state starts at the end point of the integration, without a coarse
    guess, for every value of the constants ... *)
Theorem C95_search : forall W C G D X (v : solver W C G D X) c g w a rest,
  v_len v g = v_nads v -> v_nads v <> 0%nat -> keywords (@mkm_keywords C G X c g) = Ok (a, rest) ->
  solve v a w = v_search v (Some g) None w.
Proof. exact @mkm_search. Qed.
Print Assumptions C95_search.

(** ... so "Do ODE integration only" is not obeyed. *)
Theorem C95_ode_only_refuted : exists c, OdeOnly c = true /\
  forall W C G D X (v : solver W C G D X) g w a rest,
    v_len v g = v_nads v -> v_nads v <> 0%nat -> keywords (@mkm_keywords C G X c g) = Ok (a, rest) ->
    solve v a w = v_search v (Some g) None w /\ rest = [L "solve_ode"].
Proof. exact ode_only_ignored. Qed.
Print Assumptions C95_ode_only_refuted.

(** The check for a missing setup file never fires ... *)
Theorem C95_never_exits : forall C G X (o : outside C G X) c master files out h files' s,
  mkm_script o c master files = Ok (out, h, files') -> out <> Exited s.
Proof. exact @mkm_exit. Qed.
Print Assumptions C95_never_exits.

(** ... and the complaint of the shell is taken for a file name. *)
Theorem C95_missing_setup_refuted : exists files,
  (forall m, remaining files m -> ~ setup_file m) /\
  (forall C G X (o : outside C G X) c master, exists out h files',
     mkm_script o c master files =
       Ok (out, Clock :: Build (L "ls: cannot access '*.mkm': No such file or directory") :: h, files')) /\
  (forall C G X (o : outside C G X) master, exists out h files',
     kmc_script o Python2 master files =
       Ok (out, Build (L "ls: cannot access '*.mkm': No such file or directory") :: h, files')).
Proof. exact missing_setup. Qed.
Print Assumptions C95_missing_setup_refuted.

(** "Remove old log file" removes nothing. *)
Theorem C95_old_log_refuted : exists files,
  In (L "out.log") files /\
  forall C G X (o : outside C G X) py master out h files',
    kmc_script o py master files = Ok (out, h, files') -> In (L "out.log") files'.
Proof. exact old_log_stays. Qed.
Print Assumptions C95_old_log_refuted.

(** A setup file may itself be taken for an old output and removed. *)
Theorem C95_setup_removed_refuted : exists files n,
  In n files /\ setup_file n /\
  forall C G X (o : outside C G X) c master out h files',
    mkm_script o c master files = Ok (out, h, files') -> ~ In n files'.
Proof. exact setup_removed. Qed.
Print Assumptions C95_setup_removed_refuted.

(** kmc_run/run.py does not start under Python 3, which the package supports. *)
Theorem C95_python3_refuted : forall C G X (o : outside C G X) master files,
  kmc_script o Python3 master files = Ok (NoModule (L "commands"), [], files).
Proof. exact @kmc_python3. Qed.
Print Assumptions C95_python3_refuted.

(** ** The theorems at work *)
Example C95_example_mkm : exists h text files',
  mkm_script calm usual true folder = Ok (Finished, h ++ [Clock; Say (L "INFO") text], files') /\
  In (Build (L "co.mkm")) h /\ In (RunMkm (mkm_keywords usual [1 # 2; 1 # 4]%Q)) h /\
  reports calm 6 text /\ (forall m, In m files' <-> remaining folder m).
Proof.
  destruct calm_performed as (h & P & Len).
  destruct (C95_mkm_partial _ _ _ calm usual true folder (L "co.mkm") [1 # 2; 1 # 4]%Q h (Ok tt)) as (said & f & E & F & text & -> & T).
  - exact folder_ordinary.
  - left. exact folder_chosen.
  - intros x g' H. now injection H as _ <-.
  - exact P.
  - exists h, text, f. split; [exact E|]. inversion P; subst. clear P.
    repeat match goal with K : performed _ _ _ _ _ |- _ => inversion K; subst; clear K end.
    split; [cbn; tauto|]. split; [cbn; tauto|]. split; [|exact F]. apply T. discriminate.
Qed.
Example C95_example_raises :
  exists files', mkm_script calm usual true no_setup =
    Ok (Raised IOError, [Clock; Build (L "ls: cannot access '*.mkm': No such file or directory");
                         Say (L "ERROR") (L "IOError exception is catched.")], files').
Proof.
  destruct (C95_mkm_partial _ _ _ calm usual true no_setup complaint [1 # 2; 1 # 4]%Q
    [Clock; Build complaint] (Err IOError)) as (said & f & E & _ & ->).
  - intros m R S. destruct (no_setup_taken m R S).
  - right. split; [exact no_setup_taken|reflexivity].
  - intros x g' H. now injection H as _ <-.
  - apply (performed_raise _ [Clock]). reflexivity.
  - exists f. exact E.
Qed.
Example C95_example_kmc : exists h,
  kmc_script calm Python2 true folder = Ok (Raised SetupError, h, folder) /\ In RunKmc h.
Proof.
  eexists. split; [reflexivity|]. cbn. tauto.
Qed.
Example C95_example_keywords :
  keywords (C := list Q) (G := unit) (X := Q) [(L "XRC", KBool true); (L "epsilon", KNumber (1 # 10)); (L "verbose", KBool true)] =
    Ok ({| a_init := NoGuess; a_energies := None; a_fsolve := false; a_coarse := true; a_xrc := true;
           a_epsilon := Some (1 # 10)%Q; a_product := None |}, [L "verbose"]).
Proof. reflexivity. Qed.
