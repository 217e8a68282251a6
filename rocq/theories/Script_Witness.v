(** Concrete runs of the scripts. *)
From Coq Require Import String Ascii List ZArith QArith Bool.
Import ListNotations.
From Verif Require Import PyBase PyBase_Spec Run_Model Script_Model Script_Spec Script_Proofs.
Local Open Scope list_scope.

(** Coverages are lists of fractions; the integration ends at (1/2, 1/4); one second per action. *)
Definition calm : outside (list Q) unit Q := {|
  o_build := fun _ n => if str_eqb n (L "co.mkm") then Ok tt else Err IOError;
  o_parse := fun _ _ => Ok tt;
  o_get_data := fun _ => Ok tt;
  o_ode := fun _ _ e _ => Ok (e, [1 # 2; 1 # 4]);
  o_run_mkm := fun _ _ => Ok tt;
  o_run_kmc := fun _ => Err SetupError;
  o_time := fun h => inject_Z (Z.of_nat (length h));
  o_show := fun q => str_of_Z (Qnum q);
  o_name_of := fun e => match e with IOError => L "IOError" | _ => L "SetupError" end |}.

Definition usual : constants := {|
  OdeInterval := 1 # 1000; OdeEnd := 1; OdeOutput := true; CalcXRC := false; ProductionName := L "CO2_g";
  OdeOnly := false |}.
Definition ode_only : constants := {|
  OdeInterval := 1 # 1000; OdeEnd := 1; OdeOutput := true; CalcXRC := false; ProductionName := L "CO2_g";
  OdeOnly := true |}.

Definition folder : list str :=
  map L ["out.log"; "co.mkm"; "auto_cvgs.py"; "auto_new.mkm"; "ammonia.mkm"; "rel_energy.py"; ".hidden.mkm"]%string.
Definition no_setup : list str := map L ["out.log"; "rel_energy.py"]%string.

Definition names_ok (l : list str) : bool := forallb listable (setups (rm_rf l)).
Lemma names_ok_ordinary l : names_ok l = true -> forall m, remaining l m -> setup_file m -> ordinary m.
Proof.
  intros H m R S. apply listable_iff; [now apply setup_file_nonempty|].
  unfold names_ok in H. rewrite forallb_forall in H. apply H, setups_iff. split; auto. now apply rm_rf_iff.
Qed.
Lemma folder_ordinary m : remaining folder m -> setup_file m -> ordinary m.
Proof. apply names_ok_ordinary. reflexivity. Qed.
Lemma folder_chosen : chosen (remaining folder) (L "co.mkm").
Proof.
  assert (E : forall m, In m (setups (rm_rf folder)) <-> remaining folder m /\ setup_file m)
    by (intro m; now rewrite setups_iff, rm_rf_iff).
  change (setups (rm_rf folder)) with (map L ["co.mkm"; "ammonia.mkm"]%string) in E.
  destruct (proj1 (E (L "co.mkm"))) as (A & B); [cbn; auto|]. split; [exact A|]. split; [exact B|].
  intros m R S. assert (I : In m (map L ["co.mkm"; "ammonia.mkm"]%string)) by now apply E.
    destruct I as [<-|[<-|[]]]; [now left|right]. right.
    exists [], "a"%char, "c"%char, (L "mmonia.mkm"), (L "o.mkm"). repeat split. cbn. repeat constructor.
Qed.
Lemma no_setup_taken : forall m, remaining no_setup m -> ~ setup_file m.
Proof.
  intros m R S. assert (I : In m (setups (rm_rf no_setup))) by (apply setups_iff; split; auto; now apply rm_rf_iff).
  destruct I.
Qed.
Lemma calm_performed : exists h,
  performed calm [Clock] (mkm_plan usual (L "co.mkm") [1 # 2; 1 # 4]) h (Ok tt) /\ length h = 6%nat.
Proof.
  eexists. split; [repeat (apply performed_next; [reflexivity|]); apply performed_all|reflexivity].
Qed.

Lemma ode_only_ignored : exists c, OdeOnly c = true /\
  forall W C G D X (v : solver W C G D X) g w a rest,
    v_len v g = v_nads v -> v_nads v <> 0%nat -> keywords (@mkm_keywords C G X c g) = Ok (a, rest) ->
    solve v a w = v_search v (Some g) None w /\ rest = [L "solve_ode"].
Proof.
  exists ode_only. split; [reflexivity|]. intros W C G D X v g w a rest H N E. split.
  - eapply mkm_search; eauto.
  - rewrite mkm_keywords_read in E. now injection E as _ <-.
Qed.
Lemma missing_setup : exists files,
  (forall m, remaining files m -> ~ setup_file m) /\
  (forall C G X (o : outside C G X) c master, exists out h files',
     mkm_script o c master files =
       Ok (out, Clock :: Build (L "ls: cannot access '*.mkm': No such file or directory") :: h, files')) /\
  (forall C G X (o : outside C G X) master, exists out h files',
     kmc_script o Python2 master files =
       Ok (out, Build (L "ls: cannot access '*.mkm': No such file or directory") :: h, files')).
Proof.
  exists no_setup. split; [exact no_setup_taken|]. split.
  - intros C G X o c master. unfold mkm_script. change (last_setup (rm_rf no_setup)) with (@Ok (Z * str) (0%Z, complaint)).
    cbn [bind]. change (negb (0 =? 0)%Z) with false. cbn iota. unfold mkm_body.
    destruct (o_build o _ _) as [[]|e]; [|destruct master; do 3 eexists; reflexivity].
    destruct (o_parse o _ _) as [[]|e]; [|destruct master; do 3 eexists; reflexivity].
    destruct (o_get_data o _) as [[]|e]; [|destruct master; do 3 eexists; reflexivity].
    destruct (o_ode o _ _ _ _) as [(x & g)|e]; [|destruct master; do 3 eexists; reflexivity].
    destruct (o_run_mkm o _ _) as [[]|e]; destruct master; do 3 eexists; reflexivity.
  - intros C G X o master. unfold kmc_script. change (last_setup (rm_rm no_setup)) with (@Ok (Z * str) (0%Z, complaint)).
    cbn [bind]. change (negb (0 =? 0)%Z) with false. cbn iota. cbv zeta.
    destruct (o_build o _ _) as [[]|e]; [|do 3 eexists; reflexivity].
    destruct (o_parse o _ _) as [[]|e]; [|do 3 eexists; reflexivity].
    destruct (o_run_kmc o _) as [[]|e]; destruct master; do 3 eexists; reflexivity.
Qed.
Lemma kmc_files C G X (o : outside C G X) py master files out h files' :
  kmc_script o py master files = Ok (out, h, files') -> files' = files.
Proof.
  destruct py; cbn; [|now intros [= <- <- <-]]. unfold rm_rm. destruct (last_setup files) as [(s & n)|e]; [|discriminate].
  cbn [bind]. destruct (negb (s =? 0)%Z); [now intros [= <- <- <-]|].
  destruct (o_build o _ _) as [[]|e]; [|now intros [= <- <- <-]].
  destruct (o_parse o _ _) as [[]|e]; [|now intros [= <- <- <-]].
  destruct (o_run_kmc o _) as [[]|e]; [destruct master|]; now intros [= <- <- <-].
Qed.
Lemma old_log_stays : exists files,
  In (L "out.log") files /\
  forall C G X (o : outside C G X) py master out h files',
    kmc_script o py master files = Ok (out, h, files') -> In (L "out.log") files'.
Proof.
  exists folder. split; [now left|]. intros C G X o py master out h files' E. apply kmc_files in E. subst. now left.
Qed.
Lemma mkm_files C G X (o : outside C G X) c master files out h files' :
  mkm_script o c master files = Ok (out, h, files') -> files' = rm_rf files.
Proof.
  unfold mkm_script. destruct (last_setup (rm_rf files)) as [(s & n)|e]; [|discriminate].
  cbn [bind]. destruct (negb (s =? 0)%Z); [now intros [= <- <- <-]|].
  destruct (mkm_body _ _ _ _) as ([[]|e] & k); now intros [= <- <- <-].
Qed.
Lemma setup_removed : exists files n,
  In n files /\ setup_file n /\
  forall C G X (o : outside C G X) c master out h files',
    mkm_script o c master files = Ok (out, h, files') -> ~ In n files'.
Proof.
  exists folder, (L "auto_new.mkm"). split; [cbn; tauto|]. split.
  - split; [exists (L "auto_new"); reflexivity|discriminate].
  - intros C G X o c master out h files' E I. apply mkm_files in E. subst.
    apply rm_rf_iff in I. destruct I as (_ & _ & N). exact (N (L "new.mkm") eq_refl).
Qed.
Lemma kmc_python3 C G X (o : outside C G X) master files :
  kmc_script o Python3 master files = Ok (NoModule (L "commands"), [], files).
Proof. reflexivity. Qed.
