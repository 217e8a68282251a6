(** Properties C40-C42, C57: the files of the analysis plugins.  Vocabulary: KPlug_Spec.v.
    [show] is Python's text of a float; all that is used of it is that the text is a number. *)
From Coq Require Import String Ascii List ZArith NArith Bool Arith QArith Lia Lqa.
Import ListNotations.
From Verif Require Import PyBase PyBaseFacts PyData_Model PyData_Spec Fmt_Model Fmt_Proofs KCov_Model
  KPlug_Model KPlug_Spec KPlug_Text KPlug_Tof KPlug_Freq KPlug_Cov KPlug_CovRun KPlug_Event.
Local Open Scope list_scope.
Local Open Scope nat_scope.

(** An event, for the examples. *)
Definition at_step (step : Z) (time : Q) (types : list str) (picked : nat) : event :=
  {| e_step := step; e_time := time; e_types := types; e_picked := picked;
     e_sites := [2; 1]%Z; e_rates := [1; 2]%Q |}.
Definition show_int (q : Q) : str := str_of_Z (Qnum (Qred q)).

(** The coverages file.  For every buffer size, every state at the start and every list of
    steps: without the text of the possible types, executing the file yields all times, steps
    and coverages (one list for each type) in order - if something is left in the buffer at the
    end of the run.  Missing from the claim: the two exceptions, see below. *)
Theorem C40_recorded_partial : forall show version date possible_types empty ratios buffer_size e0 es rows,
  (forall q, number_text (show q) = true) -> ~ In nl version -> ~ In nl date ->
  Forall type_name possible_types ->
  mapM (fun e => step_coverages possible_types empty ratios (e_types e)) (e0 :: es) = Ok rows ->
  exists s pre types_text post,
    cov_run show true (file_header version date) possible_types empty ratios buffer_size e0 es = Ok s /\
    cv_file s = Some (pre ++ types_text ++ post) /\
    get_list_string (L "possible_types") (map (fun t => VStr (quoted t)) possible_types) 5 = Ok types_text /\
    (leftover buffer_size (length es) ->
      file_list (pre ++ post) (L "times") (map (fun e => shown show (e_time e)) (e0 :: es)) /\
      file_list (pre ++ post) (L "steps") (map (fun e => VInt (e_step e)) (e0 :: es)) /\
      file_list (pre ++ post) (L "coverages")
        (map (fun j => VList (map (fun row => shown show (nth j row 0%Q)) rows)) (seq 0 (length possible_types)))) /\
    (~ leftover buffer_size (length es) -> exec_file (pre ++ post) = Err IndexError) /\
    exec_file (pre ++ types_text ++ post) = Err SyntaxError.
Proof. exact cov_run_ok. Qed.
Print Assumptions C40_recorded_partial.

(** The file as it is can never be executed: the types are written in quotes within quotes. *)
Theorem C40_types_refuted : forall show version date possible_types empty ratios buffer_size e0 es rows,
  (forall q, number_text (show q) = true) -> ~ In nl version -> ~ In nl date ->
  Forall type_name possible_types ->
  mapM (fun e => step_coverages possible_types empty ratios (e_types e)) (e0 :: es) = Ok rows ->
  exists s file,
    cov_run show true (file_header version date) possible_types empty ratios buffer_size e0 es = Ok s /\
    cv_file s = Some file /\ exec_file file = Err SyntaxError.
Proof.
  intros show version date pt empty ratios B e0 es rows H1 H2 H3 H4 H5.
  destruct (cov_run_ok show version date pt empty ratios B e0 es rows H1 H2 H3 H4 H5) as (s & pre & tt & post & E & F & _ & _ & _ & X).
  eauto.
Qed.
Print Assumptions C40_types_refuted.

(** Even without the types: a run whose last step empties the buffer leaves a file that cannot
    be executed; e.g. five steps with a buffer of two. *)
Theorem C40_empty_flush_refuted :
  (forall buffer_size n, (1 < buffer_size)%Z -> n <> 0 ->
     (leftover buffer_size n <-> ~ (buffer_size | Z.of_nat (1 + n))%Z)) /\
  (forall buffer_size n, (buffer_size <= 1)%Z -> (leftover buffer_size n <-> n = 0)) /\
  exists s pre types_text post,
    cov_run show_int true (file_header (L "1.0") (L "today")) [L "CO"; L "V"] (L "V") [1%Q] 2
      (at_step 0 0 [L "CO"; L "V"] 0)
      (map (fun i => at_step (Z.of_nat i) (inject_Z (Z.of_nat i)) [L "CO"; L "V"] 0) (seq 1 5)) = Ok s /\
    cv_file s = Some (pre ++ types_text ++ post) /\
    get_list_string (L "possible_types") (map (fun t => VStr (quoted t)) [L "CO"; L "V"]) 5 = Ok types_text /\
    exec_file (pre ++ post) = Err IndexError.
Proof.
  split; [|split].
  - intros B n HB Hn. unfold leftover. rewrite <- Z.mod_divide by lia. intuition lia.
  - intros B n HB. unfold leftover. intuition lia.
  - destruct (cov_run_ok show_int (L "1.0") (L "today") [L "CO"; L "V"] (L "V") [1%Q] 2
      (at_step 0 0 [L "CO"; L "V"] 0)
      (map (fun i => at_step (Z.of_nat i) (inject_Z (Z.of_nat i)) [L "CO"; L "V"] 0) (seq 1 5))
      (repeat [(1#2)%Q; (1#2)%Q] 6)) as (s & pre & tt & post & E & F & G & _ & X & _).
    + intro q. apply int_number.
    + vm_compute. intuition discriminate.
    + vm_compute. intuition discriminate.
    + repeat constructor.
    + vm_compute. reflexivity.
    + exists s, pre, tt, post. repeat (split; [assumption|]). apply X. intros [K|[_ K]]; [discriminate|]. apply K. reflexivity.
Qed.
Print Assumptions C40_empty_flush_refuted.

(** Only the master process writes. *)
Theorem C40_other_ranks : forall show header possible_types empty ratios buffer_size e0 es s,
  cov_run show false header possible_types empty ratios buffer_size e0 es = Ok s -> cv_file s = None.
Proof. exact cov_other_rank. Qed.
Print Assumptions C40_other_ranks.

(** Whatever was in the files of a plugin before, [setup] of the master process starts them anew. *)
Theorem C40_new_files : forall header table mapping pt empty ratios,
  (forall a b c n f f' e, cov_setup true header pt empty ratios
     {| cv_times := a; cv_steps := b; cv_coverages := c; cv_counter := n; cv_file := f |} e =
   cov_setup true header pt empty ratios
     {| cv_times := a; cv_steps := b; cv_coverages := c; cv_counter := n; cv_file := f' |} e) /\
  (forall a b c d n f f', tof_setup header mapping
     {| tf_times := a; tf_tofs := b; tf_occurencies := c; tf_start := d; tf_counter := n; tf_file := f |} =
   tof_setup header mapping
     {| tf_times := a; tf_tofs := b; tf_occurencies := c; tf_start := d; tf_counter := n; tf_file := f' |}) /\
  (forall a b c d f f', freq_setup header
     {| fq_occurencies := a; fq_steady := b; fq_start := c; fq_end := d; fq_file := f |} =
   freq_setup header
     {| fq_occurencies := a; fq_steady := b; fq_start := c; fq_end := d; fq_file := f' |}) /\
  (forall a b c f f', event_setup true table mapping
     {| ev_buffer := a; ev_previous := b; ev_counter := c; ev_file := f |} =
   event_setup true table mapping
     {| ev_buffer := a; ev_previous := b; ev_counter := c; ev_file := f' |}).
Proof. exact setup_new_files. Qed.
Print Assumptions C40_new_files.

Example C40_example : exists s pre types_text post,
  cov_run show_int true (file_header (L "1.0") (L "today")) [L "CO"; L "V"] (L "V") [1%Q] 2
    (at_step 0 0 [L "CO"; L "CO"] 0) [at_step 1 1 [L "V"; L "V"] 0; at_step 2 3 [L "CO"; L "CO"] 1] = Ok s /\
  cv_file s = Some (pre ++ types_text ++ post) /\
  file_list (pre ++ post) (L "times") [VNum (L "0"); VNum (L "1"); VNum (L "3")] /\
  file_list (pre ++ post) (L "coverages")
    [VList [VNum (L "1"); VNum (L "0"); VNum (L "1")]; VList [VNum (L "0"); VNum (L "1"); VNum (L "0")]].
Proof.
  destruct (cov_run_ok show_int (L "1.0") (L "today") [L "CO"; L "V"] (L "V") [1%Q] 2
    (at_step 0 0 [L "CO"; L "CO"] 0) [at_step 1 1 [L "V"; L "V"] 0; at_step 2 3 [L "CO"; L "CO"] 1]
    [[2#2; 0#2]; [0#2; 2#2]; [2#2; 0#2]]%Q) as (s & pre & tt & post & E & F & G & X & _).
  - intro q. apply int_number.
  - vm_compute. intuition discriminate.
  - vm_compute. intuition discriminate.
  - repeat constructor.
  - vm_compute. reflexivity.
  - exists s, pre, tt, post. split; [exact E|]. split; [exact F|].
    destruct X as (X1 & _ & X2); [right; split; [reflexivity|discriminate]|]. split; [exact X1|exact X2].
Qed.

(** The turnover frequency file, for every buffer size and every history: it lists the
    processes, the beginnings of the intervals into which the history is cut, and for each
    interval and process a number that, times number of sites and length, is the number of
    events of the process in that interval. *)
Theorem C41_frequencies : forall show version date mapping nprocess repetitions basis interval buffer_size es,
  (forall q, number_text (show q) = true) -> ~ In nl version -> ~ In nl date ->
  Forall (fun s => plain s = true) mapping -> (0 <= interval)%Q ->
  repetitions <> [] -> (product repetitions * Z.of_nat basis <> 0)%Z ->
  Forall (fun e => e_picked e < nprocess) es ->
  exists s file recs rest rows,
    tof_run show true (file_header version date) mapping nprocess repetitions basis interval buffer_size es = Ok s /\
    tf_file s = Some file /\ intervals interval 0 es recs rest /\
    Forall2 (turnovers nprocess (product repetitions * Z.of_nat basis)) recs rows /\
    file_list file (L "processes") (map VStr mapping) /\
    file_list file (L "times") (map (fun r => shown show (begins r)) recs) /\
    file_list file (L "tofs") (map (fun row => VList (map (shown show) row)) rows).
Proof. exact tof_file_ok. Qed.
Print Assumptions C41_frequencies.

(** The intervals are determined by the history; they and the rest make up all events; the rest
    lies within one interval length after the last cut. *)
Theorem C41_intervals : forall d start es recs rest, intervals d start es recs rest ->
  es = concat (map inside recs) ++ rest /\
  (forall recs' rest', intervals d start es recs' rest' -> recs' = recs /\ rest' = rest) /\
  Forall (fun e => (e_time e - last (map ends recs) start <= d)%Q) rest.
Proof.
  intros d start es recs rest H. split; [exact (intervals_events d start es recs rest H)|].
  split; [exact (intervals_unique d start es recs rest H)|].
  induction H as [start es H|start seg e es recs rest _ _ _ IH]; [exact H|].
  cbn [map]. unfold ends at 1. cbn [fst snd].
  replace (last (e_time e :: map ends recs) start) with (last (map ends recs) (e_time e)); [exact IH|].
  generalize (map ends recs), (e_time e), start. clear. induction l as [|x l IHl]; intros q s; [reflexivity|].
  change (last (q :: x :: l) s) with (last (x :: l) s). rewrite <- (IHl x s). destruct l; [reflexivity|].
  change (last (x :: q0 :: l) q) with (last (q0 :: l) q). symmetry. rewrite (IHl q q).
  change (last (q :: q0 :: l) q) with (last (q0 :: l) q). rewrite (IHl x q).
  change (last (x :: q0 :: l) q) with (last (q0 :: l) q). reflexivity.
Qed.
Print Assumptions C41_intervals.

(** Summed over the file: all events of the process up to the last cut. *)
Theorem C41_total : forall nprocess nsites recs rows p,
  Forall2 (turnovers nprocess nsites) recs rows -> p < nprocess ->
  (accounted nsites p recs rows == inject_Z (Z.of_nat (picks p (concat (map inside recs)))))%Q.
Proof. exact accounted_ok. Qed.
Print Assumptions C41_total.

(** A process index beyond the number of processes stops the run; so does an empty list of
    repetitions. *)
Theorem C41_failures : forall show master nprocess nsites interval buffer_size s e,
  length (tf_occurencies s) <= e_picked e ->
  tof_register show master nprocess nsites interval buffer_size s e = Err IndexError /\
  forall header mapping basis es, tof_run show master header mapping nprocess [] basis interval buffer_size es = Err TypeError.
Proof.
  intros show master nprocess nsites interval B s e H. split; [|reflexivity].
  unfold tof_register. rewrite count_at_out by exact H. reflexivity.
Qed.
Print Assumptions C41_failures.

(** The other processes create the file as well, but never add to it. *)
Theorem C41_other_ranks : forall show header nprocess nsites interval buffer_size mapping s0 s1 es s,
  tof_setup header mapping s0 = Ok s1 ->
  steps_with (tof_register show false nprocess nsites interval buffer_size) s1 es = Ok s ->
  exists s', tof_finalize show false s = Ok s' /\ tf_file s' = tf_file s1 /\ tf_file s1 <> None.
Proof.
  intros show header nprocess nsites interval B mapping s0 s1 es s H0 H1. exists s. split; [reflexivity|].
  split; [exact (tof_other_file show nprocess nsites interval B es s1 s H1)|].
  unfold tof_setup in H0. destruct (get_list_string _ _ _); [|discriminate]. injection H0 as <-. discriminate.
Qed.
Print Assumptions C41_other_ranks.

Example C41_example :
  let es := [at_step 1 1 [] 0; at_step 2 3 [] 1; at_step 3 4 [] 0; at_step 4 6 [] 0; at_step 5 7 [] 1] in
  intervals 2 0 es
    [(0%Q, 3%Q, [at_step 1 1 [] 0; at_step 2 3 [] 1]); (3%Q, 6%Q, [at_step 3 4 [] 0; at_step 4 6 [] 0])]
    [at_step 5 7 [] 1].
Proof.
  cbv zeta. apply (iv_cons 2 0 [at_step 1 1 [] 0] (at_step 2 3 [] 1)); [repeat constructor; discriminate|reflexivity|].
  apply (iv_cons 2 _ [at_step 3 4 [] 0] (at_step 4 6 [] 0)); [repeat constructor; discriminate|reflexivity|].
  apply iv_end. repeat constructor; discriminate.
Qed.

(** The frequency file: how often each process was picked; for each reaction direction of the
    mapping how often one of its processes was picked, in all and from step [tof_start] on; and
    the steady rates, counted from the first steady step with a time other than zero. *)
Theorem C42_counts : forall show version date mapping nprocess repetitions basis tof_start es,
  (forall q, number_text (show q) = true) -> ~ In nl version -> ~ In nl date ->
  Forall (fun s => plain s = true) mapping ->
  repetitions <> [] -> Forall (fun e => e_picked e < nprocess) es ->
  let nsites := (product repetitions * Z.of_nat basis)%Z in
  let steady := steady_steps tof_start es in
  let delta := (last_time es - first_nonzero_time steady)%Q in
  ~ (inject_Z nsites * delta == 0)%Q ->
  exists s file rate,
    freq_run show true (file_header version date) mapping nprocess repetitions basis tof_start es = Ok s /\
    fq_file s = Some file /\
    file_list file (L "process_occurencies")
      (map (fun p => VInt (Z.of_nat (picks p es))) (seq 0 nprocess)) /\
    file_dict file (L "reaction_occurencies")
      (fun k => if str_mem k mapping then Some (str_of_Z (Z.of_nat (reaction_picks mapping k es))) else None) /\
    file_dict file (L "steady_reaction_occurencies")
      (fun k => if str_mem k mapping then Some (str_of_Z (Z.of_nat (reaction_picks mapping k steady))) else None) /\
    file_dict file (L "reaction_rates") (fun k => if str_mem k mapping then Some (show (rate k)) else None) /\
    forall k, (rate k * (inject_Z nsites * delta) == inject_Z (Z.of_nat (reaction_picks mapping k steady)))%Q.
Proof. exact freq_file_ok. Qed.
Print Assumptions C42_counts.

(** Every step is counted once. *)
Theorem C42_each_step_once : forall nprocess es, Forall (fun e => e_picked e < nprocess) es ->
  fold_right Nat.add 0 (map (fun p => picks p es) (seq 0 nprocess)) = length es.
Proof. exact picks_all. Qed.
Print Assumptions C42_each_step_once.

(** Without steady time (no steady step, or a single one as the last) nothing is written: the
    run ends with a division by zero, also when counts were collected. *)
Theorem C42_no_steady_time : forall show master header mapping nprocess repetitions basis tof_start es,
  mapping <> [] -> Forall (fun s => plain s = true) mapping ->
  repetitions <> [] -> Forall (fun e => e_picked e < nprocess) es ->
  (inject_Z (product repetitions * Z.of_nat basis) *
     (last_time es - first_nonzero_time (steady_steps tof_start es)) == 0)%Q ->
  freq_run show master header mapping nprocess repetitions basis tof_start es = Err ZeroDivisionError.
Proof. exact freq_no_time. Qed.
Print Assumptions C42_no_steady_time.

(** So a run whose last step is the first steady one loses all its counts. *)
Theorem C42_refuted : exists mapping es,
  length es = 3 /\ steady_steps 3 es <> [] /\
  forall show header, freq_run show true header mapping 2 [2; 2; 1]%Z 1 3 es = Err ZeroDivisionError.
Proof.
  exists [L "a"; L "b"], [at_step 1 1 [] 0; at_step 2 3 [] 1; at_step 3 4 [] 0].
  split; [reflexivity|]. split; [discriminate|]. intros show header. apply freq_no_time.
  - discriminate.
  - repeat constructor.
  - discriminate.
  - repeat constructor.
  - reflexivity.
Qed.
Print Assumptions C42_refuted.

Example C42_example :
  let es := [at_step 1 1 [] 0; at_step 2 3 [] 1; at_step 3 4 [] 0; at_step 4 6 [] 0] in
  let mapping := [L "A->B(->)"; L "A->B(<-)"] in
  exists s file, freq_run show_int true (file_header (L "1.0") (L "today")) mapping 2 [2; 2; 1]%Z 1 2 es = Ok s /\
    fq_file s = Some file /\
    file_list file (L "process_occurencies") [VNum (L "3"); VNum (L "1")] /\
    file_dict file (L "steady_reaction_occurencies")
      (fun k => if str_mem k mapping then Some (if str_eqb k (L "A->B(->)") then L "2" else L "1") else None).
Proof.
  cbv zeta.
  destruct (freq_file_ok show_int (L "1.0") (L "today") [L "A->B(->)"; L "A->B(<-)"] 2 [2; 2; 1]%Z 1 2
    [at_step 1 1 [] 0; at_step 2 3 [] 1; at_step 3 4 [] 0; at_step 4 6 [] 0])
    as (s & file & rate & E & F & G1 & _ & G2 & _).
  - intro q. apply int_number.
  - vm_compute. intuition discriminate.
  - vm_compute. intuition discriminate.
  - repeat constructor.
  - discriminate.
  - repeat constructor.
  - vm_compute. discriminate.
  - exists s, file. split; [exact E|]. split; [exact F|]. split; [exact G1|].
    destruct G2 as (g & d & X & Y & Z). exists g, d. split; [exact X|]. split; [exact Y|].
    intro k. rewrite Z. destruct (str_mem k [L "A->B(->)"; L "A->B(<-)"]) eqn:M; [|reflexivity]. f_equal.
    apply str_mem_In in M. destruct M as [<-|[<-|[]]]; reflexivity.
Qed.

(** The event tables: for each process its sites, its total rate and its probability; the
    probabilities are proportional to the total rates and sum to one. *)
Theorem C57_probabilities : forall mapping e n,
  length mapping = n -> length (e_sites e) = n -> length (e_rates e) = n -> ~ (total_rate e == 0)%Q ->
  exists t, interactions_table mapping e = Ok t /\ length t = n /\
    (forall i row, nth_error t i = Some row -> exists rxn sites rate p,
       row = (i, rxn, sites, (inject_Z sites * rate)%Q, p) /\
       nth_error mapping i = Some rxn /\ nth_error (e_sites e) i = Some sites /\ nth_error (e_rates e) i = Some rate /\
       (p * total_rate e == inject_Z sites * rate)%Q) /\
    (n <> 0 -> (fold_right Qplus 0 (map row_probability t) == 1)%Q).
Proof. exact table_ok. Qed.
Print Assumptions C57_probabilities.

(** In a state in which nothing can happen the analysis fails. *)
Theorem C57_no_rate : forall mapping e, combine (e_sites e) (e_rates e) <> [] -> (total_rate e == 0)%Q ->
  interactions_table mapping e = Err ZeroDivisionError.
Proof. exact table_zero. Qed.
Print Assumptions C57_no_rate.

(** The event file, whatever the buffer size: the processes, then for each step but the first
    the table of the step before with the process picked; once and in order. *)
Theorem C57_file : forall render process_table mapping buffer_size es tables,
  mapM (interactions_table mapping) es = Ok tables ->
  exists s, event_run true render process_table mapping buffer_size es = Ok s /\
    ev_file s = Some (process_table mapping ++ [nl] ++ event_texts render tables (tl es)).
Proof. exact event_file. Qed.
Print Assumptions C57_file.

(** During the run, with a buffer of [b] >= 1 entries: after the first step and any further ones,
    the file holds the entries of the first [b * (steps / b)] further steps and the buffer the
    entries of the rest, so never more than [b - 1] entries are missing from the file. *)
Theorem C57_flushes : forall render process_table mapping b, 1 <= b -> forall e0 es tables,
  mapM (interactions_table mapping) (e0 :: es) = Ok tables -> Forall (fun t => t <> []) tables ->
  let k := b * (length es / b) in
  exists s, steps_with (event_register true render mapping (Z.of_nat b))
              (event_setup true process_table mapping event_new) (e0 :: es) = Ok s /\
    ev_file s = Some (process_table mapping ++ [nl] ++ event_texts render tables (firstn k es)) /\
    ev_buffer s = event_texts render (skipn k tables) (skipn k es).
Proof. exact event_written. Qed.
Print Assumptions C57_flushes.

Example C57_flushes_example : exists tables,
  mapM (interactions_table [L "a"; L "b"]) [at_step 1 1 [] 0; at_step 2 2 [] 1; at_step 3 3 [] 0] = Ok tables /\
  Forall (fun t => t <> []) tables.
Proof. eexists. split; [vm_compute; reflexivity|]. repeat constructor; discriminate. Qed.

Theorem C57_other_ranks : forall render process_table mapping buffer_size es s,
  event_run false render process_table mapping buffer_size es = Ok s -> ev_file s = None.
Proof. exact event_other_rank. Qed.
Print Assumptions C57_other_ranks.

Example C57_example : exists t, interactions_table [L "a"; L "b"] (at_step 1 1 [] 0) = Ok t /\
  map row_probability t = [2 # 4; 2 # 4]%Q.
Proof. eexists. split; [vm_compute; reflexivity|reflexivity]. Qed.
