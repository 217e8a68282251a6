(** Property theorems: the tables in the log (C81). *)
From Coq Require Import String Ascii List ZArith NArith Bool Arith Lia Reals.
Import ListNotations.
From Verif Require Import PyBase Rxn_Model Species_Model MF_Model MF_Spec MF_Witness Log_Model Table_Model Table_Spec
  Table_Proofs Table_More Table_Witness.
Local Open Scope list_scope.
Local Open Scope nat_scope.

Theorem C81_turnover_frequencies : forall D (num : D -> str), (forall x, fits 30 (num x)) ->
  forall allowed tof gases w, (forall n, In n gases -> fits 25 n) -> (N.of_nat (length gases) <= 10 ^ 10)%N ->
  exists text, log_tof D num allowed tof gases w
    = ((if allowed then log (L "model.solvers.MeanFieldSolver") 20 text w else w), text) /\
  table_of num (L "Turnover Frequencies:") (L "gas name") (L "TOF") 25 60 gases tof text.
Proof. exact tof_reads. Qed.
Print Assumptions C81_turnover_frequencies.

Theorem C81_gas_rows : forall s ks data cvgs tof, parse_rxns (s_exprs s) = Ok (s_lists s) -> tofs s ks data cvgs = Ok tof ->
  length tof = length (l_gas (s_lists s)) + length (l_liq (s_lists s)) /\
  forall i gas, nth_error (l_gas (s_lists s)) i = Some gas ->
    exists x, nth_error tof i = Some x /\ tof_of s ks data cvgs gas = Ok x.
Proof. exact tof_rows. Qed.
Print Assumptions C81_gas_rows.

(** A species in solution has a turnover frequency, but no row. *)
Theorem C81_liquids_refuted : exists s ks data cvgs tof name x,
  usable_setup s /\ get_data s = Ok data /\ tofs s ks (Some data) cvgs = Ok tof /\
  In (name, x) (combine (l_gas (s_lists s) ++ l_liq (s_lists s)) tof) /\ x <> 0%R /\
  forall num allowed w, (forall x, fits 30 (num x)) ->
    forall line, In line (lines_of (snd (log_tof R num allowed tof (l_gas (s_lists s)) w))) -> cell 11 25 line <> name.
Proof. exact liquids_refute. Qed.
Print Assumptions C81_liquids_refuted.

Theorem C81_reversibilities : forall D (num : D -> str), (forall x, fits 30 (num x)) ->
  forall allowed revs rxns w, (forall n, In n rxns -> fits 70 n) -> (N.of_nat (length rxns) <= 10 ^ 10)%N ->
  exists text, log_reversibilities D num allowed rxns revs w
    = ((if allowed then log (L "model.solvers.MeanFieldSolver") 20 text w else w), text) /\
  table_of num (L "Reversibilities:") (L "elementary reaction") (L "reversibilities") 70 100 rxns revs text.
Proof. exact reversibilities_reads. Qed.
Print Assumptions C81_reversibilities.

Theorem C81_coverages : forall D (num : D -> str), (forall x, fits 30 (num x)) ->
  forall allowed cvgs ads w, (forall n, In n ads -> fits 25 n) -> (N.of_nat (length ads) <= 10 ^ 10)%N ->
  exists text, log_sscvg D num allowed cvgs ads w
    = ((if allowed then log (L "model.solvers.SteadyStateSolver") 20 text w else w), text) /\
  table_of num (L "Steady State Coverages:") (L "intermediate name") (L "steady state coverage") 25 60 ads cvgs text.
Proof. exact sscvg_reads. Qed.
Print Assumptions C81_coverages.

Theorem C81_rate_control : forall D (num : D -> str), (forall x, fits 30 (num x)) ->
  forall allowed rxns xs gas w, ~ In newline gas -> (forall n, In n rxns -> fits 70 n) ->
  (N.of_nat (length rxns) <= 10 ^ 10)%N ->
  exists text, log_single_XRC D num allowed rxns xs gas w
    = ((if allowed then log (L "model.solvers.SteadyStateSolver") 20 text w else w), text) /\
  table_of num (L "Degree of Rate Control for " ++ gas ++ L ":") (L "elementary reaction") (L "XRC") 70 100 rxns xs text.
Proof. exact single_XRC_reads. Qed.
Print Assumptions C81_rate_control.

Theorem C81_thermodynamic_rate_control : forall D (num : D -> str), (forall x, fits 30 (num x)) ->
  forall allowed ads ts xs gas w, ~ In newline gas -> (forall n, In n (ads ++ ts) -> fits 25 n) ->
  (N.of_nat (length (ads ++ ts)) <= 10 ^ 10)%N ->
  exists text, log_single_XTRC D num allowed ads ts xs gas w
    = ((if allowed then log (L "model.solvers.SteadyStateSolver") 20 text w else w), text) /\
  table_of num (L "Degree of Rate Control for " ++ gas ++ L ":") (L "intermediate") (L "XTRC") 25 60 (ads ++ ts) xs text.
Proof. exact single_XTRC_reads. Qed.
Print Assumptions C81_thermodynamic_rate_control.

Theorem C81_all_gases : forall D (num : D -> str), (forall x, fits 30 (num x)) ->
  forall allowed gases ads ts m w, (forall n, In n gases -> fits 15 n) -> (forall n, In n (ads ++ ts) -> fits 30 n) ->
  exists text, log_XTRC D num allowed gases ads ts m w
    = ((if allowed then log (L "model.solvers.SteadyStateSolver") 20 text w else w), text) /\
  blocks_of num gases (ads ++ ts) m text.
Proof. exact XTRC_reads. Qed.
Print Assumptions C81_all_gases.

Theorem C81_rates : forall D (num : D -> str), (forall x, fits 12 (num x)) ->
  forall fname rname rxns f r w, rxns <> [] -> fits 12 fname -> fits 12 rname ->
  (forall e, In e rxns -> ~ In newline e /\ last e "x"%char <> " "%char) ->
  exists text, log_rates D num true true rxns f r fname rname w
    = Ok (log (L "model.solvers.MeanFieldSolver") 20 text w) /\ rates_of num fname rname rxns f r text.
Proof. exact rates_reads. Qed.
Print Assumptions C81_rates.

Theorem C81_rates_silent : forall D (num : D -> str) allowed flag rxns f r fname rname w, allowed && flag = false ->
  log_rates D num allowed flag rxns f r fname rname w = Ok w.
Proof. exact rates_silent. Qed.
Print Assumptions C81_rates_silent.

Theorem C81_rates_empty : forall D (num : D -> str) f r fname rname w,
  log_rates D num true true [] f r fname rname w = Err IndexError.
Proof. exact rates_empty. Qed.
Print Assumptions C81_rates_empty.

(** Names and numbers are never cut off, however long. *)
Theorem C81_nothing_lost : forall D (num : D -> str) title head1 head2 w len names xs i name x,
  nth_error names i = Some name -> nth_error xs i = Some x ->
  exists before after n m l, table D num title head1 head2 w len names xs
    = before ++ L " " ++ row_number i ++ repeat " "%char n ++ name ++ repeat " "%char m ++ num x ++ repeat " "%char l
      ++ newline :: after.
Proof. exact table_whole. Qed.
Print Assumptions C81_nothing_lost.

(** But the columns shift. *)
Theorem C81_long_reaction_refuted : exists rxns p (num : nat -> str) xs w text,
  parse_rxns rxns = Ok p /\ (forall x, fits 30 (num x)) /\ length xs = length rxns /\
  log_reversibilities nat num true rxns xs w = (log (L "model.solvers.MeanFieldSolver") 20 text w, text) /\
  ~ exists line x, In line (lines_of text) /\ In x xs /\ cell 81 30 line = num x.
Proof. exact long_refutes. Qed.
Print Assumptions C81_long_reaction_refuted.

Example C81_oxidation : (forall n, In n (l_gas (s_lists ox_setup)) -> fits 25 n /\ fits 15 n) /\
  (forall n, In n (s_exprs ox_setup) -> fits 70 n) /\ fits 30 (L "-1.2345678901234567e-100") /\ fits 12 (L "1.2346e-100") /\
  row_number 7 = L "07" /\ row_number 12 = L "12".
Proof.
  split; [intros n H; cbn in H; repeat destruct H as [<-|H]; try contradiction; split; literal|].
  split; [intros n H; cbn in H; repeat destruct H as [<-|H]; try contradiction; literal|].
  split; [literal|]. split; [literal|]. split; reflexivity.
Qed.
