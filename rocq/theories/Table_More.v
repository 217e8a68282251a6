(** The other tables of the log, and what the table of turnover frequencies says. *)
From Coq Require Import String Ascii List ZArith NArith Bool Arith Lia Reals Lra.
Import ListNotations.
From Verif Require Import PyBase PyBaseFacts Rxn_Model Rxn_Spec Species_Model Species_Proofs Species_Matrix MF_Model MF_Spec MF_Cover MF_Rate MF_More MF_Witness
  Log_Model Table_Model Table_Spec Table_Proofs.
Local Open Scope list_scope.
Local Open Scope nat_scope.

Ltac no_newline := let H := fresh in intro H; cbn in H; repeat destruct H as [H|H]; try discriminate H; try exact H.
Ltac literal := split; [no_newline|split; [cbn; lia|cbn; discriminate]].

(** ** The five tables *)
Section Five.
  Variable D : Type.
  Variable num : D -> str.
  Hypothesis FX : forall x, fits 30 (num x).

  Lemma tof_reads allowed tof gases w : (forall n, In n gases -> fits 25 n) -> (N.of_nat (length gases) <= 10 ^ 10)%N ->
    exists text, log_tof D num allowed tof gases w
      = ((if allowed then log (L "model.solvers.MeanFieldSolver") 20 text w else w), text) /\
    table_of num (L "Turnover Frequencies:") (L "gas name") (L "TOF") 25 60 gases tof text.
  Proof. intros. eexists. split; [reflexivity|]. apply table_reads; auto; try literal. no_newline. Qed.

  Lemma reversibilities_reads allowed revs rxns w : (forall n, In n rxns -> fits 70 n) -> (N.of_nat (length rxns) <= 10 ^ 10)%N ->
    exists text, log_reversibilities D num allowed rxns revs w
      = ((if allowed then log (L "model.solvers.MeanFieldSolver") 20 text w else w), text) /\
    table_of num (L "Reversibilities:") (L "elementary reaction") (L "reversibilities") 70 100 rxns revs text.
  Proof. intros. eexists. split; [reflexivity|]. apply table_reads; auto; try literal. no_newline. Qed.

  Lemma sscvg_reads allowed cvgs ads w : (forall n, In n ads -> fits 25 n) -> (N.of_nat (length ads) <= 10 ^ 10)%N ->
    exists text, log_sscvg D num allowed cvgs ads w
      = ((if allowed then log (L "model.solvers.SteadyStateSolver") 20 text w else w), text) /\
    table_of num (L "Steady State Coverages:") (L "intermediate name") (L "steady state coverage") 25 60 ads cvgs text.
  Proof. intros. eexists. split; [reflexivity|]. apply table_reads; auto; try literal. no_newline. Qed.

  Lemma title_ok gas : ~ In newline gas -> ~ In newline (L "Degree of Rate Control for " ++ gas ++ L ":").
  Proof. intro H. apply not_in_app; [no_newline|]. apply not_in_app; [exact H|no_newline]. Qed.

  Lemma single_XTRC_reads allowed ads ts xs gas w : ~ In newline gas -> (forall n, In n (ads ++ ts) -> fits 25 n) ->
    (N.of_nat (length (ads ++ ts)) <= 10 ^ 10)%N ->
    exists text, log_single_XTRC D num allowed ads ts xs gas w
      = ((if allowed then log (L "model.solvers.SteadyStateSolver") 20 text w else w), text) /\
    table_of num (L "Degree of Rate Control for " ++ gas ++ L ":") (L "intermediate") (L "XTRC") 25 60 (ads ++ ts) xs text.
  Proof. intros. eexists. split; [reflexivity|]. apply table_reads; auto; try literal. now apply title_ok. Qed.

  Lemma single_XRC_reads allowed rxns xs gas w : ~ In newline gas -> (forall n, In n rxns -> fits 70 n) ->
    (N.of_nat (length rxns) <= 10 ^ 10)%N ->
    exists text, log_single_XRC D num allowed rxns xs gas w
      = ((if allowed then log (L "model.solvers.SteadyStateSolver") 20 text w else w), text) /\
    table_of num (L "Degree of Rate Control for " ++ gas ++ L ":") (L "elementary reaction") (L "XRC") 70 100 rxns xs text.
  Proof. intros. eexists. split; [reflexivity|]. apply table_reads; auto; try literal. now apply title_ok. Qed.

  (** ** Gases and intermediates *)
  Fixpoint gas_lines (gas : str) (names : list str) (xs : list D) : list str :=
    match names, xs with
    | name :: names', x :: xs' => (left 15 gas ++ left 30 name ++ left 30 (num x)) :: gas_lines gas names' xs'
    | _, _ => []
    end.
  Fixpoint all_lines (gases names : list str) (m : list (list D)) : list (list str) :=
    match gases, m with
    | gas :: gases', xs :: m' => gas_lines gas names xs :: all_lines gases' names m'
    | _, _ => []
    end.
  Lemma gas_rows_lines gas t : ~ In newline gas -> forall names xs, (forall n, In n names -> ~ In newline n) ->
    lines_of (gas_rows D num gas names xs ++ t) = gas_lines gas names xs ++ lines_of t.
  Proof.
    intro HG. induction names as [|n names IH]; intros [|x xs] H; cbn [gas_rows gas_lines app]; auto.
    match goal with |- lines_of ?u = _ =>
      replace u with ((left 15 gas ++ left 30 n ++ left 30 (num x)) ++ newline :: (gas_rows D num gas names xs ++ t)) end.
    2:{ rewrite <- !app_assoc. reflexivity. }
    rewrite lines_cons; [now rewrite IH by (intros; apply H; now right)|].
    apply not_in_app; [now apply nl_left|]. apply not_in_app; apply nl_left; [apply H; now left|apply FX].
  Qed.
  Lemma all_rows_lines t names : (forall n, In n names -> ~ In newline n) -> forall gases m, (forall n, In n gases -> ~ In newline n) ->
    lines_of (all_rows D num gases names m ++ t) = concat (all_lines gases names m) ++ lines_of t.
  Proof.
    intro HN. induction gases as [|g gases IH]; intros [|xs m] H; cbn [all_rows all_lines concat app]; auto.
    rewrite <- app_assoc, gas_rows_lines by (auto; apply H; now left). rewrite <- app_assoc. f_equal.
    apply IH. intros; apply H; now right.
  Qed.
  Lemma gas_lines_block gas : fits 15 gas -> forall names xs, (forall n, In n names -> fits 30 n) ->
    block_of num gas names xs (gas_lines gas names xs).
  Proof.
    intros FG. induction names as [|n names IH]; intros [|x xs] H.
    1-3: split; [reflexivity|]; intros [|i] ? ? H1 H2; discriminate.
    destruct (IH xs) as [IL IN]; [intros; apply H; now right|]. split; [cbn; now rewrite IL|].
    intros [|i] name y H1 H2; cbn [nth_error gas_lines] in *.
    - injection H1 as <-. injection H2 as <-. eexists. split; [reflexivity|].
      destruct (three [] 15 30 30 _ _ _ FG (H n (or_introl eq_refl)) (FX x)) as (_ & C1 & C2 & C3). auto.
    - now apply IN.
  Qed.
  Lemma all_lines_length names : forall gases m, length (all_lines gases names m) = Nat.min (length gases) (length m).
  Proof. induction gases as [|g gases IH]; intros [|xs m]; cbn; auto. Qed.
  Lemma all_lines_nth names : forall gases m i g xs, nth_error gases i = Some g -> nth_error m i = Some xs ->
    nth_error (all_lines gases names m) i = Some (gas_lines g names xs).
  Proof.
    induction gases as [|g' gases IH]; intros [|ys m] [|i] g xs H1 H2; cbn [nth_error all_lines] in *; try discriminate.
    - congruence.
    - now apply IH.
  Qed.
  Lemma XTRC_reads allowed gases ads ts m w : (forall n, In n gases -> fits 15 n) -> (forall n, In n (ads ++ ts) -> fits 30 n) ->
    exists text, log_XTRC D num allowed gases ads ts m w
      = ((if allowed then log (L "model.solvers.SteadyStateSolver") 20 text w else w), text) /\
    blocks_of num gases (ads ++ ts) m text.
  Proof.
    intros FG FN. eexists. split; [reflexivity|].
    set (heads := left 15 (L "gas") ++ left 30 (L "intermediate") ++ left 30 (L "XTRC")).
    exists heads, (all_lines gases (ads ++ ts) m). 
    split; [|split; [reflexivity|split; [reflexivity|split; [reflexivity|split]]]].
    - rewrite app_cons_nl, lines_cons by no_newline. cbn [app]. f_equal. change (nl :: ?t) with ([] ++ newline :: t).
      rewrite lines_cons by (intros []). f_equal.
      match goal with |- lines_of ?u = _ => replace u with
        (heads ++ newline :: (dashes 70 ++ all_rows D num gases (ads ++ ts) m ++ dashes 70)) end.
      2:{ unfold heads. rewrite <- !app_assoc. reflexivity. }
      rewrite lines_cons by (unfold heads; apply not_in_app; [apply nl_left; no_newline|]; apply not_in_app; apply nl_left; no_newline).
      rewrite dashes_lines, all_rows_lines; [|intros n H; apply (FN n H)|intros n H; apply (FG n H)].
      rewrite <- (app_nil_r (dashes 70)), dashes_lines. reflexivity.
    - apply all_lines_length.
    - intros i g xs H1 H2. eexists. split; [exact (all_lines_nth _ _ _ _ _ _ H1 H2)|]. apply gas_lines_block; auto.
      apply FG. eapply nth_error_In; eauto.
  Qed.
End Five.

(** ** Rates *)
Lemma insert_len_In x : forall l y, In y (insert_by_len x l) <-> y = x \/ In y l.
Proof.
  induction l as [|z l IH]; intro y; cbn [insert_by_len]; [cbn; intuition|].
  destruct (length x <=? length z); cbn [In]; [intuition|]. rewrite IH. intuition.
Qed.
Lemma sorted_len_In l : forall y, In y (sorted_by_len l) <-> In y l.
Proof. induction l as [|x l IH]; intro y; cbn [sorted_by_len fold_right In]; [tauto|]. fold (sorted_by_len l). rewrite insert_len_In, IH. intuition. Qed.

Fixpoint ascending (l : list str) : Prop :=
  match l with [] => True | x :: t => (forall y, In y t -> length x <= length y) /\ ascending t end.
Lemma insert_ascending x : forall l, ascending l -> ascending (insert_by_len x l).
Proof.
  induction l as [|z l IH]; intro A; cbn [insert_by_len]; [split; [intros y []|exact I]|].
  destruct A as [A1 A2]. destruct (Nat.leb_spec (length x) (length z)) as [H|H].
  - split; [|split; auto]. intros y [<-|Hy]; auto. specialize (A1 y Hy). lia.
  - split; [|auto]. intros y Hy. apply insert_len_In in Hy as [->|Hy]; [lia|auto].
Qed.
Lemma sorted_ascending l : ascending (sorted_by_len l).
Proof. induction l; [exact I|]. now apply insert_ascending. Qed.
Lemma last_longest : forall l e, ascending l -> llast l = Ok e -> In e l /\ forall y, In y l -> length y <= length e.
Proof.
  induction l as [|x l IH]; intros e A E; [discriminate|]. destruct A as [A1 A2]. destruct l as [|z l].
  - injection E as <-. split; [now left|]. intros y [<-|[]]. lia.
  - change (llast (z :: l) = Ok e) in E. destruct (IH e A2 E) as [H1 H2]. split; [now right|].
    intros y [<-|Hy]; [|now apply H2]. apply A1. exact H1.
Qed.
Lemma llast_some {A} (l : list A) : l <> [] -> exists e, llast l = Ok e.
Proof. induction l as [|x [|y l] IH]; intro N; [contradiction|exists x; reflexivity|]. apply IH. discriminate. Qed.

Section Rates.
  Variable D : Type.
  Variable num : D -> str.
  Hypothesis FX : forall x, fits 12 (num x).

  Fixpoint rate_lines (w : nat) (rxns : list str) (f r : list D) : list str :=
    match rxns, f, r with
    | e :: rxns', x :: f', y :: r' => (left w e ++ left 12 (num x) ++ left 12 (num y)) :: rate_lines w rxns' f' r'
    | _, _, _ => []
    end.
  Lemma rate_rows_lines w t : forall rxns f r, (forall n, In n rxns -> ~ In newline n) ->
    lines_of (rate_rows D num w rxns f r ++ t) = rate_lines w rxns f r ++ lines_of t.
  Proof.
    induction rxns as [|n names IH]; intros [|x f] [|y r] H; cbn [rate_rows rate_lines app]; auto.
    match goal with |- lines_of ?u = _ =>
      replace u with ((left w n ++ left 12 (num x) ++ left 12 (num y)) ++ newline :: (rate_rows D num w names f r ++ t)) end.
    2:{ rewrite <- !app_assoc. reflexivity. }
    rewrite lines_cons; [now rewrite IH by (intros; apply H; now right)|].
    apply not_in_app; [apply nl_left, H; now left|]. apply not_in_app; apply nl_left; apply FX.
  Qed.
  Lemma rate_lines_length w : forall rxns f r,
    length (rate_lines w rxns f r) = Nat.min (length rxns) (Nat.min (length f) (length r)).
  Proof. induction rxns as [|n names IH]; intros [|x f] [|y r]; cbn; auto. Qed.
  Lemma rate_lines_nth w : forall rxns f r i e x y, nth_error rxns i = Some e -> nth_error f i = Some x -> nth_error r i = Some y ->
    nth_error (rate_lines w rxns f r) i = Some (left w e ++ left 12 (num x) ++ left 12 (num y)).
  Proof.
    induction rxns as [|n names IH]; intros [|x' f] [|y' r] [|i] e x y H1 H2 H3; cbn [rate_lines nth_error] in *; try discriminate.
    - injection H1 as ->; injection H2 as ->; injection H3 as ->; reflexivity.
    - now apply IH.
  Qed.

  Lemma blanks_cell W e t : length e <= W -> cell W 3 (left (W + 3) e ++ t) = [].
  Proof.
    intro H. unfold cell. unfold left. replace (W + 3 - length e) with ((W - length e) + 3) by lia.
    rewrite repeat_app, app_assoc, <- app_assoc. 
    assert (Q : length (e ++ repeat (ch " ") (W - length e)) = W) by (rewrite app_length, repeat_length; lia).
    rewrite skipn_app, Q, Nat.sub_diag. rewrite skipn_all2 by lia. cbn. reflexivity.
  Qed.

  Lemma rates_reads fname rname rxns f r w : rxns <> [] -> fits 12 fname -> fits 12 rname ->
    (forall e, In e rxns -> ~ In newline e /\ last e "x"%char <> " "%char) ->
    exists text, log_rates D num true true rxns f r fname rname w
      = Ok (log (L "model.solvers.MeanFieldSolver") 20 text w) /\ rates_of num fname rname rxns f r text.
  Proof.
    intros N F1 F2 FR.
    assert (Ns : sorted_by_len rxns <> []).
    { destruct rxns as [|e t]; [contradiction|]. intro Q. assert (I : In e (sorted_by_len (e :: t))) by (apply sorted_len_In; now left).
      rewrite Q in I. destruct I. }
    destruct (llast_some _ Ns) as [e E]. destruct (last_longest _ _ (sorted_ascending rxns) E) as [I M].
    eexists. split; [unfold log_rates; rewrite E; reflexivity|]. cbv zeta. set (W := length e).
    set (heads := left (W + 3) (L "reactions") ++ left 12 fname ++ left 12 rname).
    assert (HH : ~ In newline heads).
    { apply not_in_app; [apply nl_left; no_newline|]. apply not_in_app; apply nl_left; [apply F1|apply F2]. }
    assert (HL : length (left (W + 3) (L "reactions") ++ left 12 fname ++ left 12 rname ++ [nl]) = S (length heads)).
    { unfold heads. rewrite !app_length. cbn [length]. lia. }
    exists W, heads, (rate_lines (W + 3) rxns f r).
    assert (LG : forall y, In y rxns -> length y <= W) by (intros y Hy; apply M; now apply sorted_len_In).
    split; [split; [exact LG|exists e; split; [now apply sorted_len_In|reflexivity]]|].
    split; [|split; [|split; [apply rate_lines_length|]]].
    - rewrite HL. cbn [app]. change (nl :: nl :: ?t) with ([] ++ newline :: [] ++ newline :: t).
      rewrite !lines_cons by (intros []). do 2 f_equal.
      match goal with |- lines_of ?u = _ => replace u with
        (heads ++ newline :: (dashes (S (length heads)) ++ rate_rows D num (W + 3) rxns f r ++ dashes (S (length heads)))) end.
      2:{ unfold heads. rewrite <- !app_assoc. reflexivity. }
      rewrite lines_cons by exact HH. rewrite dashes_lines, rate_rows_lines by (intros n H; apply (FR n H)).
      rewrite <- (app_nil_r (dashes (S (length heads)))), dashes_lines. reflexivity.
    - intro H6. assert (FT : fits (W + 3) (L "reactions")) by (split; [no_newline|split; [cbn; lia|cbn; discriminate]]).
      destruct (three [] (W + 3) 12 12 _ _ _ FT F1 F2) as (_ & C1 & C2 & C3). cbn [length Nat.add] in *.
      split; [exact C1|]. split; [exact C2|]. replace (W + 15) with (W + 3 + 12) by lia. exact C3.
    - intros i e' x y H1 H2 H3. eexists. split; [exact (rate_lines_nth _ _ _ _ _ _ _ _ H1 H2 H3)|].
      assert (I' : In e' rxns) by (eapply nth_error_In; eauto).
      assert (FE : fits (W + 3) e') by (split; [apply (FR e' I')|split; [specialize (LG e' I'); lia|apply (FR e' I')]]).
      destruct (three [] (W + 3) 12 12 _ _ _ FE (FX x) (FX y)) as (_ & C1 & C2 & C3). cbn [length Nat.add] in *.
      split; [exact C1|]. split; [exact C2|]. split; [replace (W + 15) with (W + 3 + 12) by lia; exact C3|].
      apply blanks_cell. auto.
  Qed.
End Rates.

Lemma rates_silent D (num : D -> str) allowed flag rxns f r fname rname w : allowed && flag = false ->
  log_rates D num allowed flag rxns f r fname rname w = Ok w.
Proof. intro E. unfold log_rates. now rewrite E. Qed.
Lemma rates_empty D (num : D -> str) f r fname rname w : log_rates D num true true [] f r fname rname w = Err IndexError.
Proof. reflexivity. Qed.

(** ** Nothing is cut off, whatever its length *)
Lemma rows_whole D (num : D -> str) w : forall names xs k i name x,
  nth_error names i = Some name -> nth_error xs i = Some x ->
  exists before after n m l, rows D num w k names xs
    = before ++ L " " ++ row_number (k + i) ++ repeat " "%char n ++ name ++ repeat " "%char m ++ num x ++ repeat " "%char l
      ++ newline :: after.
Proof.
  induction names as [|n names IH]; intros [|y xs] k [|i] name x H1 H2; cbn [nth_error rows] in *; try discriminate.
  - injection H1 as <-. injection H2 as <-. exists [], (rows D num w (S k) names xs). do 3 eexists.
    unfold row, left. rewrite zfill2_number, Nat.add_0_r. rewrite <- !app_assoc. cbn [app]. reflexivity.
  - destruct (IH xs (S k) i name x H1 H2) as (b & a & p & q & l & E). exists (row D num w k n y ++ b), a, p, q, l.
    rewrite E, Nat.add_succ_comm, <- app_assoc. reflexivity.
Qed.
Lemma table_whole D (num : D -> str) title head1 head2 w len names xs i name x :
  nth_error names i = Some name -> nth_error xs i = Some x ->
  exists before after n m l, table D num title head1 head2 w len names xs
    = before ++ L " " ++ row_number i ++ repeat " "%char n ++ name ++ repeat " "%char m ++ num x ++ repeat " "%char l
      ++ newline :: after.
Proof.
  intros H1 H2. destruct (rows_whole D num w names xs 0 i name x H1 H2) as (b & a & p & q & l & E). cbn [Nat.add] in E.
  unfold table. rewrite E.
  exists ((title ++ [nl] ++ ([nl] ++ L " " ++ left 10 (L "index") ++ left w head1 ++ left 30 head2 ++ [nl]) ++ dashes len) ++ b),
    (a ++ dashes len), p, q, l.
  rewrite <- !app_assoc. cbn [app]. reflexivity.
Qed.

(** ** Turnover frequencies *)
Lemma tof_rows s ks data cvgs tof : parse_rxns (s_exprs s) = Ok (s_lists s) -> tofs s ks data cvgs = Ok tof ->
  length tof = length (l_gas (s_lists s)) + length (l_liq (s_lists s)) /\ forall i gas, nth_error (l_gas (s_lists s)) i = Some gas ->
    exists x, nth_error tof i = Some x /\ tof_of s ks data cvgs gas = Ok x.
Proof.
  intros P E.
  assert (Lt : length tof = length (l_gas (s_lists s)) + length (l_liq (s_lists s))).
  { unfold tofs in E. destruct (net_rates s ks data cvgs) as [nr|]; [|discriminate]. cbn [bind] in E.
    destruct (stoichiometry_matrices (s_lists s)) as [[a b]|]; [|discriminate]. cbn [bind] in E. unfold vec_mat in E.
    match type of E with (if ?b then _ else _) = _ => destruct b; [discriminate|] end.
    injection E as <-. rewrite map_length, seq_length, app_length. reflexivity. }
  split; [exact Lt|]. intros i gas Hg.
  assert (Hi : i < length (l_gas (s_lists s))) by (apply nth_error_Some; congruence).
  destruct (nth_error tof i) as [x|] eqn:Hx; [|apply nth_error_None in Hx; lia].
  exists x. split; [reflexivity|].
  assert (ND : NoDup (l_gas (s_lists s))).
  { pose proof (reapro_columns_NoDup _ _ P) as Q. clear - Q. revert Q. generalize (l_gas (s_lists s)). intros l Q.
    induction l as [|a l IH]; [constructor|]. cbn in Q. apply NoDup_cons_iff in Q as [Q1 Q2]. constructor; auto.
    intro H. apply Q1. apply in_or_app. now left. }
  unfold tof_of. rewrite E. cbn [bind]. rewrite (index_of_nth _ _ _ ND Hg). unfold lindex. now rewrite Hx.
Qed.
