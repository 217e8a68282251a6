(** The turnover frequency plugin. *)
From Coq Require Import String Ascii List ZArith NArith Bool Arith QArith Lia Lqa.
Import ListNotations.
From Verif Require Import PyBase PyBaseFacts PyData_Model PyData_Spec PyData_Proofs Fmt_Model Fmt_Proofs
  KCov_Model KPlug_Model KPlug_Spec KPlug_Text.
Local Open Scope list_scope.
Local Open Scope nat_scope.

Definition reads (text : str) (g : names) : Prop :=
  exists ss, piece text ss /\ exec_stmts [] ss = Ok g.

Lemma reads_exec text g : reads text g -> exec_file text = Ok g.
Proof. intros (ss & P & E). rewrite (piece_exec _ _ P). exact E. Qed.

Lemma reads_app a b g sb g' : reads a g -> piece b sb -> exec_stmts g sb = Ok g' -> reads (a ++ b) g'.
Proof.
  intros (ss & P & E) Pb Eb. exists (ss ++ sb). split; [now apply piece_app|].
  rewrite exec_stmts_app, E. exact Eb.
Qed.

Lemma exec_passes g n : exec_stmts g (repeat SPass n) = Ok g.
Proof. induction n as [|n IH]; [reflexivity|]. exact IH. Qed.

Lemma header_reads version date : ~ In nl version -> ~ In nl date -> reads (file_header version date) [].
Proof.
  intros Hv Hd. destruct (header_piece version date Hv Hd) as [n P].
  exists (repeat SPass n). split; [exact P|apply exec_passes].
Qed.

Lemma empty_line name : name_text name = true ->
  piece (name ++ L " = []" ++ [nl]) [SAssign name (OVal (VList []))].
Proof.
  intro H. apply (assign_line name [] (L "[]") H); [exact I|reflexivity].
Qed.

(** ** Counting *)
Definition counts (n : nat) (es : list event) : list Z := map (fun p => Z.of_nat (picks p es)) (seq 0 n).

Lemma counts_nil n : counts n [] = repeat 0%Z n.
Proof.
  unfold counts. generalize 0 at 1. induction n as [|n IH]; intro k; [reflexivity|].
  cbn [seq map repeat]. f_equal. apply IH.
Qed.

Lemma counts_length n es : length (counts n es) = n.
Proof. unfold counts. now rewrite map_length, seq_length. Qed.

Lemma picks_app p a b : picks p (a ++ b) = picks p a + picks p b.
Proof. unfold picks. now rewrite filter_app, app_length. Qed.

Lemma count_seq f k n i : i < n ->
  count_at (map f (seq k n)) i = Ok (map (fun p => if p =? k + i then (f p + 1)%Z else f p) (seq k n)).
Proof.
  revert k i. induction n as [|n IH]; intros k i H; [lia|]. cbn [seq map].
  destruct i as [|i]; cbn [count_at].
  - rewrite Nat.add_0_r, Nat.eqb_refl. do 2 f_equal. apply map_ext_in. intros p Hp. apply in_seq in Hp.
    destruct (Nat.eqb_spec p k); [lia|reflexivity].
  - rewrite (IH (S k) i) by lia. cbn [bind]. destruct (Nat.eqb_spec k (k + S i)); [lia|].
    do 2 f_equal. apply map_ext_in. intros p _. replace (S k + i) with (k + S i) by lia. reflexivity.
Qed.

Lemma counts_step n es e : e_picked e < n ->
  count_at (counts n es) (e_picked e) = Ok (counts n (es ++ [e])).
Proof.
  intro H. unfold counts. rewrite count_seq by exact H. f_equal. apply map_ext. intro p.
  rewrite picks_app. rewrite Nat.add_0_l.
  assert (E : picks p [e] = if p =? e_picked e then 1 else 0).
  { unfold picks. cbn [filter]. rewrite (Nat.eqb_sym (e_picked e) p). destruct (p =? e_picked e); reflexivity. }
  rewrite E. destruct (p =? e_picked e); lia.
Qed.

Lemma count_at_out l i : length l <= i -> count_at l i = Err IndexError.
Proof.
  revert i. induction l as [|x l IH]; intros i H; [destruct i; reflexivity|]. destruct i as [|i]; cbn in H; [lia|].
  cbn [count_at]. rewrite IH by lia. reflexivity.
Qed.

Lemma rates_ok nsites d l : ~ (inject_Z nsites * d == 0)%Q ->
  exists row, mapM (rate_of nsites d) l = Ok row /\
   Forall2 (fun n q => (q * (inject_Z nsites * d) == inject_Z n)%Q) l row.
Proof.
  intro H. induction l as [|n l (row & E & F)]; [exists []; split; [reflexivity|constructor]|].
  cbn [mapM]. unfold rate_of at 1. destruct (Qeq_bool (inject_Z nsites * d) 0) eqn:B;
    [apply Qeq_bool_iff in B; contradiction|]. cbn [bind]. rewrite E. cbn [bind].
  eexists. split; [reflexivity|]. constructor; [|exact F]. field.
  split; intro K; apply H; rewrite K; ring.
Qed.

Lemma Forall2_nth {A B} (R : A -> B -> Prop) l l' : Forall2 R l l' ->
  forall i y, nth_error l' i = Some y -> exists x, nth_error l i = Some x /\ R x y.
Proof.
  induction 1 as [|a b l l' Hab HF IH]; intros i y Hy; [destruct i; discriminate|].
  destruct i as [|i]; cbn in *; [injection Hy as <-; eauto|auto].
Qed.

Lemma counts_nth n es p z : nth_error (counts n es) p = Some z -> z = Z.of_nat (picks p es).
Proof.
  unfold counts. intro H. pose proof H as H'. rewrite nth_error_map in H.
  destruct (nth_error (seq 0 n) p) as [q|] eqn:E; [|discriminate]. injection H as <-.
  assert (p < length (seq 0 n)) by (apply nth_error_Some; congruence). rewrite seq_length in H.
  apply (nth_error_nth _ _ 0) in E. rewrite seq_nth in E by exact H. cbn in E. now subst.
Qed.

Section Tof.
  Variables (show : Q -> str) (header : str) (mapping : list str) (nprocess : nat) (nsites : Z)
    (interval : Q) (buffer_size : Z).
  Hypothesis show_ok : forall q, number_text (show q) = true.
  Hypothesis header_ok : reads header [].
  Hypothesis mapping_ok : Forall (fun s => plain s = true) mapping.

  Let row_val (row : list Q) : val := VList (map (num show) row).

  Lemma nums_writable l : Forall writable (map (num show) l).
  Proof. apply Forall_forall. intros v H. apply in_map_iff in H as (q & <- & _). apply show_ok. Qed.

  Lemma rows_writable l : Forall writable (map row_val l).
  Proof.
    apply Forall_forall. intros v H. apply in_map_iff in H as (q & <- & _).
    apply writable_list, nums_writable.
  Qed.

  Definition tof_log (s : tof_plugin) (T : list Q) (F : list (list Q)) : Prop :=
    exists text g ft ff, tf_file s = Some text /\ reads text g /\
      the_list g (L "processes") (map VStr mapping) /\
      the_list g (L "times") (map (num show) ft) /\ the_list g (L "tofs") (map row_val ff) /\
      ft ++ tf_times s = T /\ ff ++ tf_tofs s = F /\ length (tf_times s) = length (tf_tofs s).

  Lemma tof_setup_log s : tf_times s = [] -> tf_tofs s = [] ->
    exists s', tof_setup header mapping s = Ok s' /\ tof_log s' [] [] /\
      tf_occurencies s' = tf_occurencies s /\ tf_start s' = tf_start s.
  Proof.
    intros H1 H2. unfold tof_setup.
    destruct (list_piece (L "processes") (map VStr mapping) 1) as (text & E & P); [reflexivity| |discriminate|].
    { apply Forall_forall. intros v H. apply in_map_iff in H as (m & <- & Hm).
      rewrite Forall_forall in mapping_ok. exact (mapping_ok m Hm). }
    rewrite E. cbn [bind]. eexists. split; [reflexivity|]. split; [|split; reflexivity].
    unfold tof_log. cbn [tf_file tf_times tf_tofs]. rewrite H1, H2.
    eexists _, _, [], []. split; [reflexivity|]. split.
    { eapply reads_app; [exact header_ok| |].
      - replace (L "times = []" ++ [nl] ++ L "tofs = []" ++ [nl] ++ text) with
          ((L "times" ++ L " = []" ++ [nl]) ++ (L "tofs" ++ L " = []" ++ [nl]) ++ text) by reflexivity.
        apply piece_app; [apply empty_line; reflexivity|].
        apply piece_app; [apply empty_line; reflexivity|exact P].
      - reflexivity. }
    repeat split; reflexivity.
  Qed.

  Lemma tof_flush_log s T F : tof_log s T F -> exists s', tof_flush show s = Ok s' /\ tof_log s' T F /\
    tf_occurencies s' = tf_occurencies s /\ tf_start s' = tf_start s /\ tf_times s' = [] /\ tf_tofs s' = [].
  Proof.
    intros (text & g & ft & ff & E & R & G0 & G1 & G2 & HT & HF & HL). unfold tof_flush.
    destruct (extension_piece (L "times") (tf_counter s) (map (num show) (tf_times s)) 5)
      as (t1 & -> & P1); [reflexivity|apply nums_writable|discriminate|].
    cbn [bind].
    destruct (extension_piece (L "tofs") (tf_counter s) (map row_val (tf_tofs s)) 1)
      as (t2 & E2 & P2); [reflexivity|apply rows_writable|discriminate|].
    unfold row_val in E2. rewrite E2. cbn [bind].
    eexists. split; [reflexivity|]. split; [|repeat split; reflexivity].
    destruct (ext_effect g (L "times") (tf_counter s) (map (num show) (tf_times s)) _ G1) as (g1 & X1 & Y1 & Z1).
    { vm_compute. intuition discriminate. }
    assert (NU : forall n m k, ~ In "_"%char n -> n <> m ++ L "_" ++ nat_text k).
    { intros n m k H K. apply H. rewrite K. apply in_app_iff. right. left. reflexivity. }
    assert (G2' : the_list g1 (L "tofs") (map row_val ff)).
    { unfold the_list. rewrite Z1; [exact G2|discriminate|apply NU; vm_compute; intuition discriminate]. }
    destruct (ext_effect g1 (L "tofs") (tf_counter s) (map row_val (tf_tofs s)) _ G2') as (g2 & X2 & Y2 & Z2).
    { vm_compute. intuition discriminate. }
    unfold tof_log. cbn [tf_file tf_times tf_tofs]. rewrite E. cbn [append_file].
    eexists _, g2, (ft ++ tf_times s), (ff ++ tf_tofs s). split; [reflexivity|]. split.
    { eapply reads_app; [exact R| |].
      - apply piece_app; [apply flush_comment_piece|]. apply piece_app; [exact P1|exact P2].
      - rewrite exec_stmts_app. change (exec_stmts g [SPass; SPass]) with (Ok g). cbn [bind].
        rewrite exec_stmts_app, X1. cbn [bind]. exact X2. }
    split. { unfold the_list. rewrite Z2, Z1; try discriminate; try (apply NU; vm_compute; intuition discriminate). exact G0. }
    split. { unfold the_list. rewrite Z2; try discriminate; try (apply NU; vm_compute; intuition discriminate).
             unfold the_list in Y1. rewrite Y1, map_app. reflexivity. }
    split. { unfold the_list in Y2. unfold the_list. rewrite Y2, map_app. reflexivity. }
    rewrite !app_nil_r. repeat split; assumption.
  Qed.

  Hypothesis interval_pos : (0 <= interval)%Q.
  Hypothesis sites_pos : nsites <> 0%Z.
  Variable master : bool.

  Lemma tof_steps es : forall s T F cur, Forall (fun e => e_picked e < nprocess) es ->
    tof_log s T F -> tf_occurencies s = counts nprocess cur ->
    Forall (fun e => (e_time e - tf_start s <= interval)%Q) cur ->
    exists s' recs rest rows,
      steps_with (tof_register show master nprocess nsites interval buffer_size) s es = Ok s' /\
      intervals interval (tf_start s) (cur ++ es) recs rest /\
      Forall2 (turnovers nprocess nsites) recs rows /\
      tof_log s' (T ++ map begins recs) (F ++ rows) /\
      tf_occurencies s' = counts nprocess rest.
  Proof.
    induction es as [|e es IH]; intros s T F cur HP HL HO HC.
    - exists s, [], cur, []. split; [reflexivity|]. split; [rewrite app_nil_r; now constructor|].
      split; [constructor|]. cbn [map]. rewrite !app_nil_r. auto.
    - inversion HP as [|? ? Hp HP']; subst. cbn [steps_with]. unfold tof_register at 1. rewrite HO, counts_step by exact Hp.
      cbn [bind]. destruct (Qle_bool (e_time e - tf_start s) interval) eqn:B; cbn [negb].
      + apply Qle_bool_iff in B. cbn [bind].
        edestruct (IH {| tf_times := tf_times s; tf_tofs := tf_tofs s; tf_occurencies := counts nprocess (cur ++ [e]);
               tf_start := tf_start s; tf_counter := tf_counter s; tf_file := tf_file s |} T F (cur ++ [e]))
          as (s' & recs & rest & rows & E & I & W & LL & O); [exact HP'| |reflexivity| |].
        { exact HL. }
        { cbn [tf_start]. apply Forall_app. split; [exact HC|]. constructor; [exact B|constructor]. }
        exists s', recs, rest, rows. split; [exact E|]. rewrite <- app_assoc in I. auto.
      + assert (LT : (interval < e_time e - tf_start s)%Q).
        { apply Qnot_le_lt. intro K. apply Qle_bool_iff in K. congruence. }
        assert (NZ : ~ (inject_Z nsites * (e_time e - tf_start s) == 0)%Q).
        { intro K. apply Qmult_integral in K as [K|K].
          - apply sites_pos. unfold Qeq in K. cbn in K. lia.
          - lra. }
        destruct (rates_ok nsites (e_time e - tf_start s) (counts nprocess (cur ++ [e])) NZ) as (row & ER & FR).
        rewrite ER. cbn [bind].
        set (s1 := {| tf_times := tf_times s ++ [tf_start s]; tf_tofs := tf_tofs s ++ [row];
                   tf_occurencies := repeat 0%Z nprocess; tf_start := e_time e;
                   tf_counter := tf_counter s; tf_file := tf_file s |}).
        assert (L1 : tof_log s1 (T ++ [tf_start s]) (F ++ [row])).
        { destruct HL as (text & g & ft & ff & K1 & K2 & K3 & K4 & K5 & K6 & K7 & K8).
          exists text, g, ft, ff. cbn [s1 tf_file tf_times tf_tofs]. repeat (split; [assumption|]).
          rewrite <- K6, <- K7, <- !app_assoc, !app_length, K8. auto. }
        assert (exists s2, (if (buffer_size <=? Z.of_nat (length (tf_times s1)))%Z && master
                  then tof_flush show s1 else Ok s1) = Ok s2 /\ tof_log s2 (T ++ [tf_start s]) (F ++ [row]) /\
                  tf_occurencies s2 = counts nprocess [] /\ tf_start s2 = e_time e) as (s2 & E2 & L2 & O2 & S2).
        { rewrite counts_nil. destruct (_ && master).
          - destruct (tof_flush_log s1 _ _ L1) as (s2 & E2 & L2 & O2 & S2 & _). exists s2. rewrite O2, S2. auto.
          - exists s1. auto. }
        rewrite E2. cbn [bind].
        destruct (IH s2 _ _ [] HP' L2 O2) as (s' & recs & rest & rows & E & I & W & LL & O); [constructor|].
        exists s', ((tf_start s, e_time e, cur ++ [e]) :: recs), rest, (row :: rows).
        split; [exact E|]. split; [|split; [|split]].
        * rewrite S2 in I. cbn [app] in I. now apply iv_cons.
        * constructor; [|exact W]. split.
          { apply Forall2_length in FR. now rewrite <- FR, counts_length. }
          intros p tof Hn. destruct (Forall2_nth _ _ _ FR _ _ Hn) as (z & Hz & Q).
          apply counts_nth in Hz. subst z. cbn [ends begins inside fst snd]. exact Q.
        * cbn [map begins fst]. replace (T ++ tf_start s :: map begins recs) with ((T ++ [tf_start s]) ++ map begins recs)
            by now rewrite <- app_assoc.
          replace (F ++ row :: rows) with ((F ++ [row]) ++ rows) by now rewrite <- app_assoc. exact LL.
        * exact O.
  Qed.
End Tof.

Lemma nsites_ok reps basis : reps <> [] -> nsites_of reps basis = Ok (product reps * Z.of_nat basis)%Z.
Proof.
  destruct reps as [|x t]; [congruence|]. intros _. unfold nsites_of, reduce_mul. cbn [bind]. do 2 f_equal.
  unfold product. cbn [fold_right]. revert x. induction t as [|y t IH]; intro x; cbn [fold_left fold_right]; [lia|].
  rewrite IH. ring.
Qed.

Lemma tof_new_start n : tf_occurencies (tof_new n) = counts n [].
Proof. cbn [tof_new tf_occurencies]. now rewrite counts_nil. Qed.

Lemma tof_file_ok show version date mapping nprocess reps basis interval buffer_size es :
  (forall q, number_text (show q) = true) -> ~ In nl version -> ~ In nl date ->
  Forall (fun s => plain s = true) mapping -> (0 <= interval)%Q ->
  reps <> [] -> (product reps * Z.of_nat basis <> 0)%Z -> Forall (fun e => e_picked e < nprocess) es ->
  exists s file recs rest rows,
    tof_run show true (file_header version date) mapping nprocess reps basis interval buffer_size es = Ok s /\
    tf_file s = Some file /\ intervals interval 0 es recs rest /\
    Forall2 (turnovers nprocess (product reps * Z.of_nat basis)) recs rows /\
    file_list file (L "processes") (map VStr mapping) /\
    file_list file (L "times") (map (fun r => shown show (begins r)) recs) /\
    file_list file (L "tofs") (map (fun row => VList (map (shown show) row)) rows).
Proof.
  intros Hs Hv Hd Hm Hi Hr Hn Hp. unfold tof_run. rewrite nsites_ok by exact Hr. cbn [bind].
  set (nsites := (product reps * Z.of_nat basis)%Z) in *.
  destruct (tof_setup_log show (file_header version date) mapping (header_reads _ _ Hv Hd) Hm (tof_new nprocess))
    as (s0 & E0 & L0 & O0 & S0); [reflexivity|reflexivity|].
  rewrite E0. cbn [bind].
  destruct (tof_steps show mapping nprocess nsites interval buffer_size Hs Hi Hn true es s0 [] [] [] Hp L0)
    as (s1 & recs & rest & rows & E1 & I & W & L1 & O1).
  { rewrite O0. apply tof_new_start. }
  { constructor. }
  rewrite E1. cbn [bind]. rewrite S0 in I. cbn [app tof_new tf_start] in I, L1.
  assert (exists s2 text g, tof_finalize show true s1 = Ok s2 /\ tf_file s2 = Some text /\ reads text g /\
     the_list g (L "processes") (map VStr mapping) /\ the_list g (L "times") (map (num show) (map begins recs)) /\
     the_list g (L "tofs") (map (fun row => VList (map (num show) row)) rows)) as (s2 & text & g & E2 & F2 & R2 & G0 & G1 & G2).
  { unfold tof_finalize. cbn [andb]. destruct (0 <? length (tf_times s1)) eqn:B.
    - destruct (tof_flush_log show mapping Hs s1 _ _ L1) as (s2 & E2 & L2 & _ & _ & T2 & F2').
      destruct L2 as (text & g & ft & ff & K1 & K2 & K3 & K4 & K5 & K6 & K7 & K8).
      rewrite T2, app_nil_r in K6. rewrite F2', app_nil_r in K7. subst ft ff.
      exists s2, text, g. repeat (split; [assumption|]). exact K5.
    - destruct L1 as (text & g & ft & ff & K1 & K2 & K3 & K4 & K5 & K6 & K7 & K8).
      apply Nat.ltb_ge in B. assert (T1 : tf_times s1 = []) by (destruct (tf_times s1); [reflexivity|cbn in B; lia]).
      rewrite T1, app_nil_r in K6. subst ft.
      assert (F1 : tf_tofs s1 = []).
      { rewrite T1 in K8. destruct (tf_tofs s1); [reflexivity|discriminate]. }
      rewrite F1, app_nil_r in K7. subst ff. exists s1, text, g. split; [reflexivity|]. repeat (split; [assumption|]). exact K5. }
  exists s2, text, recs, rest, rows. split; [exact E2|]. split; [exact F2|]. split; [exact I|]. split; [exact W|].
  apply reads_exec in R2. split; [exists g; auto|]. split.
  - exists g. split; [exact R2|]. unfold the_list in G1. rewrite G1, map_map. reflexivity.
  - exists g. split; [exact R2|]. exact G2.
Qed.

(** ** The cuts *)
Lemma intervals_events d start es recs rest : intervals d start es recs rest ->
  es = concat (map inside recs) ++ rest.
Proof.
  induction 1 as [|start seg e es recs rest Hs He _ IH]; [reflexivity|].
  cbn [map concat]. unfold inside at 1. cbn [snd]. rewrite IH at 1. rewrite <- !app_assoc. reflexivity.
Qed.

Lemma intervals_unique d start es recs rest : intervals d start es recs rest ->
  forall recs' rest', intervals d start es recs' rest' -> recs' = recs /\ rest' = rest.
Proof.
  induction 1 as [start es Hes|start seg e es recs rest Hs He Hi IH]; intros recs' rest' H'.
  - inversion H' as [? ? K|? seg e es' recs1 rest1 K1 K2 K3]; subst; [auto|].
    exfalso. rewrite Forall_forall in Hes. specialize (Hes e). assert (In e (seg ++ e :: es')) by (apply in_app_iff; right; left; reflexivity).
    specialize (Hes H). lra.
  - remember (seg ++ e :: es) as evs eqn:EQ. destruct H' as [start evs K|start seg1 e1 es1 recs1 rest1 K1 K2 K3]; subst.
    + exfalso. rewrite Forall_forall in K. specialize (K e). assert (In e (seg ++ e :: es)) by (apply in_app_iff; right; left; reflexivity).
      specialize (K H). lra.
    + assert (seg1 = seg /\ e1 = e /\ es1 = es) as (-> & -> & ->).
      { clear - Hs He K1 K2 EQ. revert seg1 K1 EQ. induction seg as [|x seg IHs]; intros seg1 K1 EQ.
        - destruct seg1 as [|y seg1]; cbn in EQ; injection EQ as -> E2; [auto|].
          exfalso. inversion K1; subst. lra.
        - inversion Hs; subst. destruct seg1 as [|y seg1]; cbn in EQ; injection EQ as -> E2; [exfalso; lra|].
          inversion K1; subst. destruct (IHs ltac:(assumption) seg1 ltac:(assumption) E2) as (-> & -> & ->). auto. }
      destruct (IH _ _ K3) as [-> ->]. auto.
Qed.

Lemma accounted_ok nprocess nsites recs rows p : Forall2 (turnovers nprocess nsites) recs rows -> p < nprocess ->
  (accounted nsites p recs rows == inject_Z (Z.of_nat (picks p (concat (map inside recs)))))%Q.
Proof.
  intros F Hp. induction F as [|r row recs rows [HL HT] F IH]; [reflexivity|].
  cbn [accounted map concat]. rewrite picks_app, Nat2Z.inj_add, inject_Z_plus, IH.
  rewrite (HT p (nth p row 0%Q)); [reflexivity|]. apply nth_error_nth'. lia.
Qed.

(** ** Other ranks, failures *)
Lemma tof_other_file show nprocess nsites interval buffer_size es : forall s s',
  steps_with (tof_register show false nprocess nsites interval buffer_size) s es = Ok s' -> tf_file s' = tf_file s.
Proof.
  induction es as [|e es IH]; intros s s' H; cbn [steps_with] in H; [now injection H as <-|].
  destruct (tof_register show false nprocess nsites interval buffer_size s e) as [s1|] eqn:E; [|discriminate].
  cbn [bind] in H. rewrite (IH _ _ H). clear H IH. unfold tof_register in E.
  destruct (count_at _ _); [cbn [bind] in E|discriminate]. destruct (negb _).
  - destruct (mapM _ _); [cbn [bind] in E|discriminate]. rewrite andb_false_r in E. injection E as <-. reflexivity.
  - injection E as <-. reflexivity.
Qed.
