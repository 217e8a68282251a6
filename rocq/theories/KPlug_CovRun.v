(** The coverages plugin: whole runs. *)
From Coq Require Import String Ascii List ZArith NArith Bool Arith QArith Lia Lqa.
Import ListNotations.
From Verif Require Import PyBase PyBaseFacts PyData_Model PyData_Spec PyData_Proofs Fmt_Model Fmt_Proofs
  KCov_Model KCov_Proofs KPlug_Model KPlug_Spec KPlug_Text KPlug_Tof KPlug_Cov.
Local Open Scope list_scope.
Local Open Scope nat_scope.

Section Cov.
  Variables (show : Q -> str) (header : str) (pt : list str) (empty : str) (ratios : list Q) (B : Z) (pre tt : str).
  Hypothesis show_ok : forall q, number_text (show q) = true.
  Let n := length pt.

  Definition cov_log (s : cov_plugin) (T : list Q) (S : list Z) (C : list (list Q)) : Prop :=
    exists post g ft fs fc, cv_file s = Some (pre ++ tt ++ post) /\ (exists ss, piece post ss) /\ reads (pre ++ post) g /\
      the_list g (L "times") (map (num show) ft) /\ the_list g (L "steps") (map VInt fs) /\
      the_list g (L "coverages") (vlists show (map (column fc) (seq 0 n))) /\
      ft ++ cv_times s = T /\ fs ++ cv_steps s = S /\ fc ++ cv_coverages s = C /\
      length (cv_times s) = length (cv_coverages s) /\ length (cv_steps s) = length (cv_coverages s) /\
      Forall (fun r => length r = n) (cv_coverages s).

  Lemma nums_w l : Forall writable (map (num show) l).
  Proof. apply Forall_forall. intros v H. apply in_map_iff in H as (q & <- & _). apply show_ok. Qed.
  Lemma ints_w l : Forall writable (map VInt l).
  Proof. apply Forall_forall. intros v H. apply in_map_iff in H as (q & <- & _). apply int_number. Qed.
  Lemma tuples_w l : Forall writable (vtuples show l).
  Proof. apply Forall_forall. intros v H. apply in_map_iff in H as (q & <- & _). apply writable_tuple, nums_w. Qed.

  Lemma no_under a m k : ~ In "_"%char a -> a <> m ++ L "_" ++ nat_text k.
  Proof. intros H K. apply H. rewrite K. apply in_app_iff. right. left. reflexivity. Qed.

  (** The statements of a flush. *)
  Definition flush_stmts (s : cov_plugin) : list stmt :=
    [SPass; SPass] ++ ext_stmts (L "times") (cv_counter s) (map (num show) (cv_times s)) ++
    ext_stmts (L "steps") (cv_counter s) (map VInt (cv_steps s)) ++
    [SAssign (L "coverages_" ++ nat_text (cv_counter s)) (OVal (VList (vtuples show (zip_rows (cv_coverages s))))); SPass] ++
    col_stmts (cv_counter s) n 0.

  Lemma flush_piece s : exists text, cov_flush show pt s =
      Ok {| cv_times := []; cv_steps := []; cv_coverages := []; cv_counter := S (cv_counter s);
            cv_file := append_file (cv_file s) text |} /\ piece text (flush_stmts s).
  Proof.
    unfold cov_flush.
    destruct (extension_piece (L "times") (cv_counter s) (map (num show) (cv_times s)) 5) as (t1 & -> & P1);
      [reflexivity|apply nums_w|discriminate|].
    destruct (extension_piece (L "steps") (cv_counter s) (map VInt (cv_steps s)) 10) as (t2 & -> & P2);
      [reflexivity|apply ints_w|discriminate|].
    cbn [bind].
    destruct (list_piece (L "coverages_" ++ nat_text (cv_counter s)) (vtuples show (zip_rows (cv_coverages s))) 1)
      as (t3 & E3 & P3); [exact (counted_name (L "coverages") (cv_counter s) eq_refl)|apply tuples_w|discriminate|].
    unfold vtuples in E3. rewrite E3. cbn [bind]. eexists. split; [reflexivity|].
    unfold flush_stmts. apply piece_app; [apply flush_comment_piece|].
    apply piece_app; [exact P1|]. apply piece_app; [exact P2|]. apply piece_app; [exact P3|apply column_lines_piece].
  Qed.

  (** The effect of all but the last statements. *)
  Lemma flush_begin g s ft fs cs :
    the_list g (L "times") (map (num show) ft) -> the_list g (L "steps") (map VInt fs) ->
    the_list g (L "coverages") cs ->
    exists g', exec_stmts g ([SPass; SPass] ++ ext_stmts (L "times") (cv_counter s) (map (num show) (cv_times s)) ++
      ext_stmts (L "steps") (cv_counter s) (map VInt (cv_steps s)) ++
      [SAssign (L "coverages_" ++ nat_text (cv_counter s)) (OVal (VList (vtuples show (zip_rows (cv_coverages s))))); SPass]) = Ok g' /\
     the_list g' (L "times") (map (num show) (ft ++ cv_times s)) /\ the_list g' (L "steps") (map VInt (fs ++ cv_steps s)) /\
     the_list g' (L "coverages") cs /\
     the_list g' (L "coverages_" ++ nat_text (cv_counter s)) (vtuples show (zip_rows (cv_coverages s))).
  Proof.
    intros G1 G2 G3.
    destruct (ext_effect g (L "times") (cv_counter s) (map (num show) (cv_times s)) _ G1) as (g1 & X1 & Y1 & Z1);
      [vm_compute; intuition discriminate|].
    assert (G2' : the_list g1 (L "steps") (map VInt fs)).
    { unfold the_list. rewrite Z1; [exact G2|discriminate|apply no_under; vm_compute; intuition discriminate]. }
    destruct (ext_effect g1 (L "steps") (cv_counter s) (map VInt (cv_steps s)) _ G2') as (g2 & X2 & Y2 & Z2);
      [vm_compute; intuition discriminate|].
    eexists. split; [|split; [|split; [|split]]].
    - rewrite exec_stmts_app. change (exec_stmts g [SPass; SPass]) with (Ok g). cbn [bind].
      rewrite exec_stmts_app, X1. cbn [bind]. rewrite exec_stmts_app, X2. cbn [bind exec_stmts exec_stmt]. reflexivity.
    - unfold the_list. rewrite dget_dset, str_eqb_neq'.
      2:{ apply (no_under (L "times") (L "coverages")). vm_compute. intuition discriminate. }
      rewrite Z2; [|discriminate|apply no_under; vm_compute; intuition discriminate].
      rewrite map_app. exact Y1.
    - unfold the_list. rewrite dget_dset, str_eqb_neq'.
      2:{ apply (no_under (L "steps") (L "coverages")). vm_compute. intuition discriminate. }
      rewrite map_app. exact Y2.
    - unfold the_list. rewrite dget_dset, str_eqb_neq'.
      2:{ apply (no_under (L "coverages") (L "coverages")). vm_compute. intuition discriminate. }
      rewrite Z2, Z1; try discriminate; try (apply no_under; vm_compute; intuition discriminate). exact G3.
    - unfold the_list. now rewrite dget_dset, str_eqb_refl.
  Qed.

  Lemma flush_regroup s : flush_stmts s =
    ([SPass; SPass] ++ ext_stmts (L "times") (cv_counter s) (map (num show) (cv_times s)) ++
      ext_stmts (L "steps") (cv_counter s) (map VInt (cv_steps s)) ++
      [SAssign (L "coverages_" ++ nat_text (cv_counter s)) (OVal (VList (vtuples show (zip_rows (cv_coverages s))))); SPass]) ++
    col_stmts (cv_counter s) n 0.
  Proof. unfold flush_stmts. now rewrite <- !app_assoc. Qed.

  Lemma cov_flush_log s T S C : cov_log s T S C -> cv_coverages s <> [] ->
    exists s', cov_flush show pt s = Ok s' /\ cov_log s' T S C /\ cv_coverages s' = [].
  Proof.
    intros (post & g & ft & fs & fc & E & (ssp & PP) & R & G1 & G2 & G3 & HT & HS & HC & L1 & L2 & HF) N.
    destruct (flush_piece s) as (text & -> & P). eexists. split; [reflexivity|]. split; [|reflexivity].
    destruct (flush_begin g s ft fs _ G1 G2 G3) as (g1 & X1 & A1 & A2 & A3 & A4).
    rewrite (zip_rows_columns n _ N HF) in A4.
    destruct (columns_effect show (cv_counter s) (map (column fc) (seq 0 n)) (map (column (cv_coverages s)) (seq 0 n)))
      with (done := @nil (list Q)) (dn := @nil (list Q)) (g := g1) as (g2 & X2 & B1 & B2);
      [now rewrite !map_length|reflexivity|exact A3|exact A4|].
    rewrite map_length, seq_length in X2. cbn [app length] in X2, B1.
    assert (CE : map (fun p => fst p ++ snd p) (combine (map (column fc) (seq 0 n)) (map (column (cv_coverages s)) (seq 0 n))) =
                 map (column (fc ++ cv_coverages s)) (seq 0 n)).
    { generalize (seq 0 n). induction l as [|j l IH]; [reflexivity|]. cbn [map combine fst snd]. rewrite IH, column_app. reflexivity. }
    rewrite CE in B1.
    exists (post ++ text), g2, (ft ++ cv_times s), (fs ++ cv_steps s), (fc ++ cv_coverages s).
    cbn [cv_file cv_times cv_steps cv_coverages]. rewrite E. cbn [append_file].
    split; [now rewrite <- !app_assoc|]. split; [eexists; exact (piece_app _ _ _ _ PP P)|]. split.
    { rewrite app_assoc. eapply reads_app; [exact R|exact P|]. rewrite flush_regroup, exec_stmts_app, X1. exact X2. }
    split. { unfold the_list. rewrite B2 by discriminate. exact A1. }
    split. { unfold the_list. rewrite B2 by discriminate. exact A2. }
    split; [exact B1|]. rewrite !app_nil_r. repeat (split; [assumption || reflexivity|]). constructor.
  Qed.

  (** Flushing an empty buffer ruins the file. *)
  Lemma cov_flush_empty s T S C : cov_log s T S C -> cv_coverages s = [] -> pt <> [] ->
    exists s' post, cov_flush show pt s = Ok s' /\ cv_file s' = Some (pre ++ tt ++ post) /\
      exec_file (pre ++ post) = Err IndexError /\ exists ss, piece post ss.
  Proof.
    intros (post & g & ft & fs & fc & E & (ssp & PP) & R & G1 & G2 & G3 & HT & HS & HC & L1 & L2 & HF) N Hpt.
    destruct (flush_piece s) as (text & -> & P). eexists _, (post ++ text). split; [reflexivity|].
    cbn [cv_file]. rewrite E. cbn [append_file]. split; [now rewrite <- !app_assoc|].
    split; [|eexists; exact (piece_app _ _ _ _ PP P)].
    destruct (flush_begin g s ft fs _ G1 G2 G3) as (g1 & X1 & A1 & A2 & A3 & A4).
    rewrite N in A4. cbn [zip_rows vtuples map] in A4.
    destruct R as (sr & Pr & Er). rewrite app_assoc, (piece_exec _ _ (piece_app _ _ _ _ Pr P)).
    rewrite exec_stmts_app, Er. cbn [bind]. rewrite flush_regroup, exec_stmts_app, X1. cbn [bind].
    assert (exists m, n = Datatypes.S m) as [m Hm].
    { assert (n <> 0) by (intro Q; apply Hpt; apply length_zero_iff_nil; exact Q). exists (Nat.pred n). lia. }
    rewrite Hm. unfold col_stmts. cbn [seq map exec_stmts exec_stmt]. unfold fetch. cbn [fst snd].
    unfold the_list in A3, A4. rewrite A3. unfold vlists. rewrite Hm.
    cbn [seq map lindex nth_error bind extend_val]. rewrite A4. reflexivity.
  Qed.

  (** *** Steps *)
  Definition buffered (m : nat) : nat :=
    if (B <=? 1)%Z then (if m =? 1 then 1 else 0) else Z.to_nat (Z.of_nat m mod B).

  Lemma cov_steps es : forall s T S C rows, cov_log s T S C ->
    mapM (fun e => step_coverages pt empty ratios (e_types e)) es = Ok rows ->
    1 <= length C -> length (cv_coverages s) = buffered (length C) ->
    exists s', steps_with (cov_register show true pt empty ratios B) s es = Ok s' /\
      cov_log s' (T ++ map e_time es) (S ++ map e_step es) (C ++ rows) /\
      length (cv_coverages s') = buffered (length C + length es).
  Proof.
    induction es as [|e es IH]; intros s T S C rows HL HM H1 HB; cbn [mapM] in HM.
    - injection HM as <-. exists s. cbn [map length]. rewrite !app_nil_r, Nat.add_0_r. auto.
    - destruct (step_coverages pt empty ratios (e_types e)) as [c|] eqn:Ec; [|discriminate]. cbn [bind] in HM.
      destruct (mapM _ es) as [rows'|] eqn:Em; [|discriminate]. cbn [bind] in HM. injection HM as <-.
      cbn [steps_with]. unfold cov_register at 1, cov_record. rewrite Ec. cbn [bind andb].
      set (s1 := {| cv_times := cv_times s ++ [e_time e]; cv_steps := cv_steps s ++ [e_step e];
          cv_coverages := cv_coverages s ++ [c]; cv_counter := cv_counter s; cv_file := cv_file s |}).
      assert (L1 : cov_log s1 (T ++ [e_time e]) (S ++ [e_step e]) (C ++ [c])).
      { destruct HL as (post & g & ft & fs & fc & K1 & K2 & K3 & K4 & K5 & K6 & K7 & K8 & K9 & K10 & K11 & K12).
        exists post, g, ft, fs, fc. cbn [s1 cv_file cv_times cv_steps cv_coverages].
        repeat (split; [assumption|]). rewrite <- K7, <- K8, <- K9, !app_assoc, !app_length, K10, K11.
        repeat (split; [reflexivity|]). apply Forall_app. split; [exact K12|]. constructor; [|constructor].
        exact (step_length _ _ _ _ _ Ec). }
      assert (exists s2, (if (B <=? Z.of_nat (length (cv_coverages s1)))%Z then cov_flush show pt s1 else Ok s1) = Ok s2 /\
         cov_log s2 (T ++ [e_time e]) (S ++ [e_step e]) (C ++ [c]) /\
         length (cv_coverages s2) = buffered (length (C ++ [c]))) as (s2 & E2 & L2 & B2).
      { assert (HL1 : length (cv_coverages s1) = Datatypes.S (buffered (length C))).
        { cbn [s1 cv_coverages]. rewrite app_length, HB. cbn. lia. }
        rewrite HL1, app_length. cbn [length].
        assert (BB : if (B <=? Z.of_nat (Datatypes.S (buffered (length C))))%Z then buffered (length C + 1) = 0
                     else buffered (length C + 1) = Datatypes.S (buffered (length C))).
        { unfold buffered. destruct (Z.leb_spec B 1) as [H|H].
          - destruct (Z.leb_spec B (Z.of_nat (Datatypes.S (if length C =? 1 then 1 else 0)))) as [K|K].
            + destruct (Nat.eqb_spec (length C + 1) 1); [lia|reflexivity].
            + exfalso. destruct (length C =? 1); lia.
          - pose proof (Z.mod_pos_bound (Z.of_nat (length C)) B ltac:(lia)) as MB.
            destruct (Z.leb_spec B (Z.of_nat (Datatypes.S (Z.to_nat (Z.of_nat (length C) mod B))))) as [K|K].
            + assert (Q : (Z.of_nat (length C) mod B = B - 1)%Z) by lia.
              replace (Z.of_nat (length C + 1)) with (Z.of_nat (length C) + 1)%Z by lia.
              rewrite Z.add_mod, Q by lia. destruct (Z.eq_dec B 1); [lia|].
              rewrite (Z.mod_small 1 B) by lia. replace (B - 1 + 1)%Z with B by lia. rewrite Z.mod_same by lia. reflexivity.
            + replace (Z.of_nat (length C + 1)) with (Z.of_nat (length C) + 1)%Z by lia.
              rewrite Z.add_mod by lia. rewrite (Z.mod_small 1 B) by lia. rewrite Z.mod_small by lia. lia. }
        destruct (B <=? _)%Z.
        - destruct (cov_flush_log s1 _ _ _ L1) as (s2 & E2 & L2 & N2).
          { cbn [s1 cv_coverages]. intro K. destruct (cv_coverages s); discriminate. }
          exists s2. rewrite N2, BB. auto.
        - exists s1. rewrite BB. auto. }
      rewrite E2. cbn [bind].
      destruct (IH s2 _ _ _ rows' L2 eq_refl) as (s' & E & LL & BL).
      { rewrite app_length. lia. }
      { exact B2. }
      exists s'. split; [exact E|]. rewrite <- !app_assoc in LL. split; [exact LL|].
      rewrite BL, app_length. cbn [length]. f_equal. lia.
  Qed.
End Cov.

(** ** Whole runs *)
Lemma variables_piece version date pt : ~ In nl version -> ~ In nl date ->
  exists vars g, cov_variables pt = Ok vars /\ reads (file_header version date ++ vars) g /\
    the_list g (L "times") [] /\ the_list g (L "steps") [] /\
    the_list g (L "coverages") (repeat (VList []) (length pt)).
Proof.
  intros Hv Hd. unfold cov_variables.
  assert (W : writable (VList (repeat (VList []) (length pt)))).
  { apply writable_list, Forall_forall. intros v H. apply repeat_spec in H. subst v. exact I. }
  destruct (writable_repr _ W) as [cols Ec]. rewrite Ec. cbn [bind].
  eexists _, _. split; [reflexivity|]. split.
  { eapply reads_app; [apply header_reads; assumption| |].
    - change (L "times = []" ++ [nl] ++ L "steps = []" ++ [nl] ++ L "coverages = " ++ cols ++ [nl] ++ [nl]) with
       ((L "times" ++ L " = []" ++ [nl]) ++ (L "steps" ++ L " = []" ++ [nl]) ++ (L "coverages" ++ L " = " ++ cols ++ [nl] ++ [nl])).
      apply piece_app; [apply empty_line; reflexivity|]. apply piece_app; [apply empty_line; reflexivity|].
      replace (L "coverages" ++ L " = " ++ cols ++ [nl] ++ [nl]) with ((L "coverages" ++ L " = " ++ cols ++ [nl]) ++ [nl])
        by now rewrite <- !app_assoc.
      apply blank_app. exact (assign_line (L "coverages") _ cols eq_refl W Ec).
    - reflexivity. }
  repeat split; reflexivity.
Qed.

Lemma cov_run_ok show version date pt empty ratios B e0 es rows :
  (forall q, number_text (show q) = true) -> ~ In nl version -> ~ In nl date -> Forall type_name pt ->
  mapM (fun e => step_coverages pt empty ratios (e_types e)) (e0 :: es) = Ok rows ->
  exists s pre types_text post,
    cov_run show true (file_header version date) pt empty ratios B e0 es = Ok s /\
    cv_file s = Some (pre ++ types_text ++ post) /\
    get_list_string (L "possible_types") (map (fun t => VStr (quoted t)) pt) 5 = Ok types_text /\
    (leftover B (length es) ->
      file_list (pre ++ post) (L "times") (map (fun e => shown show (e_time e)) (e0 :: es)) /\
      file_list (pre ++ post) (L "steps") (map (fun e => VInt (e_step e)) (e0 :: es)) /\
      file_list (pre ++ post) (L "coverages")
        (map (fun j => VList (map (fun row => shown show (nth j row 0%Q)) rows)) (seq 0 (length pt)))) /\
    (~ leftover B (length es) -> exec_file (pre ++ post) = Err IndexError) /\
    exec_file (pre ++ types_text ++ post) = Err SyntaxError.
Proof.
  intros Hs Hv Hd Ht HM. cbn [mapM] in HM.
  destruct (step_coverages pt empty ratios (e_types e0)) as [c|] eqn:Ec; [|discriminate]. cbn [bind] in HM.
  destruct (mapM _ es) as [rows'|] eqn:Em; [|discriminate]. cbn [bind] in HM. injection HM as <-.
  assert (Hpt : pt <> []). { intros ->. discriminate Ec. }
  destruct (variables_piece version date pt Hv Hd) as (vars & g & EV & RV & V1 & V2 & V3).
  destruct (types_text_ok pt Ht) as [tt ET].
  unfold cov_run, cov_setup, cov_record. rewrite Ec. cbn [bind]. rewrite EV. cbn [bind].
  assert (ET' : cov_types_text pt = Ok tt) by exact ET. rewrite ET'. cbn [bind].
  set (pre := file_header version date ++ vars).
  match goal with |- context[steps_with _ ?x es] => set (s0 := x) end.
  assert (L0 : cov_log show pt pre tt s0 [e_time e0] [e_step e0] [c]).
  { exists [], g, [], [], []. cbn [s0 cv_file cv_times cv_steps cv_coverages cov_new app].
    rewrite app_nil_r. split; [unfold pre; now rewrite <- app_assoc|]. split; [exists []; apply piece_nil|].
    split; [unfold pre; rewrite app_nil_r; exact RV|].
    split; [exact V1|]. split; [exact V2|]. split.
    { assert (CR : forall k m, vlists show (map (column []) (seq k m)) = repeat (VList []) m).
      { intros k m. revert k. induction m as [|m IH]; intro k; [reflexivity|]. cbn [seq map vlists repeat]. f_equal. apply IH. }
      rewrite CR. exact V3. }
    repeat (split; [reflexivity|]). constructor; [exact (step_length _ _ _ _ _ Ec)|constructor]. }
  destruct (cov_steps show pt empty ratios B pre tt Hs es s0 _ _ _ rows' L0 Em) as (s1 & E1 & L1 & B1).
  { cbn. lia. }
  { cbn [length s0 cv_coverages cov_new app]. unfold buffered. destruct (Z.leb_spec B 1); [reflexivity|].
    cbn. rewrite Z.mod_small by lia. reflexivity. }
  rewrite E1. cbn [bind]. unfold cov_finalize. cbn [length] in B1.
  assert (LB : leftover B (length es) <-> buffered B (1 + length es) <> 0).
  { unfold leftover, buffered. destruct (Z.leb_spec B 1) as [H|H].
    - destruct (Nat.eqb_spec (1 + length es) 1); split; intro K; try lia; destruct K as [K|K]; lia.
    - pose proof (Z.mod_pos_bound (Z.of_nat (1 + length es)) B ltac:(lia)). split.
      + intros [K|[_ K]]; [|lia]. rewrite K in *. cbn in *. rewrite (Z.mod_small 1 B) in * by lia. cbn. lia.
      + intro K. right. split; [lia|]. lia. }
  assert (RP : exists sp, piece pre sp) by (destruct RV as (sp & PV & _); eauto).
  destruct RP as [sp PP].
  destruct (cv_coverages s1) as [|c1 cs1] eqn:EC.
  - cbn [length] in B1. destruct (cov_flush_empty show pt pre tt Hs s1 _ _ _ L1 EC Hpt) as (s2 & post & E2 & F2 & X2 & (ss & PS)).
    exists s2, pre, tt, post. split; [exact E2|]. split; [exact F2|]. split; [exact ET|].
    split; [intro K; apply LB in K; congruence|]. split; [intros _; exact X2|].
    exact (types_bad pt tt pre post sp ss Hpt Ht ET PP PS).
  - destruct (cov_flush_log show pt pre tt Hs s1 _ _ _ L1) as (s2 & E2 & L2 & N2); [congruence|].
    destruct L2 as (post & g2 & ft & fs & fc & K1 & (ss & PS) & K3 & K4 & K5 & K6 & K7 & K8 & K9 & K10 & K11 & K12).
    rewrite N2 in K9, K10, K11. destruct (cv_times s2); [|discriminate]. destruct (cv_steps s2); [|discriminate].
    rewrite app_nil_r in K7, K8, K9. subst ft fs fc.
    exists s2, pre, tt, post. split; [exact E2|]. split; [exact K1|]. split; [exact ET|]. split; [|split].
    + intros _. apply reads_exec in K3. split; [|split]; exists g2; (split; [exact K3|]).
      * unfold the_list in K4. rewrite K4. cbn [app map]. rewrite map_map. reflexivity.
      * unfold the_list in K5. rewrite K5. cbn [app map]. rewrite map_map. reflexivity.
      * unfold the_list in K6. rewrite K6. do 3 f_equal. unfold vlists. rewrite map_map. apply map_ext. intro j.
        unfold column. rewrite map_map. reflexivity.
    + intro K. exfalso. apply K, LB. rewrite <- B1. discriminate.
    + exact (types_bad pt tt pre post sp ss Hpt Ht ET PP PS).
Qed.

Lemma cov_other_rank show header pt empty ratios B e0 es s :
  cov_run show false header pt empty ratios B e0 es = Ok s -> cv_file s = None.
Proof.
  unfold cov_run, cov_setup, cov_finalize. intro H.
  destruct (cov_record pt empty ratios cov_new e0) as [s0|] eqn:E0; [|discriminate]. cbn [bind] in H.
  assert (F0 : cv_file s0 = None).
  { unfold cov_record in E0. destruct (step_coverages _ _ _ _); [|discriminate]. injection E0 as <-. reflexivity. }
  destruct (steps_with _ s0 es) as [s1|] eqn:E1; [|discriminate]. cbn [bind] in H. injection H as <-.
  clear E0. revert s0 F0 E1. induction es as [|e es IH]; intros s0 F0 E1; cbn [steps_with] in E1.
  - injection E1 as <-. exact F0.
  - destruct (cov_register _ _ _ _ _ _ s0 e) as [s2|] eqn:E2; [|discriminate]. cbn [bind] in E1.
    apply (IH s2); [|exact E1]. unfold cov_register, cov_record in E2.
    destruct (step_coverages _ _ _ _); [|discriminate]. cbn [bind andb] in E2. injection E2 as <-. exact F0.
Qed.

(** Whatever was in the files before, [setup] of the master process starts them anew. *)
Lemma setup_new_files header table mapping pt empty ratios :
  (forall a b c n f f' e, cov_setup true header pt empty ratios
     {| cv_times := a; cv_steps := b; cv_coverages := c; cv_counter := n; cv_file := f |} e =
   cov_setup true header pt empty ratios
     {| cv_times := a; cv_steps := b; cv_coverages := c; cv_counter := n; cv_file := f' |} e) /\
  (forall a b c d n f f', tof_setup header mapping
     {| tf_times := a; tf_tofs := b; tf_occurencies := c; tf_start := d; tf_counter := n; tf_file := f |} =
   tof_setup header mapping
     {| tf_times := a; tf_tofs := b; tf_occurencies := c; tf_start := d; tf_counter := n; tf_file := f' |}) /\
  (forall a b c d f f', freq_setup header
     {| fq_occurencies := a; fq_steady := b; fq_start := c; fq_end := d; fq_file := f |} =
   freq_setup header
     {| fq_occurencies := a; fq_steady := b; fq_start := c; fq_end := d; fq_file := f' |}) /\
  (forall a b c f f', event_setup true table mapping
     {| ev_buffer := a; ev_previous := b; ev_counter := c; ev_file := f |} =
   event_setup true table mapping
     {| ev_buffer := a; ev_previous := b; ev_counter := c; ev_file := f' |}).
Proof.
  split; [|now repeat split]. intros a b c n f f' e. unfold cov_setup, cov_record.
  now destruct (step_coverages pt empty ratios (e_types e)).
Qed.
