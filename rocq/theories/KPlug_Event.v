(** The event plugin. *)
From Coq Require Import String Ascii List ZArith NArith Bool Arith QArith Lia Lqa.
Import ListNotations.
From Verif Require Import PyBase PyBaseFacts PyData_Model PyData_Proofs KCov_Model KPlug_Model KPlug_Spec.
Local Open Scope list_scope.
Local Open Scope nat_scope.

Lemma qsum_total l : (qsum l == fold_right Qplus 0 l)%Q.
Proof.
  unfold qsum. assert (G : forall l a, (fold_left Qplus l a == a + fold_right Qplus 0 l)%Q).
  { clear. induction l as [|x l IH]; intro a; cbn [fold_left fold_right]; [ring|]. rewrite IH. ring. }
  rewrite G. ring.
Qed.

Lemma table_ok mapping e n :
  length mapping = n -> length (e_sites e) = n -> length (e_rates e) = n -> ~ (total_rate e == 0)%Q ->
  exists t, interactions_table mapping e = Ok t /\ length t = n /\
    (forall i row, nth_error t i = Some row -> exists rxn sites rate p,
       row = (i, rxn, sites, (inject_Z sites * rate)%Q, p) /\
       nth_error mapping i = Some rxn /\ nth_error (e_sites e) i = Some sites /\ nth_error (e_rates e) i = Some rate /\
       (p * total_rate e == inject_Z sites * rate)%Q) /\
    (n <> 0 -> (fold_right Qplus 0 (map row_probability t) == 1)%Q).
Proof.
  intros H1 H2 H3 HZ. unfold interactions_table.
  set (tr := map (fun p => (inject_Z (fst p) * snd p)%Q) (combine (e_sites e) (e_rates e))).
  assert (QS : (qsum tr == total_rate e)%Q) by apply qsum_total.
  assert (QB : Qeq_bool (qsum tr) 0 = false).
  { destruct (Qeq_bool (qsum tr) 0) eqn:B; [|reflexivity]. apply Qeq_bool_iff in B. exfalso. apply HZ. now rewrite <- QS. }
  assert (PM : forall l, mapM (fun r => if Qeq_bool (qsum tr) 0 then Err ZeroDivisionError else Ok (r / qsum tr)%Q) l =
      Ok (map (fun r => (r / qsum tr)%Q) l)).
  { induction l as [|x l IH]; [reflexivity|]. cbn [mapM map]. rewrite IH, QB. reflexivity. }
  cbv zeta. rewrite PM. cbn [bind]. eexists. split; [reflexivity|].
  assert (LT : length tr = n).
  { unfold tr. rewrite map_length, combine_length. lia. }
  split; [|split].
  - rewrite map_length, !combine_length, seq_length, map_length. lia.
  - intros i row H. rewrite nth_error_map in H.
    destruct (nth_error (combine _ _) i) as [[k [rxn [sites [r p]]]]|] eqn:E; [|discriminate]. injection H as <-.
    assert (NC : forall A B (a : list A) (b : list B) x y, nth_error (combine a b) i = Some (x, y) ->
       nth_error a i = Some x /\ nth_error b i = Some y).
    { clear. intros A B a b x y. revert a b. induction i as [|i IH]; intros [|u a] [|v b] H; cbn in *; try discriminate.
      - injection H as <- <-. auto.
      - auto. }
    apply NC in E as [E1 E]. apply NC in E as [E2 E]. apply NC in E as [E3 E]. apply NC in E as [E4 E5].
    assert (k = i).
    { pose proof (nth_error_nth _ _ 0 E1) as K. rewrite seq_nth in K; [now subst|].
      rewrite <- (seq_length (length mapping) 0). apply nth_error_Some. congruence. }
    subst k. unfold tr in E4. rewrite nth_error_map in E4.
    destruct (nth_error (combine (e_sites e) (e_rates e)) i) as [[a b]|] eqn:E6; [|discriminate]. injection E4 as <-.
    apply NC in E6 as [E6 E7]. cbn [fst snd] in *. rewrite E3 in E6. injection E6 as <-.
    exists rxn, sites, b, p. repeat (split; [assumption || reflexivity|]).
    rewrite nth_error_map in E5. unfold tr in E5. rewrite nth_error_map in E5.
    destruct (nth_error (combine (e_sites e) (e_rates e)) i) as [[a' b']|] eqn:E8; [|discriminate].
    injection E5 as <-. apply NC in E8 as [E8 E9]. cbn [fst snd]. rewrite E3 in E8. rewrite E7 in E9.
    injection E8 as <-. injection E9 as <-. fold tr. rewrite QS. field. exact HZ.
  - intros Hn.
    assert (MP : map row_probability (map (fun p => match p with (i, (rxn, (n0, (r, pr)))) => (i, rxn, n0, r, pr) end)
         (combine (seq 0 (length mapping)) (combine mapping (combine (e_sites e) (combine tr (map (fun r => (r / qsum tr)%Q) tr))))))
       = map (fun r => (r / qsum tr)%Q) tr).
    { rewrite map_map.
      assert (G : forall A B C D (s : list A) (m : list B) (x : list C) (y : list D) (z : list Q), length s = length m -> length m = length x ->
         length x = length y -> length y = length z ->
         map (fun q : A * (B * (C * (D * Q))) => snd (snd (snd (snd q)))) (combine s (combine m (combine x (combine y z)))) = z).
      { clear. intros A B C D. induction s as [|a s IH]; intros [|b m] [|c x] [|d y] [|e z] K1 K2 K3 K4; try discriminate; [reflexivity|].
        cbn [combine map snd]. f_equal. apply IH; (cbn in *; lia). }
      etransitivity; [|apply (G nat str Z Q (seq 0 (length mapping)) mapping (e_sites e) tr)].
      - apply map_ext. intros (i & rxn & n0 & r & pr). reflexivity.
      - apply seq_length.
      - lia.
      - lia.
      - now rewrite map_length. }
    rewrite MP.
    assert (SD : forall s l, ~ (s == 0)%Q -> (fold_right Qplus 0 (map (fun r => r / s) l) * s == fold_right Qplus 0 l)%Q).
    { clear. intros s l Hs. induction l as [|x l IH]; cbn [map fold_right]; [ring|].
      rewrite Qmult_plus_distr_l, IH. field. exact Hs. }
    assert (NZ : ~ (qsum tr == 0)%Q) by (rewrite QS; exact HZ).
    specialize (SD (qsum tr) tr NZ). rewrite <- (qsum_total tr) in SD.
    apply (Qmult_inj_r _ _ (qsum tr) NZ). etransitivity; [exact SD|]. ring.
Qed.

Lemma table_zero mapping e : combine (e_sites e) (e_rates e) <> [] -> (total_rate e == 0)%Q ->
  interactions_table mapping e = Err ZeroDivisionError.
Proof.
  intros N Z. unfold interactions_table. unfold total_rate in Z. rewrite <- qsum_total in Z.
  destruct (combine (e_sites e) (e_rates e)) as [|p l]; [congruence|]. cbn [map mapM] in *.
  apply Qeq_bool_iff in Z. cbn zeta. rewrite Z. reflexivity.
Qed.

Section Event.
  Variables (render : Z -> list ev_row -> nat -> str) (process_table : list str -> str).
  Variables (mapping : list str) (B : Z).

  Lemma event_steps es : forall s text tables,
    ev_file s = Some text ->
    mapM (interactions_table mapping) es = Ok tables ->
    exists s' text', steps_with (event_register true render mapping B) s es = Ok s' /\ ev_file s' = Some text' /\
      text' ++ ev_buffer s' = text ++ ev_buffer s ++ event_texts render (ev_previous s :: tables) es.
  Proof.
    induction es as [|e es IH]; intros s text tables HF HM; cbn [mapM] in HM.
    - injection HM as <-. exists s, text. split; [reflexivity|]. split; [exact HF|]. cbn. now rewrite app_nil_r.
    - destruct (interactions_table mapping e) as [t|] eqn:Et; [|discriminate]. cbn [bind] in HM.
      destruct (mapM _ es) as [ts|] eqn:Em; [|discriminate]. injection HM as <-.
      cbn [steps_with]. unfold event_register at 1. rewrite Et. cbn [bind andb].
      set (prev := ev_previous s).
      set (bc := match prev with [] => (ev_buffer s, ev_counter s)
                 | e0 :: l => (ev_buffer s ++ render (e_step e) (e0 :: l) (e_picked e), (ev_counter s + 1)%Z) end).
      assert (BC : fst bc = ev_buffer s ++ (match prev with [] => [] | _ => render (e_step e) prev (e_picked e) end)).
      { unfold bc. destruct prev; [now rewrite app_nil_r|reflexivity]. }
      change (match prev with
              | [] => (ev_buffer s, ev_counter s)
              | e0 :: l => (ev_buffer s ++ render (e_step e) (e0 :: l) (e_picked e), (ev_counter s + 1)%Z) end) with bc.
      destruct bc as [buffer counter]. cbn [fst] in BC. cbn iota beta.
      set (s1 := {| ev_buffer := buffer; ev_previous := t; ev_counter := counter; ev_file := ev_file s |}).
      assert (exists s2 text2, (if (B <=? counter)%Z then Ok (event_flush s1) else Ok s1) = Ok s2 /\
         ev_file s2 = Some text2 /\ ev_previous s2 = t /\ text2 ++ ev_buffer s2 = text ++ buffer) as (s2 & text2 & E2 & F2 & P2 & X2).
      { destruct (B <=? counter)%Z.
        - exists (event_flush s1), (text ++ buffer). cbn. rewrite HF, app_nil_r. auto.
        - exists s1, text. cbn. auto. }
      rewrite E2. cbn [bind].
      destruct (IH s2 text2 ts F2 eq_refl) as (s' & text' & E & F & X).
      exists s', text'. split; [exact E|]. split; [exact F|]. rewrite X, P2, app_assoc, X2, BC.
      cbn [event_texts]. fold prev. rewrite <- !app_assoc. reflexivity.
  Qed.

  Lemma event_file es tables : mapM (interactions_table mapping) es = Ok tables ->
    exists s, event_run true render process_table mapping B es = Ok s /\
      ev_file s = Some (process_table mapping ++ [nl] ++ event_texts render tables (tl es)).
  Proof.
    intro HM. unfold event_run.
    destruct (event_steps es (event_setup true process_table mapping event_new) (process_table mapping ++ [nl]) tables eq_refl HM)
      as (s' & text & E & F & X).
    rewrite E. cbn [bind]. eexists. split; [reflexivity|]. cbn [event_finalize]. unfold event_flush. cbn [ev_file].
    rewrite F. cbn [append_file]. rewrite X. cbn [event_setup ev_buffer ev_previous event_new app].
    f_equal. rewrite <- app_assoc. do 2 f_equal.
    destruct es as [|e es]; cbn [event_texts tl app].
    - cbn in HM. injection HM as <-. reflexivity.
    - destruct tables; reflexivity.
  Qed.
End Event.

(** When the buffer is written: [b] is the buffer size. *)
Section Flushes.
  Variables (render : Z -> list ev_row -> nat -> str) (process_table : list str -> str).
  Variables (mapping : list str) (b : nat).
  Hypothesis Hb : 1 <= b.

  Definition written (c n : nat) : nat := b * ((c + n) / b) - c.

  Lemma event_flushes es : forall s text tables c,
    ev_file s = Some text -> ev_counter s = Z.of_nat c -> c < b ->
    ev_previous s <> [] -> Forall (fun t => t <> []) tables ->
    mapM (interactions_table mapping) es = Ok tables ->
    exists s', steps_with (event_register true render mapping (Z.of_nat b)) s es = Ok s' /\
      ev_counter s' = Z.of_nat ((c + length es) mod b) /\
      (c + length es < b ->
         ev_file s' = Some text /\
         ev_buffer s' = ev_buffer s ++ event_texts render (ev_previous s :: tables) es) /\
      (b <= c + length es ->
         let k := written c (length es) in
         ev_file s' = Some (text ++ ev_buffer s ++ event_texts render (ev_previous s :: tables) (firstn k es)) /\
         ev_buffer s' = event_texts render (skipn k (ev_previous s :: tables)) (skipn k es)).
  Proof.
    induction es as [|e es IH]; intros s text tables c HF HC LT HP NT HM; cbn [mapM] in HM.
    - injection HM as <-. exists s. split; [reflexivity|]. cbn [length]. rewrite Nat.add_0_r.
      split; [rewrite Nat.mod_small by exact LT; exact HC|]. split.
      + intros _. split; [exact HF|]. cbn. now rewrite app_nil_r.
      + intros H. lia.
    - destruct (interactions_table mapping e) as [t|] eqn:Et; [|discriminate]. cbn [bind] in HM.
      destruct (mapM _ es) as [ts|] eqn:Em; [|discriminate]. injection HM as <-.
      inversion NT as [|? ? NT1 NT2]; subst.
      cbn [steps_with]. unfold event_register at 1. rewrite Et. cbn [bind andb].
      destruct (ev_previous s) as [|p0 prev] eqn:EP; [congruence|].
      set (rd := render (e_step e) (p0 :: prev) (e_picked e)).
      rewrite HC. replace (Z.of_nat c + 1)%Z with (Z.of_nat (S c)) by lia.
      set (s1 := {| ev_buffer := ev_buffer s ++ rd; ev_previous := t; ev_counter := Z.of_nat (S c);
                    ev_file := ev_file s |}).
      destruct (Z.leb_spec (Z.of_nat b) (Z.of_nat (S c))) as [FL|NF].
      + assert (CB : c + 1 = b) by lia. cbn [bind].
        destruct (IH (event_flush s1) (text ++ ev_buffer s ++ rd) ts 0) as (s' & E & C & LO & HI); auto.
        * cbn. rewrite HF. reflexivity.
        * exists s'. split; [exact E|].
          assert (SUM : c + length (e :: es) = length es + 1 * b) by (cbn [length]; lia).
          split; [|split].
          -- rewrite SUM, Nat.mod_add by lia. exact C.
          -- intros H. cbn [length] in H. lia.
          -- intros _. cbv zeta.
             assert (K : written c (length (e :: es)) = S (b * (length es / b))).
             { unfold written. rewrite SUM, Nat.div_add by lia. rewrite Nat.mul_add_distr_l. lia. }
             rewrite K. cbn [firstn skipn event_texts].
             destruct (Nat.lt_ge_cases (length es) b) as [LS|GE].
             ++ destruct (LO LS) as [L1 L2]. rewrite Nat.div_small, Nat.mul_0_r by exact LS.
                cbn [firstn skipn event_texts]. rewrite app_nil_r. fold rd. split; [exact L1|].
                rewrite L2. cbn. reflexivity.
             ++ destruct (HI GE) as [H1 H2]. unfold written in H1, H2. cbn [Nat.add] in H1, H2.
                rewrite Nat.sub_0_r in H1, H2. cbn [event_flush ev_buffer ev_previous s1 app] in H1, H2.
                fold rd. split; [|exact H2]. rewrite H1. rewrite <- !app_assoc. reflexivity.
      + assert (CB : S c < b) by lia. cbn [bind].
        destruct (IH s1 text ts (S c)) as (s' & E & C & LO & HI); auto.
        exists s'. split; [exact E|].
        assert (SUM : c + length (e :: es) = S c + length es) by (cbn [length]; lia).
        rewrite SUM. split; [exact C|]. split.
        * intros H. destruct (LO H) as [L1 L2]. split; [exact L1|]. rewrite L2. cbn [ev_buffer ev_previous s1 event_texts].
          fold rd. rewrite <- app_assoc. reflexivity.
        * intros H. destruct (HI H) as [H1 H2]. cbv zeta.
          assert (K : written c (length (e :: es)) = S (written (S c) (length es))).
          { unfold written. rewrite SUM.
            assert (1 <= (S c + length es) / b) by (apply Nat.div_le_lower_bound; lia).
            assert (b * 1 <= b * ((S c + length es) / b)) by (apply Nat.mul_le_mono_l; assumption). lia. }
          rewrite K. cbn [firstn skipn event_texts]. fold rd. split; [|exact H2].
          rewrite H1. cbn [ev_buffer ev_previous s1]. rewrite <- !app_assoc. reflexivity.
  Qed.

  (** After the first step and any number of later ones. *)
  Lemma event_written e0 es tables :
    mapM (interactions_table mapping) (e0 :: es) = Ok tables -> Forall (fun t => t <> []) tables ->
    let k := b * (length es / b) in
    exists s, steps_with (event_register true render mapping (Z.of_nat b))
                (event_setup true process_table mapping event_new) (e0 :: es) = Ok s /\
      ev_file s = Some (process_table mapping ++ [nl] ++ event_texts render tables (firstn k es)) /\
      ev_buffer s = event_texts render (skipn k tables) (skipn k es).
  Proof.
    intros HM NT. cbn [mapM] in HM.
    destruct (interactions_table mapping e0) as [t|] eqn:Et; [|discriminate]. cbn [bind] in HM.
    destruct (mapM _ es) as [ts|] eqn:Em; [|discriminate]. injection HM as <-.
    inversion NT as [|? ? NT1 NT2]; subst.
    cbn [steps_with]. unfold event_register at 1. rewrite Et. cbn [bind andb].
    cbn [event_setup event_new ev_previous ev_buffer ev_counter ev_file].
    destruct (Z.leb_spec (Z.of_nat b) 0) as [FL|NF]; [lia|]. cbn [bind].
    set (s1 := {| ev_buffer := []; ev_previous := t; ev_counter := 0;
                  ev_file := Some (process_table mapping ++ [nl]) |}).
    destruct (event_flushes es s1 (process_table mapping ++ [nl]) ts 0) as (s' & E & C & LO & HI); auto.
    cbv zeta. exists s'. split; [exact E|].
    destruct (Nat.lt_ge_cases (length es) b) as [LS|GE].
    - destruct (LO LS) as [L1 L2]. rewrite Nat.div_small, Nat.mul_0_r by exact LS.
      cbn [firstn skipn event_texts]. rewrite app_nil_r. split; [exact L1|exact L2].
    - destruct (HI GE) as [H1 H2]. unfold written in H1, H2. cbn [Nat.add] in H1, H2.
      rewrite Nat.sub_0_r in H1, H2. cbn [ev_buffer ev_previous s1 app] in H1, H2.
      split; [|exact H2]. rewrite H1, <- app_assoc. reflexivity.
  Qed.
End Flushes.

Lemma event_other_rank render process_table mapping B es s :
  event_run false render process_table mapping B es = Ok s -> ev_file s = None.
Proof.
  unfold event_run, event_setup, event_finalize. intro H.
  destruct (steps_with _ event_new es) as [s1|] eqn:E; [|discriminate]. cbn [bind] in H. injection H as <-.
  assert (F0 : ev_file event_new = None) by reflexivity. revert F0 E. generalize event_new.
  induction es as [|e es IH]; intros s0 F0 E; cbn [steps_with] in E.
  - injection E as <-. exact F0.
  - destruct (event_register _ _ _ _ s0 e) as [s2|] eqn:E2; [|discriminate]. cbn [bind] in E.
    apply (IH s2); [|exact E]. unfold event_register in E2. destruct (interactions_table mapping e); [|discriminate].
    cbn [bind] in E2. destruct (match ev_previous s0 with [] => _ | _ => _ end). cbn [andb] in E2.
    injection E2 as <-. exact F0.
Qed.
