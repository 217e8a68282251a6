(** Tables over two pressures: the loops of /repo/scripts/kmc_plot/map_plot. *)
From Coq Require Import String Ascii List ZArith Bool Arith QArith Lia.
Import ListNotations.
From Verif Require Import PyBase PyBaseFacts PyBase_Spec PyBase_Sound Collect_Model Collect_Spec Collect_Proofs.
Local Open Scope list_scope.

Lemma Forall2_imp {A B} (P Q : A -> B -> Prop) l l' : (forall x y, P x y -> Q x y) -> Forall2 P l l' -> Forall2 Q l l'.
Proof. intros H F. induction F; constructor; auto. Qed.

Lemma last_shift {A} (l : list A) x d : last (x :: l) d = last l x.
Proof.
  revert x. induction l as [|y l IH]; intro x; [reflexivity|].
  change (last (x :: y :: l) d) with (last (y :: l) d). rewrite IH. destruct l as [|z l]; [reflexivity|].
  change (last (y :: z :: l) x) with (last (z :: l) x). rewrite <- (IH y). destruct l as [|w l]; [reflexivity|].
  change (last (y :: z :: w :: l) d) with (last (w :: l) d). change (last (z :: w :: l) x) with (last (w :: l) x).
  clear. revert w. induction l as [|v l IH]; intro w; [reflexivity|]. exact (IH v).
Qed.

Section T.
Context {D : Type} (number : str -> option Q) (pick : D -> res Q).

Lemma read_run_iff d v : read_run pick d = Ok v <-> exists f, d = Some f /\ pick f = Ok v.
Proof.
  destruct d as [f|]; cbn [read_run]; split.
  - eauto.
  - intros (g & E & H). now injection E as ->.
  - discriminate.
  - intros (g & E & _). discriminate.
Qed.

Lemma map_rows_iff rows : forall p0 p os m, map_rows number pick p0 rows = Ok (p, os, m) <->
  exists css, table number pick rows css os m /\ p = last (map Some css) p0.
Proof.
  induction rows as [|[po runs] rows IH]; intros p0 p os m; cbn [map_rows].
  - split.
    + intro H. injection H as <- <- <-. exists []. split; [constructor|reflexivity].
    + intros (css & T & ->). inversion T; subst. reflexivity.
  - rewrite bindok. split.
    + intros (o & A & H). apply bindok in H as (cs & B & H). apply bindok in H as (row & C & H).
      apply bindok in H as ([[p' os'] m'] & E & H). injection H as <- <- <-.
      apply IH in E as (css & T & ->). exists (cs :: css). split.
      * constructor; [|assumption]. split; [now apply to_float_iff in A|]. split.
        -- apply mapM_ok_iff in B. eapply Forall2_imp; [|exact B]. intros x y. apply to_float_iff.
        -- apply mapM_ok_iff in C. eapply Forall2_imp; [|exact C]. intros x y. apply read_run_iff.
      * symmetry. apply last_shift.
    + intros (css & T & ->). inversion T as [|r rows' o cs row css' os' m' (A & B & C) T']; subst. cbn [fst snd] in *.
      exists o. split; [now apply to_float_iff|]. apply bindok. exists cs. split.
      { apply mapM_ok_iff. eapply Forall2_imp; [|exact B]. intros x y. apply to_float_iff. }
      apply bindok. exists row. split.
      { apply mapM_ok_iff. eapply Forall2_imp; [|exact C]. intros x y. apply read_run_iff. }
      apply bindok. exists (last (map Some css') (Some cs), os', m'). split; [apply IH; eauto|].
      cbn [map]. now rewrite last_shift.
Qed.

Lemma last_map_some {A} (l : list A) x : last (map Some l) None = Some x <-> exists l', l = l' ++ [x].
Proof.
  split.
  - destruct l as [|y l] using rev_ind; [discriminate|]. rewrite map_app. cbn [map]. rewrite last_last.
    intro H. injection H as ->. eauto.
  - intros (l' & ->). rewrite map_app. cbn [map]. apply last_last.
Qed.

(** The saved arrays: the table, and as pressures of the columns those of the last row. *)
Lemma extract_map_iff rows cs os m : extract_map number pick rows = Ok (cs, os, m) <->
  exists css, table number pick rows (css ++ [cs]) os m.
Proof.
  unfold extract_map. rewrite bindok. split.
  - intros ([[p os'] m'] & A & B). destruct p as [cs'|]; [|discriminate]. injection B as -> -> ->.
    apply map_rows_iff in A as (css & T & E). symmetry in E. apply last_map_some in E as (css' & ->). eauto.
  - intros (css & T). exists (Some cs, os, m). split; [|reflexivity]. apply map_rows_iff.
    exists (css ++ [cs]). split; [assumption|]. symmetry. apply last_map_some. eauto.
Qed.

Lemma table_nth rows css os m : table number pick rows css os m -> forall i, (i < length rows)%nat ->
  exists r o cs row, nth_error rows i = Some r /\ nth_error os i = Some o /\ nth_error css i = Some cs /\
    nth_error m i = Some row /\ row_of number pick r o cs row.
Proof.
  induction 1 as [|r rows o cs row css os m R T IH]; intros i Hi; [cbn in Hi; lia|].
  destruct i as [|i]; [exists r, o, cs, row; cbn; auto|]. cbn [length] in Hi.
  destruct (IH i ltac:(lia)) as (r' & o' & cs' & row' & X). exists r', o', cs', row'. exact X.
Qed.

Lemma table_lengths rows css os m : table number pick rows css os m ->
  length css = length rows /\ length os = length rows /\ length m = length rows.
Proof. induction 1; cbn [length]; [auto|lia]. Qed.

Lemma Forall2_nth {A B} (P : A -> B -> Prop) l l' : Forall2 P l l' -> forall j y, nth_error l' j = Some y ->
  exists x, nth_error l j = Some x /\ P x y.
Proof.
  induction 1 as [|x y l l' R F IH]; intros [|j] z H; try discriminate; cbn in *.
  - injection H as <-. eauto.
  - auto.
Qed.

(** When all rows have runs at the same pressures, every cell holds the result of the run at its two
    pressures. *)
Lemma cells rows cs os m i j row o c v : extract_map number pick rows = Ok (cs, os, m) ->
  (forall r1 r2, In r1 rows -> In r2 rows -> map fst (snd r1) = map fst (snd r2)) ->
  nth_error m i = Some row -> nth_error row j = Some v -> nth_error os i = Some o -> nth_error cs j = Some c ->
  run_at number pick rows o c v.
Proof.
  intros H HS Hm Hv Ho Hc. apply extract_map_iff in H as (css & T).
  pose proof (table_lengths _ _ _ _ T) as (L1 & L2 & L3).
  assert (i < length rows)%nat as Hi by (rewrite <- L3; apply nth_error_Some; congruence).
  destruct (table_nth _ _ _ _ T i Hi) as ([po runs] & o' & cs' & row' & A & B & C & E & (R1 & R2 & R3)).
  rewrite B in Ho. injection Ho as ->. rewrite E in Hm. injection Hm as ->. cbn [fst snd] in *.
  destruct (Forall2_nth _ _ _ R3 j v Hv) as ([pc f0] & HR & f & EF & HP). cbn [snd] in EF. subst f0.
  rewrite app_length in L1. cbn [length] in L1.
  destruct (table_nth _ _ _ _ T (length css) ltac:(lia)) as ([po2 runs2] & o2 & cs2 & row2 & A2 & _ & C2 & _ & (_ & R5 & _)).
  rewrite nth_error_app2, Nat.sub_diag in C2 by lia. cbn in C2. injection C2 as <-. cbn [fst snd] in *.
  destruct (Forall2_nth _ _ _ R5 j c Hc) as ([pc2 f2] & HR2 & HN). cbn [fst] in HN.
  assert (In (po, runs) rows) as HI by (eapply nth_error_In; eassumption).
  assert (In (po2, runs2) rows) as HI2 by (eapply nth_error_In; eassumption).
  pose proof (HS _ _ HI HI2) as EQ. cbn [snd] in EQ.
  assert (pc = pc2) as <-.
  { apply (map_nth_error fst) in HR. apply (map_nth_error fst) in HR2. rewrite EQ in HR. cbn [fst] in *. congruence. }
  exists po, runs, pc, f. split; [assumption|]. split; [eapply nth_error_In; eassumption|]. auto.
Qed.

Lemma table_total rows : (forall po runs, In (po, runs) rows -> (exists o, number po = Some o) /\
    forall pc d, In (pc, d) runs -> (exists c, number pc = Some c) /\ exists f v, d = Some f /\ pick f = Ok v) ->
  exists css os m, table number pick rows css os m.
Proof.
  induction rows as [|[po runs] rows IH]; intro H; [exists [], [], []; constructor|].
  destruct IH as (css & os & m & T); [intros; eapply H; right; eassumption|].
  destruct (H po runs (or_introl eq_refl)) as [[o Ho] HR]. clear H.
  assert (exists cs row, Forall2 (fun x c => number (fst x) = Some c) runs cs /\
    Forall2 (fun x v => exists f, snd x = Some f /\ pick f = Ok v) runs row) as (cs & row & F1 & F2).
  { induction runs as [|[pc d] runs IHr]; [exists [], []; split; constructor|].
    destruct IHr as (cs & row & F1 & F2); [intros; eapply HR; right; eassumption|].
    destruct (HR pc d (or_introl eq_refl)) as [[c Hc] (f & v & -> & Hv)].
    exists (c :: cs), (v :: row). split; constructor; cbn [fst snd]; eauto. }
  exists (cs :: css), (o :: os), (row :: m). constructor; [|assumption]. split; auto.
Qed.

Lemma extract_map_total rows : rows <> [] -> (forall po runs, In (po, runs) rows -> (exists o, number po = Some o) /\
    forall pc d, In (pc, d) runs -> (exists c, number pc = Some c) /\ exists f v, d = Some f /\ pick f = Ok v) ->
  exists r, extract_map number pick rows = Ok r.
Proof.
  intros HN H. destruct (table_total rows H) as (css & os & m & T).
  destruct css as [|cs css _] using rev_ind.
  - inversion T; subst. contradiction.
  - exists (cs, os, m). apply extract_map_iff. eauto.
Qed.

Lemma extract_map_none : extract_map number pick [] = Err NameError.
Proof. reflexivity. Qed.

(** A missing file: the error of the system call. *)
Lemma mapM_missing (runs : list (str * option D)) : (exists pc, In (pc, None) runs) ->
  (forall pc f, In (pc, Some f) runs -> exists v, pick f = Ok v) ->
  mapM (fun r => read_run pick (snd r)) runs = Err IOError.
Proof.
  induction runs as [|[pc [f|]] runs IH]; intros [pc' HI] H; [destruct HI| |reflexivity].
  destruct HI as [E|HI]; [discriminate|]. cbn [mapM snd read_run].
  destruct (H pc f (or_introl eq_refl)) as [v ->]. cbn [bind].
  rewrite IH; [reflexivity|eauto|]. intros; eapply H; right; eassumption.
Qed.

Lemma extract_map_missing rows : (exists po runs pc, In (po, runs) rows /\ In (pc, None) runs) ->
  (forall po runs, In (po, runs) rows -> (exists o, number po = Some o) /\
    (forall pc d, In (pc, d) runs -> exists c, number pc = Some c) /\
    forall pc f, In (pc, Some f) runs -> exists v, pick f = Ok v) ->
  extract_map number pick rows = Err IOError.
Proof.
  intros HM H. unfold extract_map.
  enough (forall p0, map_rows number pick p0 rows = Err IOError) as -> by reflexivity.
  induction rows as [|[po runs] rows IH]; intro p0; [destruct HM as (? & ? & ? & [] & _)|].
  cbn [map_rows]. destruct (H po runs (or_introl eq_refl)) as ([o Ho] & HC & HP).
  unfold to_float at 1. rewrite Ho. cbn [bind].
  assert (exists cs, mapM (fun r => to_float number (fst r)) runs = Ok cs) as [cs ->].
  { clear -HC. induction runs as [|[pc d] runs IHr]; [eexists; reflexivity|]. cbn [mapM fst].
    destruct (HC pc d (or_introl eq_refl)) as [c Hc]. unfold to_float at 1. rewrite Hc. cbn [bind].
    destruct IHr as [cs ->]; [intros; eapply HC; right; eassumption|]. eexists; reflexivity. }
  cbn [bind].
  assert ((exists pc, In (pc, None) runs) \/ ~ exists pc, In (pc, @None D) runs) as [HN|HN].
  { clear. induction runs as [|[pc d] runs IH].
    - right. intros [pc []].
    - destruct d as [f|]; [|left; exists pc; now left]. destruct IH as [[pc' IH]|IH].
      + left. exists pc'. now right.
      + right. intros [pc' [E|X]]; [discriminate|]. apply IH. eauto. }
  - rewrite (mapM_missing runs HN HP). reflexivity.
  - assert (exists row, mapM (fun r => read_run pick (snd r)) runs = Ok row) as [row ->].
    { clear -HN HP. induction runs as [|[pc [f|]] runs IHr]; [eexists; reflexivity| |].
      - cbn [mapM snd read_run]. destruct (HP pc f (or_introl eq_refl)) as [v ->]. cbn [bind].
        destruct IHr as [row ->]; [intros; eapply HP; right; eassumption|intros [pc' X]; apply HN; exists pc'; now right|].
        eexists; reflexivity.
      - exfalso. apply HN. exists pc. now left. }
    cbn [bind]. rewrite IH; [reflexivity| |].
    + destruct HM as (po' & runs' & pc & [E|HI] & HX); [|eauto]. injection E as <- <-. exfalso. apply HN. eauto.
    + intros; eapply H; right; eassumption.
Qed.
End T.

(** ** Which coverage is read *)
Lemma from_end_iff {A} (l : list A) k x : from_end l k = Ok x <-> exists a b, l = a ++ x :: b /\ length b = k.
Proof.
  unfold from_end. rewrite at_index_iff. split.
  - intro H. apply nth_error_split in H as (a & b & E & HL). exists (rev b), (rev a). split.
    + rewrite <- (rev_involutive l), E, rev_app_distr. cbn [rev]. now rewrite <- app_assoc.
    + now rewrite rev_length.
  - intros (a & b & -> & <-). rewrite rev_app_distr. cbn [rev]. rewrite <- app_assoc, nth_error_app2 by (rewrite rev_length; lia).
    now rewrite rev_length, Nat.sub_diag.
Qed.

Lemma pick_O_iff f x : pick_O f = Ok x <-> exists a l b, c_coverages f = a ++ [l ++ [x]; b].
Proof.
  unfold pick_O. rewrite bindok. split.
  - intros (l & A & B). apply from_end_iff in A as (a & b & E & HL). apply (proj1 (llast_iff l)) in B as [l' ->].
    destruct b as [|b [|? ?]]; try discriminate. eauto.
  - intros (a & l & b & E). exists (l ++ [x]). split; [|apply llast_app]. apply from_end_iff. rewrite E. exists a, [b]. auto.
Qed.
Lemma pick_CO_iff f x : pick_CO f = Ok x <-> exists a l, c_coverages f = a ++ [l ++ [x]].
Proof.
  unfold pick_CO. rewrite bindok. split.
  - intros (l & A & B). apply from_end_iff in A as (a & b & E & HL). apply (proj1 (llast_iff l)) in B as [l' ->].
    destruct b as [|? ?]; try discriminate. eauto.
  - intros (a & l & E). exists (l ++ [x]). split; [|apply llast_app]. apply from_end_iff. rewrite E. exists a, []. auto.
Qed.

(** When O and CO are the last two types, it is theirs. *)
Lemma pick_types f a nO nCO : c_types f = a ++ [nO; nCO] -> NoDup (c_types f) -> length (c_coverages f) = length (c_types f) ->
  (forall x, pick_O f = Ok x <-> last_of_type f nO x) /\ (forall x, pick_CO f = Ok x <-> last_of_type f nCO x).
Proof.
  intros HT HN HL. rewrite HT in HN, HL. rewrite app_length in HL. cbn [length] in HL.
  assert (exists c u v, c_coverages f = c ++ [u; v] /\ length c = length a) as (c & u & v & HC & Lc).
  { destruct (c_coverages f) as [|v c _] using rev_ind; [cbn in HL; lia|].
    destruct c as [|u c _] using rev_ind; [cbn in HL; lia|]. rewrite !app_length in HL. cbn in HL.
    exists c, u, v. rewrite <- app_assoc. split; [reflexivity|lia]. }
  assert (~ In nO a /\ ~ In nCO (a ++ [nO])) as [N1 N2].
  { split.
    - apply NoDup_remove_2 in HN. intro X. apply HN. apply in_or_app. now left.
    - change [nO; nCO] with ([nO] ++ [nCO]) in HN. rewrite app_assoc in HN. apply NoDup_remove_2 in HN.
      now rewrite app_nil_r in HN. }
  assert (first_place nO (c_types f) (length a)) as F1 by (exists a, [nCO]; auto).
  assert (first_place nCO (c_types f) (S (length a))) as F2.
  { exists (a ++ [nO]), []. rewrite HT, <- app_assoc. split; [reflexivity|]. split; [assumption|].
    rewrite app_length. cbn. lia. }
  split; intro x.
  - rewrite pick_O_iff. unfold last_of_type. rewrite HC. split.
    + intros (c' & l & b & E). exists (length a), l. split; [assumption|].
      rewrite nth_error_app2, Lc, Nat.sub_diag by lia. cbn.
      change [u; v] with ([u] ++ [v]) in E. change [l ++ [x]; b] with ([l ++ [x]] ++ [b]) in E.
      rewrite !app_assoc in E. apply app_inj_tail in E as [E _]. apply app_inj_tail in E as [_ ->]. reflexivity.
    + intros (i & l & FI & E). apply index_of_iff in FI. apply index_of_iff in F1. assert (i = length a) as -> by congruence.
      rewrite nth_error_app2, Lc, Nat.sub_diag in E by lia. cbn in E. injection E as ->. exists c, l, v. reflexivity.
  - rewrite pick_CO_iff. unfold last_of_type. rewrite HC. split.
    + intros (c' & l & E). exists (S (length a)), l. split; [assumption|].
      rewrite nth_error_app2, Lc by lia. replace (S (length a) - length a)%nat with 1%nat by lia. cbn.
      change [u; v] with ([u] ++ [v]) in E. rewrite app_assoc in E. apply app_inj_tail in E as [_ ->]. reflexivity.
    + intros (i & l & FI & E). apply index_of_iff in FI. apply index_of_iff in F2. assert (i = S (length a)) as -> by congruence.
      rewrite nth_error_app2, Lc in E by lia. replace (S (length a) - length a)%nat with 1%nat in E by lia. cbn in E.
      injection E as ->. exists (c ++ [u]), l. now rewrite <- app_assoc.
Qed.
