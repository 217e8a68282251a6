(** The loops over the jobs. *)
From Coq Require Import String Ascii List ZArith Bool Arith Lia.
Import ListNotations.
From Verif Require Import PyBase PyBaseFacts PyData_Model PyData_Spec Jobs_Model Jobs_Read Jobs_Spec Jobs_Proofs.
Local Open Scope list_scope.

Section Dict.
Context {V : Type}.
Implicit Type d : dict V.
Lemma dset_dset d k (a b : V) : dset (dset d k a) k b = dset d k b.
Proof.
  induction d as [|[k' v] d IH]; cbn [dset].
  - rewrite str_eqb_refl. reflexivity.
  - destruct (str_eqb k k') eqn:E; cbn [dset]; rewrite E; [reflexivity|]. now rewrite IH.
Qed.
Lemma dset_comm d k k' (a b : V) : k <> k' -> In k (map fst d) -> In k' (map fst d) ->
  dset (dset d k a) k' b = dset (dset d k' b) k a.
Proof.
  intro N. induction d as [|[x v] d IH]; cbn [map fst]; intros H H'; [destruct H|].
  cbn [dset]. destruct (str_eqb_spec k x) as [->|NE]; destruct (str_eqb_spec k' x) as [->|NE'].
  - congruence.
  - cbn [dset]. rewrite str_eqb_refl. rewrite (proj2 (str_eqb_neq k' x) NE'). reflexivity.
  - cbn [dset]. rewrite str_eqb_refl. rewrite (proj2 (str_eqb_neq k x) NE). reflexivity.
  - cbn [dset]. rewrite (proj2 (str_eqb_neq k x) NE), (proj2 (str_eqb_neq k' x) NE').
    destruct H as [->|H]; [congruence|]. destruct H' as [->|H']; [congruence|]. now rewrite IH.
Qed.
Lemma dget_dset_same d k (v : V) : dget (dset d k v) k = Some v.
Proof. rewrite dget_dset, str_eqb_refl. reflexivity. Qed.
Lemma dget_dset_other d k k' (v : V) : k <> k' -> dget (dset d k v) k' = dget d k'.
Proof.
  intro N. rewrite dget_dset. destruct (str_eqb_spec k' k) as [->|_]; [congruence|].
  destruct (str_eqb_spec k k') as [->|_]; congruence.
Qed.
Lemma In_dset d k (v : V) x y : In (x, y) (dset d k v) -> (x = k /\ y = v) \/ In (x, y) d.
Proof.
  induction d as [|[k' v'] d IH]; cbn [dset].
  - intros [E|[]]. injection E as <- <-. now left.
  - destruct (str_eqb_spec k k') as [->|N].
    + intros [E|H]; [injection E as <- <-; now left|right; now right].
    + intros [E|H]; [right; now left|]. destruct (IH H); [now left|right; now right].
Qed.
Lemma dget_in_keys d k v : dget d k = Some v -> In k (map fst d).
Proof. intro H. apply dget_In in H. apply in_map_iff. exists (k, v). auto. Qed.
End Dict.

(** ** Setting a pressure *)
Lemma set_pressure_iff l sp p l' : set_pressure l sp p = Ok l' <-> only_pressure sp p l l'.
Proof.
  unfold set_pressure, only_pressure, dindex. split.
  - destruct (dget l (L "species_definitions")) as [v|] eqn:E; [|discriminate]. cbn [bind].
    destruct v as [s|s|s|x|x|defs]; try discriminate. cbn [item]. unfold dindex.
    destruct (dget defs sp) as [w|] eqn:E1; [|discriminate]. cbn [bind].
    destruct w as [s|s|s|x|x|one]; try discriminate. cbn [set_item bind]. intro H. injection H as <-.
    exists defs, one. auto.
  - intros (defs & one & E & E1 & ->). rewrite E. cbn [bind item]. unfold dindex. rewrite E1. reflexivity.
Qed.

Lemma set_pressure_defined l sp p : defined l sp -> exists l', set_pressure l sp p = Ok l'.
Proof.
  intros (defs & one & E & E1). eexists. apply set_pressure_iff. exists defs, one. eauto.
Qed.

Lemma only_defined sp p l l' sp' : only_pressure sp p l l' -> defined l sp' -> defined l' sp'.
Proof.
  intros (defs & one & E & E1 & ->) (defs' & one' & E' & E1').
  assert (defs' = defs) as -> by congruence.
  unfold defined. rewrite dget_dset_same. destruct (str_eqb_spec sp sp') as [->|N].
  - eexists _, _. split; [reflexivity|]. apply dget_dset_same.
  - eexists _, _. split; [reflexivity|]. rewrite dget_dset_other by assumption. exact E1'.
Qed.

Lemma only_over sp p q l l1 : only_pressure sp p l l1 -> set_pressure l1 sp q = set_pressure l sp q.
Proof.
  intros (defs & one & E & E1 & ->).
  unfold set_pressure, dindex. rewrite dget_dset_same, E. cbn [bind item]. unfold dindex.
  rewrite dget_dset_same, E1. cbn [bind set_item]. now rewrite !dset_dset.
Qed.

Lemma only_comm sp sp' p q l l1 l2 : sp <> sp' -> only_pressure sp p l l1 -> only_pressure sp' q l1 l2 ->
  exists l3, only_pressure sp' q l l3 /\ only_pressure sp p l3 l2.
Proof.
  intros N (defs & one & E & E1 & ->) (defs' & one' & E' & E1' & ->).
  rewrite dget_dset_same in E'. injection E' as <-. rewrite dget_dset_other in E1' by assumption.
  eexists. split; [exists defs, one'; split; [assumption|]; split; [assumption|reflexivity]|].
  eexists _, one. split; [apply dget_dset_same|]. split; [rewrite dget_dset_other by congruence; assumption|].
  rewrite !dset_dset. do 2 f_equal. apply dset_comm; [assumption| |]; eapply dget_in_keys; eassumption.
Qed.

Lemma literal_dset d k v : literal (WDict d) -> plain k = true -> literal v -> literal (WDict (dset d k v)).
Proof.
  intros H HK HV. apply literal_dict in H as [ND H]. apply literal_dict. split; [now apply NoDup_dset|].
  rewrite Forall_forall in *. intros [x y] HI. apply In_dset in HI as [[-> ->]|HI]; [split; assumption|now apply H].
Qed.
Lemma literal_entry d k v : literal (WDict d) -> dget d k = Some v -> plain k = true /\ literal v.
Proof.
  intros H E. apply literal_dict in H as [_ H]. rewrite Forall_forall in H. apply dget_In in E.
  exact (H _ E).
Qed.

Lemma only_writable sp p l l' : only_pressure sp p l l' -> writable_setup l -> number_text p = true ->
  writable_setup l'.
Proof.
  intros (defs & one & E & E1 & ->) [ND HW] HP. split; [now apply NoDup_dset|].
  destruct (HW _ _ (dget_In _ _ _ E)) as [HK HD]. cbn [settable] in HD. change (literal (WDict defs)) in HD.
  destruct (literal_entry _ _ _ HD E1) as [HK1 HD1].
  intros k v HI. apply In_dset in HI as [[-> ->]|HI]; [|now apply HW].
  split; [assumption|]. change (literal (WDict (dset defs sp (WDict (dset one (L "pressure") (WNum p)))))).
  apply literal_dset; [assumption|assumption|]. apply literal_dset; [assumption|reflexivity|exact HP].
Qed.

(** ** The loop *)
Lemma run_jobs_ok (template : files) (Inv : dict sval -> Prop) locs js :
  (forall l dir change, Inv l -> In (dir, change) js ->
     exists l' text, change l = Ok l' /\ change locs = Ok l' /\ Inv l' /\ dict2setup l' = Ok text) ->
  forall l d, Inv l ->
  exists d', run_jobs template js (Some l) d = (d', Ok (concat (map (fun j => fst j ++ [nl]) js))) /\
    (forall x, ~ In x (map fst js) -> dget d' x = dget d x) /\
    (forall a dir change b, js = a ++ (dir, change) :: b -> ~ In dir (map fst b) ->
       exists l' text, change locs = Ok l' /\ dict2setup l' = Ok text /\
         dget d' dir = Some (dset template filename text)).
Proof.
  induction js as [|[dir change] js IH]; intros HC l d HI.
  - exists d. split; [reflexivity|]. split; [auto|]. intros [|] ? ? ? X; discriminate.
  - destruct (HC l dir change HI (or_introl eq_refl)) as (l' & text & E1 & E2 & HI' & ET).
    destruct (IH (fun l0 d0 c0 H X => HC l0 d0 c0 H (or_intror X)) l' (dset d dir (dset template filename text)) HI')
      as (d' & HR & HO & HJ).
    exists d'. split; [|split].
    + cbn [run_jobs]. unfold one_job, settings. rewrite E1. cbn [bind]. rewrite ET. cbn [bind]. rewrite HR.
      cbn [bind map concat fst]. now rewrite <- app_assoc.
    + intros x HX. cbn [map fst] in HX. rewrite HO by (intro; apply HX; now right).
      apply dget_dset_other. intros ->. apply HX. now left.
    + intros a dir' change' b E HB. destruct a as [|y a]; cbn [app] in E; injection E as E E3.
      * subst. exists l', text. split; [assumption|]. split; [assumption|].
        rewrite HO by assumption. apply dget_dset_same.
      * subst. now apply (HJ a dir' change' b).
Qed.

Section Jobs.
Context {P : Type}.
Variables shown written : P -> str.
Variable template : files.

Lemma jobs_1d_fst species ps : map fst (jobs_1d shown written species ps) = map shown ps.
Proof. unfold jobs_1d. rewrite map_map. reflexivity. Qed.

Lemma jobs_1d_ok species ps locs d :
  writable_setup locs -> defined locs species -> (forall p, In p ps -> number_text (written p) = true) ->
  exists d', create_jobs_1d shown written template species ps (Some locs) d =
      (d', Ok (concat (map (fun p => shown p ++ [nl]) ps))) /\
    (forall x, ~ In x (map shown ps) -> dget d' x = dget d x) /\
    (forall a p b, ps = a ++ p :: b -> ~ In (shown p) (map shown b) ->
       exists l text, only_pressure species (written p) locs l /\ means text l /\
         dget d' (shown p) = Some (dset template filename text)).
Proof.
  intros HW HD HP. unfold create_jobs_1d.
  destruct (run_jobs_ok template (fun l => l = locs \/ exists p, In p ps /\ only_pressure species (written p) locs l)
              locs (jobs_1d shown written species ps)) with (l := locs) (d := d) as (d' & HR & HO & HJ).
  - intros l dir change HI HIn. unfold jobs_1d in HIn. apply in_map_iff in HIn as (p & E & Hp).
    injection E as <- <-.
    destruct (set_pressure_defined locs species (written p) HD) as [l' E'].
    pose proof (proj1 (set_pressure_iff _ _ _ _) E') as HO'.
    pose proof (only_writable _ _ _ _ HO' HW (HP p Hp)) as HW'.
    destruct (setup_exists l' HW') as [text ET].
    exists l', text. split.
    + destruct HI as [->|(q & Hq & HQ)]; [assumption|]. rewrite (only_over _ _ _ _ _ HQ). assumption.
    + split; [assumption|]. split; [|assumption]. right. eauto.
  - now left.
  - exists d'. rewrite jobs_1d_fst in HO. split; [|split].
    + rewrite HR. unfold jobs_1d. rewrite map_map. reflexivity.
    + exact HO.
    + intros a p b E HB.
      destruct (HJ (jobs_1d shown written species a) (shown p) (fun l => set_pressure l species (written p))
                  (jobs_1d shown written species b)) as (l & text & E1 & E2 & E3).
      * rewrite E. unfold jobs_1d. now rewrite map_app.
      * now rewrite jobs_1d_fst.
      * apply set_pressure_iff in E1. exists l, text. split; [assumption|]. split; [|assumption].
        apply setup_means; [|assumption]. apply (only_writable _ _ _ _ E1 HW). apply HP. rewrite E.
        apply in_or_app. right. now left.
Qed.

Local Notation dir_2d := (dir_2d shown).
Definition job_2d (oc : P * P) : str * (dict sval -> res (dict sval)) :=
  (dir_2d oc, fun l => do l1 <- set_pressure l (L "CO_g") (written (snd oc));
                       set_pressure l1 (L "O2_g") (written (fst oc))).

Lemma jobs_2d_list os cs : jobs_2d shown written os cs = map job_2d (list_prod os cs).
Proof.
  unfold jobs_2d. induction os as [|o os IH]; [reflexivity|].
  cbn [flat_map list_prod]. rewrite IH, map_app, map_map. reflexivity.
Qed.

Lemma both_iff c o l l' : (do l1 <- set_pressure l (L "CO_g") c; set_pressure l1 (L "O2_g") o) = Ok l' <->
  both_pressures c o l l'.
Proof.
  unfold both_pressures. destruct (set_pressure l (L "CO_g") c) as [l1|e] eqn:E; cbn [bind].
  - apply set_pressure_iff in E. rewrite set_pressure_iff. split; [eauto|].
    intros (l2 & A & B). apply set_pressure_iff in A, E. assert (l2 = l1) as -> by congruence. assumption.
  - split; [discriminate|]. intros (l2 & A & B). apply set_pressure_iff in A. congruence.
Qed.

Lemma both_over c o c' o' l l1 : both_pressures c o l l1 ->
  (do x <- set_pressure l1 (L "CO_g") c'; set_pressure x (L "O2_g") o') =
  (do x <- set_pressure l (L "CO_g") c'; set_pressure x (L "O2_g") o').
Proof.
  intros (l0 & A & B).
  assert (defined l (L "CO_g")) as D by (destruct A as (defs & one & E & E1 & _); exists defs, one; auto).
  assert (defined l1 (L "CO_g")) as D1 by (eapply only_defined; [exact B|]; eapply only_defined; eassumption).
  destruct (set_pressure_defined l1 _ c' D1) as [l2 E2]. destruct (set_pressure_defined l _ c' D) as [l3 E3].
  rewrite E2, E3. cbn [bind].
  (* l2 = CO c' (O2 o (CO c l)) = O2 o (CO c' l) *)
  apply set_pressure_iff in E2, E3.
  destruct (only_comm (L "O2_g") (L "CO_g") _ _ _ _ _ ltac:(discriminate) B E2) as (l4 & F & G).
  apply set_pressure_iff in F. rewrite (only_over _ _ _ _ _ A) in F. apply set_pressure_iff in E3.
  assert (l4 = l3) as -> by congruence. exact (only_over _ _ _ _ _ G).
Qed.

Lemma both_writable c o l l' : both_pressures c o l l' -> writable_setup l ->
  number_text c = true -> number_text o = true -> writable_setup l'.
Proof.
  intros (l1 & A & B) HW HC HO. eapply only_writable; [exact B| |assumption]. now apply (only_writable _ _ _ _ A).
Qed.

Lemma jobs_2d_ok os cs locs d :
  writable_setup locs -> defined locs (L "CO_g") -> defined locs (L "O2_g") ->
  (forall p, In p (os ++ cs) -> number_text (written p) = true) ->
  exists d', create_jobs_2d shown written template os cs (Some locs) d =
      (d', Ok (concat (map (fun oc => dir_2d oc ++ [nl]) (list_prod os cs)))) /\
    (forall x, ~ In x (map dir_2d (list_prod os cs)) -> dget d' x = dget d x) /\
    (forall a o c b, list_prod os cs = a ++ (o, c) :: b -> ~ In (dir_2d (o, c)) (map dir_2d b) ->
       exists l text, both_pressures (written c) (written o) locs l /\ means text l /\
         dget d' (dir_2d (o, c)) = Some (dset template filename text)).
Proof.
  intros HW HD HD2 HP. unfold create_jobs_2d. rewrite jobs_2d_list.
  assert (forall oc, In oc (list_prod os cs) -> number_text (written (snd oc)) = true /\
            number_text (written (fst oc)) = true) as HN.
  { intros [o c] H. apply in_prod_iff in H as [A B]. split; apply HP; apply in_or_app; auto. }
  assert (forall (js : list (P * P)), map fst (map job_2d js) = map dir_2d js) as HF
    by (intro js; rewrite map_map; reflexivity).
  destruct (run_jobs_ok template (fun l => l = locs \/ exists c o, both_pressures c o locs l)
              locs (map job_2d (list_prod os cs))) with (l := locs) (d := d) as (d' & HR & HO & HJ).
  - intros l dir change HI HIn. apply in_map_iff in HIn as (oc & E & Hoc).
    apply (f_equal snd) in E. cbn [snd] in E. subst change. unfold job_2d. cbn [snd]. destruct (HN oc Hoc) as [N1 N2].
    destruct (set_pressure_defined locs _ (written (snd oc)) HD) as [l1 E1].
    pose proof (proj1 (set_pressure_iff _ _ _ _) E1) as O1.
    destruct (set_pressure_defined l1 (L "O2_g") (written (fst oc)) (only_defined _ _ _ _ _ O1 HD2)) as [l2 E2].
    assert (both_pressures (written (snd oc)) (written (fst oc)) locs l2) as B
      by (exists l1; split; [assumption|now apply set_pressure_iff]).
    pose proof (both_writable _ _ _ _ B HW N1 N2) as HW'. destruct (setup_exists l2 HW') as [text ET].
    exists l2, text. split; [|split; [|split]].
    + destruct HI as [->|(c & o & HQ)].
      * rewrite E1. exact E2.
      * rewrite (both_over _ _ _ _ _ _ HQ), E1. exact E2.
    + rewrite E1. exact E2.
    + right. eauto.
    + assumption.
  - now left.
  - exists d'. rewrite HF in HO. split; [|split].
    + rewrite HR, map_map. reflexivity.
    + exact HO.
    + intros a o c b E HB.
      destruct (HJ (map job_2d a) (dir_2d (o, c)) (snd (job_2d (o, c))) (map job_2d b)) as (l & text & E1 & E2 & E3).
      * rewrite E, map_app. reflexivity.
      * now rewrite HF.
      * cbn [job_2d snd fst] in E1. apply both_iff in E1. exists l, text. split; [assumption|].
        split; [|assumption]. apply setup_means; [|assumption].
        destruct (HN (o, c)) as [N1 N2]; [rewrite E; apply in_or_app; right; now left|].
        exact (both_writable _ _ _ _ E1 HW N1 N2).
Qed.

(** ** Failures *)
Lemma no_template species p ps d :
  create_jobs_1d shown written template species (p :: ps) None d = (dset d (shown p) template, Err NameError).
Proof. reflexivity. Qed.
Lemma no_template_2d o os c cs d :
  create_jobs_2d shown written template (o :: os) (c :: cs) None d =
    (dset d (dir_2d (o, c)) template, Err NameError).
Proof. reflexivity. Qed.

Lemma fails_1d species p ps locs d e : set_pressure locs species (written p) = Err e ->
  create_jobs_1d shown written template species (p :: ps) (Some locs) d = (dset d (shown p) template, Err e).
Proof.
  intro H. unfold create_jobs_1d, jobs_1d. cbn [map run_jobs]. unfold one_job, settings. rewrite H. reflexivity.
Qed.
Lemma nothing_to_do species locs d : create_jobs_1d shown written template species [] locs d = (d, Ok []).
Proof. reflexivity. Qed.
End Jobs.

Lemma set_pressure_errors locs sp p e : set_pressure locs sp p = Err e <->
  (e = KeyError /\ (dget locs (L "species_definitions") = None \/
     exists defs, dget locs (L "species_definitions") = Some (WDict defs) /\ dget defs sp = None)) \/
  (e = TypeError /\ ((exists v, dget locs (L "species_definitions") = Some v /\ not_dict v) \/
     exists defs v, dget locs (L "species_definitions") = Some (WDict defs) /\ dget defs sp = Some v /\ not_dict v)).
Proof.
  unfold set_pressure, dindex, not_dict. destruct (dget locs (L "species_definitions")) as [v|] eqn:E; cbn [bind].
  2: { split.
       - intro H. injection H as <-. left. auto.
       - intros [[-> _]|[_ [(v & H & _)|(defs & v & H & _)]]]; [reflexivity|discriminate|discriminate]. }
  destruct v as [s|s|s|x|x|defs].
  1-5: cbn [item bind]; split;
    [intro H; injection H as <-; right; split; [reflexivity|]; left; eexists; split; [reflexivity|discriminate]
    |intros [[_ [H|(d & H & _)]]|[-> _]]; [discriminate|discriminate|reflexivity]].
  cbn [item]. unfold dindex. destruct (dget defs sp) as [w|] eqn:E1; cbn [bind].
  2: { split.
       - intro H. injection H as <-. left. split; [reflexivity|]. right. eauto.
       - intros [[-> _]|[_ [(v & H & N)|(defs' & v & H & H1 & _)]]]; [reflexivity| |].
         + injection H as <-. exfalso. now apply (N defs).
         + injection H as <-. congruence. }
  destruct w as [s|s|s|x|x|one].
  1-5: cbn [set_item bind]; split;
    [intro H; injection H as <-; right; split; [reflexivity|]; right; eexists _, _;
       split; [reflexivity|]; split; [exact E1|discriminate]
    |intros [[_ [H|(d & H & H1)]]|[-> _]]; [discriminate|injection H as <-; congruence|reflexivity]].
  cbn [set_item bind]. split; [discriminate|].
  intros [[_ [H|(d & H & H1)]]|[_ [(v & H & N)|(defs' & v & H & H1 & N)]]].
  - discriminate.
  - injection H as <-. congruence.
  - injection H as <-. exfalso. now apply (N defs).
  - injection H as <-. rewrite E1 in H1. injection H1 as <-. exfalso. now apply (N one).
Qed.
