(** Concrete models for the statements of SS_Properties.v. *)
From Coq Require Import String Ascii List ZArith NArith Bool Arith Reals Lia Lra.
Import ListNotations.
From Verif Require Import PyBase PyBaseFacts Rxn_Model Rxn_Spec Rxn_Proofs Species_Model Species_Spec Species_Proofs Species_Matrix PyReal
  PyExpr_Model PyExpr_Proofs RDeriv MF_Model MF_Spec MF_Cover MF_Rate MF_More MF_Witness SS_Model SS_Spec SS_Jac.
Local Open Scope nat_scope.
Local Open Scope list_scope.

(** Decision procedures for the hypotheses. *)
Fixpoint sparse_from (before : list formula) (st : list formula) : bool :=
  match st with
  | [] => true
  | f :: after =>
      (negb (surfaceb (f_site f)) ||
       (forallb (fun g => negb (str_eqb (f_species_site g) (f_species_site f))) (before ++ after)
        && Z.leb 1 (f_stoich f) && Z.leb (f_stoich f) 9))
      && sparse_from (before ++ [f]) after
  end.
Lemma sparse_from_ok st : forall before, sparse_from before st = true ->
  forall b f a, st = b ++ f :: a -> surface_site (f_site f) ->
    (forall g, In g (before ++ b ++ a) -> f_species_site g <> f_species_site f) /\ (1 <= f_stoich f <= 9)%Z.
Proof.
  induction st as [|h st IH]; intros before H b f a E Sf; [destruct b; discriminate|].
  cbn [sparse_from] in H. apply andb_prop in H as [H1 H2]. destruct b as [|h' b]; cbn in E; injection E as -> ->.
  - apply surfaceb_iff in Sf. rewrite Sf in H1. cbn in H1. apply andb_prop in H1 as [H1 H3].
    apply andb_prop in H1 as [H0 H1]. apply Z.leb_le in H1, H3. split; [|lia].
    intros g Hg E. rewrite forallb_forall in H0. specialize (H0 g Hg). rewrite E, str_eqb_refl in H0. discriminate.
  - destruct (IH _ H2 b f a eq_refl Sf) as [N K]. split; auto. intros g Hg. apply N.
    rewrite <- app_assoc. cbn [app]. exact Hg.
Qed.
Definition sparseb := sparse_from [].
Lemma sparseb_ok st : sparseb st = true -> sparse st.
Proof. intros H b f a E Sf. exact (sparse_from_ok st [] H b f a E Sf). Qed.

Definition sparse_rxnb (fls : list (list formula)) : bool :=
  match lfirst fls, llast fls with Ok a, Ok b => sparseb a && sparseb b | _, _ => true end.

Definition letteredb (site : str) : bool :=
  match site with "*"%char :: "_"%char :: w => forallb is_letter w | _ => false end.

Lemma differentiable_ok s : usable_setup s -> readable_totals s ->
  forallb letteredb (sites s) = true -> forallb sparse_rxnb (l_rxns (s_lists s)) = true -> differentiable_setup s.
Proof.
  intros U T Lt Sp. split; [exact U|]. split; [exact T|]. split.
  - intros site H. rewrite forallb_forall in Lt. specialize (Lt site H).
    destruct site as [|a [|b w]]; try discriminate Lt.
    + cbn in Lt. destruct a as [[] [] [] [] [] [] [] []]; discriminate Lt.
    + unfold letteredb in Lt.
      assert (E : a = "*"%char /\ b = "_"%char /\ forallb is_letter w = true).
      { destruct a as [[] [] [] [] [] [] [] []]; try discriminate Lt;
        destruct b as [[] [] [] [] [] [] [] []]; try discriminate Lt; auto. }
      destruct E as (-> & -> & E). exists w. auto.
  - intros fls first last H E1 E2. rewrite forallb_forall in Sp. specialize (Sp fls H). unfold sparse_rxnb in Sp.
    rewrite E1, E2 in Sp. apply andb_prop in Sp as [A B]. split; now apply sparseb_ok.
Qed.

(** States that may be subtracted in some equation: the first and the last one. *)
Definition clash_free (columns : list str) (fls : list (list formula)) : bool :=
  match lfirst fls, llast fls with
  | Ok a, Ok b => forallb (fun st => forallb (fun c =>
      negb (existsb (fun f => str_eqb (f_species_site f) c) st &&
            existsb (fun f => str_eqb (f_species_site f) (site_tag c)) st)) columns) [a; b]
  | _, _ => true
  end.
Lemma clash_free_ok columns fls row col : clash_free columns fls = true -> In col columns -> no_clash row col fls.
Proof.
  unfold clash_free, no_clash, subtracted. intros H Hc st S [(f & If & Ef) (g & Ig & Eg)].
  assert (K : exists a b, lfirst fls = Ok a /\ llast fls = Ok b /\ In st [a; b]).
  { destruct fls as [|x l]; [destruct S as [(n & _ & S)|(i & n & _ & S)]; discriminate|].
    assert (N : x :: l <> []) by discriminate.
    destruct (lfirst_ok _ N) as [a Ea]. destruct (llast_ok _ N) as [b Eb]. exists a, b. split; auto. split; auto.
    destruct S as [(n & _ & S)|(i & n & _ & S)]; [left|right; left]; congruence. }
  destruct K as (a & b & Ea & Eb & I). rewrite Ea, Eb in H. rewrite forallb_forall in H. specialize (H st I).
  rewrite forallb_forall in H. specialize (H col Hc). apply negb_true_iff in H.
  assert (T : existsb (fun f => str_eqb (f_species_site f) col) st = true).
  { apply existsb_exists. exists f. split; auto. rewrite Ef. apply str_eqb_refl. }
  assert (T2 : existsb (fun f => str_eqb (f_species_site f) (site_tag col)) st = true).
  { apply existsb_exists. exists g. split; auto. rewrite Eg. apply str_eqb_refl. }
  rewrite T, T2 in H. discriminate.
Qed.

Lemma one_value : num_text (L "1.0") /\ num_value (L "1.0") = Ok 1%R.
Proof.
  split; [split; reflexivity|]. unfold num_value. lazy -[Rmult Rplus Rminus Rinv IZR Rdiv Rpow_def.pow powerRZ].
  f_equal. field.
Qed.

Lemma ox_totals : readable_totals ox_setup.
Proof. intros site t [<-|[]] [= <-]. exact one_value. Qed.
Lemma ox_differentiable : differentiable_setup ox_setup.
Proof. apply differentiable_ok; [exact ox_usable|exact ox_totals|vm_compute; reflexivity|vm_compute; reflexivity]. Qed.
Lemma ox_no_clash row col fls : In fls (l_rxns (s_lists ox_setup)) -> In col (ads ox_setup) -> no_clash row col fls.
Proof.
  intros H Hc. apply (clash_free_ok (ads ox_setup)); auto.
  assert (A : forallb (clash_free (ads ox_setup)) (l_rxns (s_lists ox_setup)) = true) by (vm_compute; reflexivity).
  rewrite forallb_forall in A. auto.
Qed.

Lemma mat2 (a b c d a' b' c' d' : R) : a = a' -> b = b' -> c = c' -> d = d' -> [[a; b]; [c; d]] = [[a'; b']; [c'; d']].
Proof. now intros -> -> -> ->. Qed.

(** The Jacobian of carbon monoxide oxidation. *)
Lemma ox_jacobian t1 t2 a b c a' b' c' : exists data,
  get_data ox_setup = Ok data /\
  exists J, analytical_jacobian ox_setup (Ok ([a; b; c], [a'; b'; c'])%R) (Some data) [t1; t2] = Ok J /\
  J = [[- 2 * a - a' - 2 * c' * 0 * (1 - t1 - t2) - c * t2; - 2 * a - 2 * c' * 0 * (1 - t1 - t2) - c * t1];
       [- 12 * b * (1 - t1 - t2) - 2 * c' * 0 * (1 - t1 - t2) - c * t2;
        - 12 * b * (1 - t1 - t2) - 4 * b' * t2 - 2 * c' * 0 * (1 - t1 - t2) - c * t1]]%R.
Proof.
  eexists. split; [vm_compute; reflexivity|].
  eexists. split.
  - lazy -[Rmult Rplus Rminus Ropp Rinv IZR Rdiv Rpow_def.pow powerRZ]. reflexivity.
  - apply mat2; cbn [Rpow_def.pow]; field.
Qed.

(** Dissociation of an adsorbed molecule on a free site of its own kind. *)
Definition dissociation : list str := [L "CO_s + *_s -> C_s + O_s"].
Definition di_lists : lists := Eval vm_compute in lists_of dissociation.
Definition di_setup : setup := setup_of dissociation di_lists [(L "*_s", one)] [] [].
Lemma di_differentiable : differentiable_setup di_setup.
Proof.
  apply differentiable_ok; [apply usable_setup_ok; vm_compute; reflexivity| |vm_compute; reflexivity|vm_compute; reflexivity].
  intros site t [<-|[]] [= <-]. exact one_value.
Qed.
Lemma di_ads : ads di_setup = [L "CO_s"; L "C_s"; L "O_s"].
Proof. vm_compute. reflexivity. Qed.

Lemma di_refutes : exists s cvgs kf kr data J i j x entries entry f,
  differentiable_setup s /\ length cvgs = length (ads s) /\
  length kf = length (s_exprs s) /\ length kr = length (s_exprs s) /\ get_data s = Ok data /\
  analytical_jacobian s (Ok (kf, kr)) (Some data) cvgs = Ok J /\
  nth_error cvgs j = Some x /\ nth_error J i = Some entries /\ nth_error entries j = Some entry /\
  (forall u, exists F, steady_state_function s (Ok (kf, kr)) (Some data) (with_coverage cvgs j u) = Ok F /\
                       nth_error F i = Some (f u)) /\
  derivable_pt_lim f x 0%R /\ entry = (- 1)%R.
Proof.
  exists di_setup, [/ 2; 0; 0]%R, [1]%R, [1]%R. eexists. eexists. exists 0, 0, (/ 2)%R. eexists. eexists.
  exists (fun u => - (u * (1 - u)))%R.
  split; [exact di_differentiable|]. split; [rewrite di_ads; reflexivity|]. split; [reflexivity|]. split; [reflexivity|].
  split; [vm_compute; reflexivity|].
  split; [lazy -[Rmult Rplus Rminus Ropp Rinv IZR Rdiv Rpow_def.pow powerRZ]; reflexivity|].
  split; [reflexivity|]. split; [reflexivity|]. split; [reflexivity|]. split; [|split].
  - intro u. eexists. split; [lazy -[Rmult Rplus Rminus Ropp Rinv IZR Rdiv Rpow_def.pow powerRZ]; reflexivity|].
    cbn [nth_error]. f_equal. field.
  - pose proof (d_opp _ _ _ (d_mult _ _ _ _ _ (d_id (/ 2)) (d_minus _ _ _ _ _ (d_const 1 (/ 2)) (d_id (/ 2)))))%R as D.
    eapply d_eq; [|exact D]. cbv beta. field.
  - field.
Qed.

(** A species written twice in a state. *)
Definition twice : list str := [L "O_s + O_s -> O2_g + 2*_s"].
Definition tc_lists : lists := Eval vm_compute in lists_of twice.
Definition tc_setup : setup := setup_of twice tc_lists [(L "*_s", one)] [(L "O2_g", 0)]%R [].
Lemma tc_refutes : exists s cvgs kf kr data J i j x entries entry f,
  usable_setup s /\ length cvgs = length (ads s) /\
  length kf = length (s_exprs s) /\ length kr = length (s_exprs s) /\ get_data s = Ok data /\
  (forall row col fls, In fls (l_rxns (s_lists s)) -> In col (ads s) -> no_clash row col fls) /\
  analytical_jacobian s (Ok (kf, kr)) (Some data) cvgs = Ok J /\
  nth_error cvgs j = Some x /\ nth_error J i = Some entries /\ nth_error entries j = Some entry /\
  (forall u, exists F, steady_state_function s (Ok (kf, kr)) (Some data) (with_coverage cvgs j u) = Ok F /\
                       nth_error F i = Some (f u)) /\
  derivable_pt_lim f x (- 1)%R /\ entry = (- / 2)%R.
Proof.
  exists tc_setup, [/ 2]%R, [1]%R, [1]%R. eexists. eexists. exists 0, 0, (/ 2)%R. eexists. eexists.
  exists (fun u => - (u * u))%R.
  split; [apply usable_setup_ok; vm_compute; reflexivity|]. split; [vm_compute; reflexivity|].
  split; [reflexivity|]. split; [reflexivity|].
  split; [vm_compute; reflexivity|].
  split. { intros row col fls H Hc. apply (clash_free_ok (ads tc_setup)); auto.
    assert (A : forallb (clash_free (ads tc_setup)) (l_rxns (s_lists tc_setup)) = true) by (vm_compute; reflexivity).
    rewrite forallb_forall in A. auto. }
  split; [lazy -[Rmult Rplus Rminus Ropp Rinv IZR Rdiv Rpow_def.pow powerRZ]; reflexivity|].
  split; [reflexivity|]. split; [reflexivity|]. split; [reflexivity|]. split; [|split].
  - intro u. eexists. split; [lazy -[Rmult Rplus Rminus Ropp Rinv IZR Rdiv Rpow_def.pow powerRZ]; reflexivity|].
    cbn [nth_error]. f_equal. field.
  - pose proof (d_opp _ _ _ (d_mult _ _ _ _ _ (d_id (/ 2)) (d_id (/ 2))))%R as D.
    eapply d_eq; [|exact D]. cbv beta. field.
  - field.
Qed.
