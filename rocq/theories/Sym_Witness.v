(** Concrete mechanisms for the theorems about the symbolic evaluation. *)
From Coq Require Import String Ascii List ZArith NArith Bool Arith QArith Qreals Reals Lia Lra.
Import ListNotations.
From Verif Require Import PyBase PyBaseFacts Mol_Model Rxn_Model Rxn_Spec Rxn_Proofs Rxn_Count Rxn_More Species_Model Species_Spec
  Species_Proofs Species_Matrix PyReal Energy_Model Energy_Spec Energy_Proofs Thermo_Model Rate_Model Rate_Spec Rate_Proofs
  Rate_Witness MF_Model MF_Spec MF_Cover MF_Rate MF_More MF_Witness Archive_Proofs Sym_Model Sym_Spec Sym_Proofs Sym_Eval
  Sym_Rates Sym_Main Sym_Steady Sym_Jac Sym_Rest.
Local Open Scope nat_scope.
Local Open Scope list_scope.

Definition plain_sitesb (s : setup) : bool :=
  forallb (fun rxn => forallb (fun st => forallb (fun f =>
    negb (surfaceb (f_site f)) || has_char "-" (f_species f) || has_char "*" (f_species f) || negb (has_char "*" (f_site f)))
    st) rxn) (l_rxns (s_lists s)).
Lemma plain_sitesb_ok s : plain_sitesb s = true -> plain_sites s.
Proof.
  unfold plain_sitesb, plain_sites. intros H f (rxn & st & H1 & H2 & H3) (A1 & A2 & A3) I.
  rewrite forallb_forall in H. specialize (H rxn H1). rewrite forallb_forall in H. specialize (H st H2).
  rewrite forallb_forall in H. specialize (H f H3). apply surfaceb_iff in A1. rewrite A1 in H. cbn [negb orb] in H.
  apply has_char_In in I. rewrite I in H. cbn [negb] in H. rewrite orb_false_r in H.
  apply orb_true_iff in H as [H|H]; apply has_char_In in H; contradiction.
Qed.

Definition singleb (s : setup) : bool :=
  forallb (fun n => forallb (fun fls => match find_in_states n 0 fls with Some (_, k) => Z.eqb k 1 | None => true end)
    (l_rxns (s_lists s))) (ads s).
Lemma found_first name fls : match find_in_states name 0 fls with
  | Some (i, n) => met_first name fls i n | None => absent name fls end.
Proof.
  set (s0 := setup_of [] no_lists [] [] []).
  pose proof (find_in_states_spec s0 [] [] [] eq_refl eq_refl eq_refl name fls 0) as H.
  destruct (find_in_states name 0 fls) as [[i n]|]; auto. now destruct H as (i' & -> & H).
Qed.
Lemma singleb_ok s : singleb s = true -> single s.
Proof.
  unfold singleb, single. intros H name fls i n Hn Hf M. rewrite forallb_forall in H. specialize (H name Hn).
  rewrite forallb_forall in H. specialize (H fls Hf). pose proof (found_first name fls) as F.
  destruct (find_in_states name 0 fls) as [[j k]|].
  - destruct (met_first_unique _ _ _ _ _ _ M F) as [_ ->]. now apply Z.eqb_eq.
  - exfalso. eapply met_not_absent; eauto.
Qed.

(** Two molecules adsorbing on one kind of site and exchanging. *)
Definition couple : list str :=
  [L "CO_g + *_s -> CO_s"; L "NO_g + *_s <-> NO-_s -> NO_s"; L "CO_s + NO_g -> NO_s + CO_g"].
Definition cp_lists : lists := Eval vm_compute in lists_of couple.
Definition cp_setup : setup := setup_of couple cp_lists [(L "*_s", one)] [(L "CO_g", 2); (L "NO_g", 3)]%R [].
Definition cp_energies : rel_energies := {| r_Gaf := [3; 2; 1]; r_Gar := [2; 3; 0]; r_dG := [1; -1; 1] |}%R.
Lemma cp_usable : usable_setup cp_setup.
Proof. apply usable_setup_ok; vm_compute; reflexivity. Qed.
Lemma cp_plain : plain_sites cp_setup.
Proof. apply plain_sitesb_ok. vm_compute. reflexivity. Qed.
Lemma cp_single : single cp_setup.
Proof. apply singleb_ok. vm_compute. reflexivity. Qed.
Lemma cp_ads : ads cp_setup = [L "CO_s"; L "NO_s"].
Proof. vm_compute. reflexivity. Qed.
Lemma cp_nodup : NoDup (s_exprs cp_setup).
Proof.
  unfold cp_setup, setup_of, couple. cbn [s_exprs].
  repeat constructor; cbn [In]; intro H; repeat (destruct H as [H|H]; [discriminate|]); destruct H.
Qed.
Lemma cp_entries : entries cp_energies (length (s_exprs cp_setup)) /\ consistent cp_energies.
Proof.
  split; [repeat split|]. intros i a b c (H1 & H2 & H3).
  destruct i as [|[|[|i]]]; cbn in H1, H2, H3; try (destruct i; discriminate);
    injection H1 as <-; injection H2 as <-; injection H3 as <-; lra.
Qed.

Lemma cp_evaluable : exists y data, evaluable cp_setup y data 300 cp_energies [/ 4; / 2]%R /\ single cp_setup /\
  length (ads cp_setup) = 2.
Proof.
  destruct (symbolic_exists cp_setup (proj1 cp_usable)) as (y & data & SY). exists y, data.
  split; [|split; [exact cp_single|rewrite cp_ads; reflexivity]].
  split; [exact cp_usable|]. split; [exact cp_plain|]. split; [reflexivity|]. split; [lra|]. split; [split; reflexivity|].
  split; [rewrite cp_ads; reflexivity|exact SY].
Qed.

(** The number of molecules is lost. *)
Lemma ox_steady_differs : exists s y data T r cvgs F F',
  evaluable s y data T r cvgs /\
  steady_state_by_sym s y T r (Some data) cvgs = Ok F /\
  steady_state_function s (rate_constants_by_sym s y T r (Some data)) (Some data) cvgs = Ok F' /\ F <> F'.
Proof.
  pose proof ox_usable as U.
  assert (PS : plain_sites ox_setup) by (apply plain_sitesb_ok; vm_compute; reflexivity).
  destruct (symbolic_exists ox_setup (proj1 U)) as (y & data & SY).
  set (r := {| r_Gaf := [0; 0; 0]; r_Gar := [0; 0; 0]; r_dG := [0; 0; 0] |}%R).
  assert (ER : energies_ready ox_setup r) by (split; reflexivity).
  assert (HT : (0 < 300)%R) by lra.
  assert (Len : length [0; 0]%R = length (ads ox_setup)) by (rewrite ox_ads; reflexivity).
  set (k := tst 300 0). assert (Kp : (0 < k)%R) by (apply tst_pos; lra).
  assert (K1 : kf_list 300 r = [k; k; k]) by reflexivity.
  assert (K2 : kr_list 300 r = [k; k; k]).
  { unfold kr_list. cbn [r r_Gaf r_dG combine map fst snd]. unfold k. replace (0 - 0)%R with 0%R by ring. reflexivity. }
  pose proof (constants_by_sym_ok ox_setup y data 300 r SY eq_refl HT ER (proj1 U)) as KC. rewrite K1, K2 in KC.
  destruct (steady_by_sym_ok ox_setup y data 300 r [0; 0]%R U PS eq_refl HT ER Len SY) as (F & rfs & rrs & A & LF & B & C).
  destruct (rates_by_sym_ok ox_setup y data 300 r SY eq_refl HT ER U PS [0; 0]%R Len) as (rfs1 & rrs1 & B1 & _ & _ & D1).
  assert (rfs1 = rfs /\ rrs1 = rrs) as [-> ->] by (split; congruence). rewrite K1, K2 in D1.
  destruct (steady_indexed ox_setup U [0; 0]%R [k; k; k] [k; k; k] Len eq_refl eq_refl)
    as (data' & rfs2 & rrs2 & G & E1 & E2 & E3 & E4 & E5).
  assert (data' = data) by (destruct SY as (cl & _ & _ & H); congruence). subst data'.
  destruct (ox_rates 0 0 k k k k k k) as (data' & rfs3 & rrs3 & X1 & X2 & X3 & X4).
  assert (data' = data) by congruence. subst data'.
  assert (rfs2 = rfs /\ rrs2 = rrs) as [-> ->] by (split; congruence).
  assert (rfs3 = rfs /\ rrs3 = rrs) as [-> ->] by (split; congruence).
  exists ox_setup, y, data, 300%R, r, [0; 0]%R, F, G.
  split; [do 3 (split; [first [exact U|exact PS|reflexivity]|]); auto|]. split; [exact A|]. split; [rewrite KC; exact E3|]. intro Q. subst G.
  assert (On : nth_error (ads ox_setup) 1 = Some (L "O_s")) by (rewrite ox_ads; reflexivity).
  destruct (nth_error F 1) as [x|] eqn:Hx; [|apply nth_error_None in Hx; rewrite LF, ox_ads in Hx; cbn in Hx; lia].
  destruct (C 1 _ x On Hx) as (cs & Lc & Ex & Q1). destruct (E5 1 _ x On Hx) as (cs' & Lc' & Ex' & Q2).
  destruct cs as [|c0 [|c1 [|c2 [|]]]]; try discriminate. destruct cs' as [|d0 [|d1 [|d2 [|]]]]; try discriminate.
  rewrite X3, X4 in Q1, Q2.
  pose proof (Q1 0 _ _ _ _ eq_refl eq_refl eq_refl eq_refl) as P0. pose proof (Q2 0 _ _ _ _ eq_refl eq_refl eq_refl eq_refl) as R0.
  pose proof (Q1 1 _ _ _ _ eq_refl eq_refl eq_refl eq_refl) as P1. pose proof (Q2 1 _ _ _ _ eq_refl eq_refl eq_refl eq_refl) as R1.
  pose proof (Q1 2 _ _ _ _ eq_refl eq_refl eq_refl eq_refl) as P2. pose proof (Q2 2 _ _ _ _ eq_refl eq_refl eq_refl eq_refl) as R2.
  pose proof (found_first (L "O_s") (nth 0 (l_rxns (s_lists ox_setup)) [])) as F0. 
  pose proof (found_first (L "O_s") (nth 1 (l_rxns (s_lists ox_setup)) [])) as F1.
  pose proof (found_first (L "O_s") (nth 2 (l_rxns (s_lists ox_setup)) [])) as F2.
  change (find_in_states (L "O_s") 0 (nth 0 (l_rxns (s_lists ox_setup)) [])) with (@None (nat * Z)) in F0.
  change (find_in_states (L "O_s") 0 (nth 1 (l_rxns (s_lists ox_setup)) [])) with (Some (1, 2%Z)) in F1.
  change (find_in_states (L "O_s") 0 (nth 2 (l_rxns (s_lists ox_setup)) [])) with (Some (0, 1%Z)) in F2.
  cbn iota in F0, F1, F2.
  assert (T0 : c0 = 0%R /\ d0 = 0%R).
  { split; [destruct P0 as [[_ ?]|[(n & M & _)|(i & n & M & _)]]|destruct R0 as [[_ ?]|[(n & M & _)|(i & n & M & _)]]]; auto;
      exfalso; exact (met_not_absent _ _ _ _ M F0). }
  set (rf1 := (k * 3 * (1 - 0 - 0) ^ 2)%R) in *. set (rr1 := (k * 0 ^ 2)%R) in *.
  set (rf2 := (k * 0 * 0)%R) in *. set (rr2 := (k * 0 * (1 - 0 - 0) ^ 2)%R) in *.
  assert (T1 : c1 = (rf1 - rr1)%R /\ d1 = (2 * (rf1 - rr1))%R).
  { split; [destruct P1 as [[Ab _]|[(n & M & _)|(i & n & M & E)]]|destruct R1 as [[Ab _]|[(n & M & _)|(i & n & M & E)]]];
      try (exfalso; exact (met_not_absent _ _ _ _ F1 Ab));
      destruct (met_first_unique _ _ _ _ _ _ F1 M) as [E0 E1']; try discriminate; auto. rewrite <- E1' in E. exact E. }
  assert (T2 : c2 = (rr2 - rf2)%R /\ d2 = (1 * (rr2 - rf2))%R).
  { split; [destruct P2 as [[Ab _]|[(n & M & E)|(i & n & M & E)]]|destruct R2 as [[Ab _]|[(n & M & E)|(i & n & M & E)]]];
      try (exfalso; exact (met_not_absent _ _ _ _ F2 Ab));
      destruct (met_first_unique _ _ _ _ _ _ F2 M) as [E0 E1']; try discriminate; auto. rewrite <- E1' in E. exact E. }
  destruct T0 as [-> ->]. destruct T1 as [-> ->]. destruct T2 as [-> ->]. rewrite Ex in Ex'. cbn [Rsum] in Ex'.
  unfold rf1, rr1, rf2, rr2 in Ex'. lra.
Qed.

(** A liquid. *)
Definition wet : list str := [L "H2O_l + *_s -> H2O_s"].
Definition wt_lists : lists := Eval vm_compute in lists_of wet.
Definition wt_setup : setup := setup_of wet wt_lists [(L "*_s", one)] [] [(L "H2O_l", 2%R)].
Lemma wt_usable : usable_setup wt_setup.
Proof. apply usable_setup_ok; vm_compute; reflexivity. Qed.

Lemma wet_fails : exists s y data T r cvgs F kf kr,
  usable_setup s /\ plain_sites s /\ (0 < T)%R /\ energies_ready s r /\ length cvgs = length (ads s) /\ symbolic s y data /\
  single s /\ l_liq (s_lists s) <> [] /\ steady_state_by_sym s y T r (Some data) cvgs = Err KeyError /\
  length kf = length (s_exprs s) /\ length kr = length (s_exprs s) /\
  steady_state_function s (Ok (kf, kr)) (Some data) cvgs = Ok F.
Proof.
  pose proof wt_usable as U. destruct (symbolic_exists wt_setup (proj1 U)) as (y & data & SY).
  set (r := {| r_Gaf := [0]; r_Gar := [0]; r_dG := [0] |}%R).
  assert (Len : length [0]%R = length (ads wt_setup)) by reflexivity.
  destruct (steady_indexed wt_setup U [0]%R [1]%R [1]%R Len eq_refl eq_refl) as (data' & rfs & rrs & G & E1 & E2 & E3 & _).
  assert (data' = data) by (destruct SY as (cl & _ & _ & H); congruence). subst data'.
  exists wt_setup, y, data, 300%R, r, [0]%R, G, [1]%R, [1]%R.
  split; [exact U|]. split; [apply plain_sitesb_ok; vm_compute; reflexivity|]. split; [lra|]. split; [split; reflexivity|].
  split; [exact Len|]. split; [exact SY|]. split; [apply singleb_ok; vm_compute; reflexivity|]. split; [discriminate|].
  split; [|auto].
  destruct (symbolic_inv wt_setup y data (proj1 U) SY) as [Ey _].
  assert (D : exists l, dtheta_syms wt_setup y false = Ok l).
  { rewrite Ey. eexists. lazy -[Rmult Rminus Rplus IZR]. reflexivity. }
  destruct D as [l D]. apply (proj1 (steady_refusals wt_setup y data 300 r [0]%R l (proj1 U) SY D)). discriminate.
Qed.

(** A site whose name has a star. *)
Definition starry : list str := [L "CO_g + *_* -> CO_*"].
Definition sr_lists : lists := Eval vm_compute in lists_of starry.
Definition sr_setup : setup := setup_of starry sr_lists [(L "*_*", one)] [(L "CO_g", 2%R)] [].
Lemma sr_usable : usable_setup sr_setup.
Proof. apply usable_setup_ok; vm_compute; reflexivity. Qed.

Lemma star_fails : exists s y data T r cvgs F kf kr,
  usable_setup s /\ l_liq (s_lists s) = [] /\ (0 < T)%R /\ energies_ready s r /\ length cvgs = length (ads s) /\ symbolic s y data /\
  single s /\ steady_state_by_sym s y T r (Some data) cvgs = Err ParameterError /\
  rates_by_sym s y T r (Some data) cvgs = Err ParameterError /\
  length kf = length (s_exprs s) /\ length kr = length (s_exprs s) /\
  steady_state_function s (Ok (kf, kr)) (Some data) cvgs = Ok F.
Proof.
  pose proof sr_usable as U. destruct (symbolic_exists sr_setup (proj1 U)) as (y & data & SY).
  set (r := {| r_Gaf := [0]; r_Gar := [0]; r_dG := [0] |}%R).
  assert (Len : length [0]%R = length (ads sr_setup)) by reflexivity.
  destruct (steady_indexed sr_setup U [0]%R [1]%R [1]%R Len eq_refl eq_refl) as (data' & rfs & rrs & G & E1 & E2 & E3 & _).
  assert (data' = data) by (destruct SY as (cl & _ & _ & H); congruence). subst data'.
  exists sr_setup, y, data, 300%R, r, [0]%R, G, [1]%R, [1]%R.
  split; [exact U|]. split; [reflexivity|]. split; [lra|]. split; [split; reflexivity|].
  split; [exact Len|]. split; [exact SY|]. split; [apply singleb_ok; vm_compute; reflexivity|].
  destruct (symbolic_inv sr_setup y data (proj1 U) SY) as [Ey _].
  assert (D : dtheta_syms sr_setup y false = Err ParameterError) by (rewrite Ey; lazy -[Rmult Rminus Rplus IZR]; reflexivity).
  assert (D2 : rate_syms sr_setup y = Err ParameterError) by (rewrite Ey; lazy -[Rmult Rminus Rplus IZR]; reflexivity).
  split; [unfold steady_state_by_sym; rewrite D; reflexivity|].
  split; [unfold rates_by_sym; rewrite D2; reflexivity|]. auto.
Qed.

(** Collision theory is not known to the symbolic way. *)
Definition sc_energies : rel_energies := {| r_Gaf := [3]; r_Gar := [2]; r_dG := [1] |}%R.
Definition sc_owner (A : R) : owner :=
  {| o_T := 300; o_pressures := []; o_rxns := [co_rxn]; o_rxns_list := []; o_Auc := A; o_act_ratio := 1; o_corrector_str := false |}.
Lemma sc_CT A : (0 < A)%R -> exists k kr, rate_constants (fun _ _ _ _ => Ok 0%R) (sc_owner A) (L "CT") (Some sc_energies) None
    = Ok ([k], [kr]) /\ exists c, (0 < c)%R /\ k = (A * c)%R /\
      forall B, (0 < B)%R -> exists kr', rate_constants (fun _ _ _ _ => Ok 0%R) (sc_owner B) (L "CT") (Some sc_energies) None
        = Ok ([(B * c)%R], [kr']).
Proof.
  intro Ap. destruct co_parsed as (a & b & c & E & Ta & Sa & Na & Ga & Sp & Gb & Gc).
  assert (M : exists m, molecular_mass (L "CO") true = Ok m /\ (0 < Q2R m)%R).
  { eexists. split; [vm_compute; reflexivity|].
    replace 0%R with (Q2R 0) by (unfold Q2R; cbn; lra). apply Qlt_Rlt. reflexivity. }
  destruct M as (m & M & Mp).
  assert (PP : (0 < P0)%R) by (unfold P0; lra).
  assert (H : forall B, (0 < B)%R -> exists kr', rate_constants (fun _ _ _ _ => Ok 0%R) (sc_owner B) (L "CT") (Some sc_energies) None
        = Ok ([(B * (1 * 1 * exp (- 3 / kT 300) * P0 / sqrt (2 * PI * Q2R m * kB_J * 300)))%R], [kr'])).
  { intros B HB.
    destruct (rates_CT_adsorption (fun _ _ _ _ => Ok 0%R) (sc_owner B) co_rxn sc_energies [[a; b]; [c]] [a; b] [c]
      a m P0 0 3 2 1 false) as (rf & rr & R1 & R2 & R3 & R4); try (cbn; lra); try reflexivity; auto.
    - exists 0%nat. split; [reflexivity|]. split; [intros; lia|]. repeat split.
    - cbn [first_gas]. now rewrite (proj2 (is_gas_iff a) Ga).
    - now rewrite Sp.
    - exists rr. unfold rate_constants. cbn [bind]. change (str_eqb (L "CT") (L "TST")) with false. cbn iota.
      change (str_eqb (L "CT") (L "CT")) with true. cbn iota. cbn [bind sc_owner o_rxns mapM].
      cbn [sc_owner] in R1. rewrite R1. cbn [bind map fst snd].
      rewrite (kCT_value _ _ _ _ _ _ _) in R2 by (cbn; lra || auto). injection R2 as <-.
      do 3 f_equal. cbn [o_Auc o_act_ratio o_T sc_owner]. unfold Rdiv. replace (- (3))%R with (-3)%R by lra. ring. }
  destruct (H A) as [kr HA]; auto. do 2 eexists. split; [exact HA|]. eexists. split; [|split; [reflexivity|exact H]].
  assert (0 < sqrt (2 * PI * Q2R m * kB_J * 300))%R.
  { apply sqrt_lt_R0. pose proof PI_RGT_0. pose proof kB_J_pos.
    repeat (apply Rmult_lt_0_compat; try lra). }
  pose proof (exp_pos (- 3 / kT 300)). apply Rdiv_lt_0_compat; auto. rewrite !Rmult_1_l. now apply Rmult_lt_0_compat.
Qed.

Lemma collision_differs : exists ec s o y data r kf kr kf' kr',
  usable_setup s /\ NoDup (s_exprs s) /\ o_rxns o = s_exprs s /\ l_liq (s_lists s) = [] /\ (0 < o_T o)%R /\
  entries r (length (s_exprs s)) /\ consistent r /\ symbolic s y data /\
  rate_constants ec o (L "CT") (Some r) None = Ok (kf, kr) /\
  rate_constants_by_sym s y (o_T o) r (Some data) = Ok (kf', kr') /\ kf <> kf'.
Proof.
  destruct (symbolic_exists sc_setup (proj1 sc_usable)) as (y & data & SY).
  assert (HT : (0 < 300)%R) by lra.
  assert (ER : energies_ready sc_setup sc_energies) by (split; reflexivity).
  pose proof (constants_by_sym_ok sc_setup y data 300 sc_energies SY eq_refl HT ER (proj1 sc_usable)) as KC.
  destruct (sc_CT 1) as (k & kr & E & c & Cp & Ek & H); [lra|].
  assert (CN : consistent sc_energies).
  { intros i a b d (H1 & H2 & H3). destruct i as [|i]; [|destruct i; discriminate]. cbn in H1, H2, H3.
    injection H1 as <-. injection H2 as <-. injection H3 as <-. lra. }
  assert (ND : NoDup (s_exprs sc_setup)) by (constructor; [intros []|constructor]).
  destruct (Req_EM_T k (tst 300 3)) as [Q|Q].
  - destruct (H 2%R) as [kr' E']; [lra|].
    exists (fun _ _ _ _ => Ok 0%R), sc_setup, (sc_owner 2), y, data, sc_energies, [(2 * c)%R], [kr'], (kf_list 300 sc_energies), (kr_list 300 sc_energies).
    split; [exact sc_usable|]. split; [exact ND|]. split; [reflexivity|]. split; [reflexivity|]. split; [exact HT|].
    split; [repeat split|]. split; [exact CN|]. split; [exact SY|]. split; [exact E'|]. split; [exact KC|].
    change (kf_list 300 sc_energies) with [tst 300 3]. intro Z. injection Z as Z. lra.
  - exists (fun _ _ _ _ => Ok 0%R), sc_setup, (sc_owner 1), y, data, sc_energies, [k], [kr], (kf_list 300 sc_energies), (kr_list 300 sc_energies).
    split; [exact sc_usable|]. split; [exact ND|]. split; [reflexivity|]. split; [reflexivity|]. split; [exact HT|].
    split; [repeat split|]. split; [exact CN|]. split; [exact SY|]. split; [exact E|]. split; [exact KC|].
    change (kf_list 300 sc_energies) with [tst 300 3]. intro Z. injection Z as Z. congruence.
Qed.

(** One adsorbate only. *)
Lemma jacobian_one_fails : exists s y data T r cvgs,
  evaluable s y data T r cvgs /\ single s /\
  jacobian_by_sym s y T r (Some data) cvgs = Err IndexError.
Proof.
  destruct (symbolic_exists sc_setup (proj1 sc_usable)) as (y & data & SY).
  assert (PS : plain_sites sc_setup) by (apply plain_sitesb_ok; vm_compute; reflexivity).
  assert (HT : (0 < 300)%R) by lra. assert (ER : energies_ready sc_setup sc_energies) by (split; reflexivity).
  exists sc_setup, y, data, 300%R, sc_energies, [0]%R. split.
  { split; [exact sc_usable|]. split; [exact PS|]. split; [reflexivity|]. split; [exact HT|]. split; [exact ER|]. split; [reflexivity|exact SY]. }
  split; [apply singleb_ok; vm_compute; reflexivity|].
  apply (jacobian_not_two sc_setup y data 300 sc_energies [0]%R sc_usable PS eq_refl HT ER eq_refl SY). discriminate.
Qed.

(** What the symbols of the couple look like. *)
Lemma cp_symbols : exists y data, symbolic cp_setup y data /\
  y_ads y = [SSym (L "theta_CO_s"); SSym (L "theta_NO_s")] /\
  y_free y = [SSub (SSub (SNum 1) (SSym (L "theta_CO_s"))) (SSym (L "theta_NO_s"))] /\
  forall d, dget d (L "theta_CO_s") = Some (/ 4)%R -> dget d (L "theta_NO_s") = Some (/ 2)%R ->
    exists x, mapM (sev d) (y_free y) = Ok [x] /\ x = (/ 4)%R.
Proof.
  destruct (symbolic_exists cp_setup (proj1 cp_usable)) as (y & data & SY). exists y, data. split; [exact SY|].
  destruct (symbolic_inv cp_setup y data (proj1 cp_usable) SY) as [-> _].
  assert (F : y_free (the_symbols cp_setup) = [SSub (SSub (SNum 1) (SSym (L "theta_CO_s"))) (SSym (L "theta_NO_s"))]) by reflexivity.
  split; [reflexivity|]. split; [exact F|]. intros d H1 H2. rewrite F. cbn [mapM sev]. rewrite H1, H2. cbn [bind].
  eexists. split; [reflexivity|]. lra.
Qed.
