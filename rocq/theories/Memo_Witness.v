(** Concrete histories for the cache. *)
From Coq Require Import String Ascii List ZArith NArith Bool Reals Lia Lra.
From Verif Require Import PyBase PyBaseFacts Rxn_Model Species_Model PyReal Energy_Model Thermo_Model Rate_Model
  Rate_Spec Rate_Proofs MF_Model MF_Spec MF_More SS_Model Memo_Model Memo_Spec Memo_Proofs.
Import ListNotations.
Local Open Scope list_scope.
Local Open Scope nat_scope.

(** One reaction without barriers, at temperature [T]. *)
Definition step_rxn : str := L "CO_g + *_s -> CO_s".
Definition owner_at (T : R) : owner :=
  {| o_T := T; o_pressures := []; o_rxns := [step_rxn]; o_rxns_list := [];
     o_Auc := 1%R; o_act_ratio := 1%R; o_corrector_str := false |}.
Definition solver_at (T : R) : solver :=
  {| sv_ec := fun _ _ _ _ => Ok 0%R; sv_owner := owner_at T; sv_algo := L "TST" |}.
Definition energies_at (x : R) : dict (list R) :=
  [(L "Gaf", [x]); (L "Gar", [x]); (L "dG", [0%R])].

Definition k_at (T x : R) : R := (frequency T * exp (- x / kT T))%R.

Lemma method_value (sv : nat -> solver) w j T x kw :
  (0 < T)%R -> sv j = solver_at T ->
  (dget kw (L "relative_energies") = Some (AEnergies (energies_at x)) \/
   (dget kw (L "relative_energies") = None \/ dget kw (L "relative_energies") = Some ANone)
   /\ w j = energies_at x) ->
  method sv w (Some j) kw = Ok ([k_at T x], [k_at T x]).
Proof.
  intros HT ES H. unfold method, rate_constants_of. rewrite ES.
  assert (E : energies_of (owner_at T) {| r_Gaf := [x]; r_Gar := [x]; r_dG := [0%R] |} step_rxn x x 0%R).
  { exists 0. split; [reflexivity|]. split; [intros; lia|]. repeat split. }
  pose proof (rates_TST_plain (owner_at T) step_rxn _ _ _ _ HT E) as P.
  assert (G : (do r <- rel_of (energies_at x);
               rate_constants (sv_ec (solver_at T)) (sv_owner (solver_at T)) (sv_algo (solver_at T)) (Some r) None)
              = Ok ([k_at T x], [k_at T x])).
  { change (rel_of (energies_at x)) with (Ok {| r_Gaf := [x]; r_Gar := [x]; r_dG := [0%R] |}).
    cbn [bind]. unfold rate_constants. cbn [bind sv_owner sv_algo solver_at].
    change (str_eqb (L "TST") (L "TST")) with true. cbn iota. cbn [bind o_rxns owner_at mapM].
    change (o_rxns (owner_at T)) with [step_rxn]. cbn [mapM].
    rewrite P. reflexivity. }
  destruct H as [-> | [[-> | ->] ->]]; exact G.
Qed.

Lemma k_at_differ T T' : T <> T' -> k_at T 0 <> k_at T' 0.
Proof.
  intros N E. unfold k_at in E.
  replace (- 0 / kT T)%R with 0%R in E by (unfold Rdiv; ring).
  replace (- 0 / kT T')%R with 0%R in E by (unfold Rdiv; ring).
  rewrite exp_0 in E. unfold frequency, kT in E. pose proof kB_eV_pos. pose proof h_eV_pos.
  apply N. apply (Rmult_eq_reg_l kB_eV); [|lra].
  apply (Rmult_eq_reg_r (/ h_eV)); [|apply Rgt_not_eq, Rinv_0_lt_compat; lra].
  unfold Rdiv in E. lra.
Qed.

Lemma k_at_energy : k_at 300 0 <> k_at 300 1.
Proof.
  intros E. unfold k_at in E. pose proof kB_eV_pos. pose proof h_eV_pos.
  apply Rmult_eq_reg_l in E.
  - apply exp_inv in E. unfold Rdiv, kT in E.
    apply Rmult_eq_reg_r in E; [lra|]. apply Rgt_not_eq, Rinv_0_lt_compat. nra.
  - apply Rgt_not_eq. unfold frequency, kT. apply Rdiv_lt_0_compat; nra.
Qed.

(** Solver 0 at 300 K, the others at 600 K. *)
Definition two_solvers (j : nat) : solver := match j with O => solver_at 300 | _ => solver_at 600 end.
Definition same_solvers (j : nat) : solver := solver_at 300.

Definition flat (x : R) : nat -> dict (list R) := fun _ => energies_at x.
Definition with_energies (x : R) : dict arg := [(L "relative_energies", AEnergies (energies_at x))].
Definition with_none : dict arg := [(L "relative_energies", ANone); (L "log", ABool true)].

Lemma energies_at_keys x : NoDup (map fst (energies_at x)).
Proof.
  cbn [map fst energies_at]. repeat constructor; cbn [In]; intros H;
    repeat (destruct H as [H|H]; [discriminate|]); exact H.
Qed.

Definition two_temperatures : list (op nat (nat -> dict (list R))) :=
  [Access (Some 0); Call (with_energies 0); Access (Some 1); Call (with_energies 0)].

Lemma key_eqb_refl kw : wf_kw kw -> key_eqb kw kw = true.
Proof. intros H. apply key_eqb_same; auto using same_kw_refl. Qed.
Lemma with_energies_wf x : wf_kw (with_energies x).
Proof.
  split; [repeat constructor; auto|]. intros n a [H|[]]. injection H as <- <-. apply energies_at_keys.
Qed.
Lemma empty_wf : wf_kw [].
Proof. split; [constructor|intros n a []]. Qed.
Lemma with_none_wf : wf_kw with_none.
Proof.
  split.
  - cbn [map fst with_none]. repeat constructor; cbn [In]; intros H;
    repeat (destruct H as [H|H]; [discriminate|]); exact H.
  - intros n a [H|[H|[]]]; injection H as <- <-; exact Logic.I.
Qed.

Lemma two_temperatures_run :
  fst (run own_energies (method two_solvers) (flat 0, empty) two_temperatures) =
  [None; Some (Ok ([k_at 300 0], [k_at 300 0])); None; Some (Ok ([k_at 300 0], [k_at 300 0]))].
Proof.
  assert (M : method two_solvers (flat 0) (Some 0) (with_energies 0) = Ok ([k_at 300 0], [k_at 300 0])).
  { apply method_value; [lra|reflexivity|]. left. reflexivity. }
  unfold two_temperatures. cbn [run step fst snd]. unfold call. cbn [current].
  change (make_key own_energies (flat 0) (Some 0) (with_energies 0)) with (Ok (A:=dict arg) (with_energies 0)).
  cbn [lookup results empty]. rewrite M. cbn [app current results fst snd].
  change (make_key own_energies (flat 0) (Some 1) (with_energies 0)) with (Ok (A:=dict arg) (with_energies 0)).
  cbn [lookup results snd]. rewrite key_eqb_refl by apply with_energies_wf. reflexivity.
Qed.

(** The energies change between two calls without arguments. *)
Definition no_argument : list (op nat (nat -> dict (list R))) :=
  [Access (Some 0); Call []; World (flat 1); Access (Some 0); Call []].

Lemma no_argument_run :
  fst (run own_energies (method same_solvers) (flat 0, empty) no_argument) =
  [None; Some (Ok ([k_at 300 0], [k_at 300 0])); None; None; Some (Ok ([k_at 300 0], [k_at 300 0]))].
Proof.
  assert (M : method same_solvers (flat 0) (Some 0) [] = Ok ([k_at 300 0], [k_at 300 0])).
  { apply method_value; [lra|reflexivity|]. right. split; [now left|reflexivity]. }
  unfold no_argument. cbn [run step fst snd]. unfold call. cbn [current].
  change (make_key own_energies (flat 0) (Some 0) []) with (Ok (A:=dict arg) []).
  cbn [lookup results empty]. rewrite M. reflexivity.
Qed.

(** The method looked up in solver 0 is called after it was looked up in solver 1. *)
Definition two_lookups : list (op nat (nat -> dict (list R))) :=
  [Access (Some 0); Access (Some 1); Call (with_energies 0)].

Lemma two_lookups_run :
  fst (run own_energies (method two_solvers) (flat 0, empty) two_lookups) =
  [None; None; Some (Ok ([k_at 600 0], [k_at 600 0]))].
Proof.
  assert (M : method two_solvers (flat 0) (Some 1) (with_energies 0) = Ok ([k_at 600 0], [k_at 600 0])).
  { apply method_value; [lra|reflexivity|]. left. reflexivity. }
  unfold two_lookups. cbn [run step fst snd]. unfold call. cbn [current].
  change (make_key own_energies (flat 0) (Some 1) (with_energies 0)) with (Ok (A:=dict arg) (with_energies 0)).
  cbn [lookup results empty]. rewrite M. reflexivity.
Qed.

(** A history on two solvers at one temperature, whose energies change. *)
Definition changing : list (op nat (nat -> dict (list R))) :=
  [Access (Some 0); Call with_none; World (flat 1); Access (Some 1); Call with_none;
   Call (with_energies 0)].

Lemma changing_keyed kw : In (Call kw) changing -> keyed kw.
Proof.
  unfold changing. cbn [In]. intros H. repeat (destruct H as [H|H]; [try discriminate|]); try tauto;
    injection H as <-.
  - split; [apply with_none_wf|]. exists ANone. split; [reflexivity|now left].
  - split; [apply with_none_wf|]. exists ANone. split; [reflexivity|now left].
  - split; [apply with_energies_wf|]. eexists. split; [reflexivity|]. right. eexists. split; [|reflexivity]. discriminate.
Qed.


(** ** Derivatives of two models that differ in the number of sites *)
Definition site_setup (total : str) : setup :=
  {| s_exprs := [L "O2_g + 2*_s -> 2O_s"];
     s_lists := match parse_rxns [L "O2_g + 2*_s -> 2O_s"] with
                | Ok l => l
                | Err _ => {| l_rxns := []; l_ads := []; l_gas := []; l_liq := []; l_site := []; l_ts := [] |}
                end;
     s_total := [(L "*_s", {| n_val := 1%R; n_text := total |})];
     s_pressure := []; s_conc := [] |}.
Definition site_object (total : str) : setup * dict (list str) :=
  (site_setup total, [(L "*_s", [L "O_s"])]).
Definition site_kw : dict arg :=
  [(L "adsorbate_name", AStr (L "O_s"));
   (L "poly_expression", AStr (L "dtheta_dt[0] = 2*kf[0]*p['O2_g']*theta['*_s']**2"))].
Definition two_totals : list (op (setup * dict (list str)) unit) :=
  [Access (Some (site_object (L "1.0"))); Call site_kw;
   Access (Some (site_object (L "0.5"))); Call site_kw].
