(** Lemmas: rates of transition state theory on a lattice, and concrete lattices (C108). *)
From Coq Require Import String Ascii List ZArith NArith Bool Arith QArith Reals Lra Lia.
Import ListNotations.
From Verif Require Import PyBase PyBaseFacts Kmc_Model Kmc_Spec Kmc_Proofs Kmc_Witness KmcLat_Spec KmcLat_Proofs.
From Verif Require Rxn_Model PyReal Thermo_Model Energy_Spec Rate_Model Rate_Spec Rate_Proofs.
Local Open Scope list_scope.
Local Open Scope nat_scope.

Definition fit' neighbour n (ds : list (dict pv)) : Prop :=
  (forall d, In d ds -> flag d "redist" false) /\
  (forall d p, In d ds -> describes d p -> same_wildcards p /\ roomy neighbour n p).
Lemma fit'_fit neighbour n ds : fit' neighbour n ds -> forall d, In d ds -> fit neighbour n d.
Proof. intros [A B] d H. split; auto. intros p. now apply B. Qed.

Lemma pressure_factor_pos P fs : (forall g, 0 < P g)%R -> (0 < Rate_Spec.pressure_factor P fs)%R.
Proof.
  intro H. induction fs as [|f t IH]; cbn [Rate_Spec.pressure_factor]; [lra|].
  destruct (str_eqb _ _); auto. apply Rmult_lt_0_compat; auto. apply powerRZ_lt. apply H.
Qed.

Lemma tst_balanced (o : owner R) ro r p fls f0 f1 P gaf gar dg E rf rr :
  rate_algo o = L "TST" -> rates_TST o (d_reaction p) = Rate_Model.rates_TST ro (d_reaction p) r true ->
  (0 < Thermo_Model.o_T ro)%R -> Rate_Spec.energies_of ro r (d_reaction p) gaf gar dg -> (gaf - gar = dg)%R ->
  Rxn_Model.rxn_formula_list (d_reaction p) = Ok fls -> lfirst fls = Ok f0 -> llast fls = Ok f1 ->
  Forall Rate_Spec.unnumbered (Rate_Spec.gases f0 ++ Rate_Spec.gases f1) ->
  Rate_Spec.knows_pressures ro P [f0; f1] -> (forall g, 0 < P g)%R ->
  rate_pair o (d_reaction p) rf rr ->
  balanced E p rf rr <->
  (energy E (named (d_after p)) - energy E (named (d_before p))
   = dg / Rate_Spec.kT (Thermo_Model.o_T ro) + ln (Rate_Spec.pressure_factor P f1) - ln (Rate_Spec.pressure_factor P f0))%R.
Proof.
  intros A Rt T En Dg F F0 F1 U K P0 Rp.
  pose proof (Rate_Proofs.rates_TST_plain ro _ r _ _ _ T En) as R0.
  pose proof (Rate_Proofs.rates_TST_pressure ro _ r _ _ _ P _ _ R0 F F0 F1 U K) as R1.
  assert (Ok (rf, rr) = Rate_Model.rates_TST ro (d_reaction p) r true) as Er.
  { destruct Rp as [[H _]|[_ H]]; [rewrite A in H; discriminate|]. now rewrite <- Rt. }
  rewrite R1 in Er. injection Er as -> ->.
  pose proof (pressure_factor_pos P f0 P0) as Q0. pose proof (pressure_factor_pos P f1 P0) as Q1.
  pose proof (Rate_Proofs.kT_pos _ T) as KT. pose proof (Rate_Proofs.frequency_pos _ T) as FT.
  set (F' := Rate_Spec.frequency _) in *. set (k := Rate_Spec.kT _) in *.
  set (u := Rate_Spec.pressure_factor P f0) in *. set (v := Rate_Spec.pressure_factor P f1) in *.
  unfold balanced, weight. set (eb := energy E (named (d_before p))). set (ea := energy E (named (d_after p))).
  assert (X0 : (u * (F' * exp (- gaf / k)) * exp (- eb) = F' * exp (ln u - gaf / k - eb))%R).
  { rewrite <- (exp_ln u Q0) at 1. replace (ln u - gaf / k - eb)%R with (ln u + (- gaf / k) + (- eb))%R by (field; lra).
    rewrite !exp_plus. ring. }
  assert (X1 : (v * (F' * exp (- gar / k)) * exp (- ea) = F' * exp (ln v - gar / k - ea))%R).
  { rewrite <- (exp_ln v Q1) at 1. replace (ln v - gar / k - ea)%R with (ln v + (- gar / k) + (- ea))%R by (field; lra).
    rewrite !exp_plus. ring. }
  rewrite X0, X1.
  assert (Dk : (dg / k = gaf / k - gar / k)%R) by (rewrite <- Dg; field; lra). rewrite Dk.
  split; intro H.
  - apply Rmult_eq_reg_l in H; [|lra]. apply exp_inv in H. lra.
  - do 2 f_equal. lra.
Qed.

(** ** Two sites, each the other's neighbour, of different basis sites. *)
Definition l_neighbour (a : nat) (c : list Q) : nat :=
  match c with x :: _ => if Qeq_bool x 0 then a else 1 - a | [] => a end.
Definition l_basis (a : nat) : Z := Z.of_nat a.

Definition l_owner (rf rr : R) : owner R :=
  {| rxn_expressions := [L "CO_g + *_t -> CO_t"]; possible_element_types := [L "V"; L "CO"];
     rate_algo := L "TST"; rates_CT := fun _ => Ok (rr, rf); rates_TST := fun _ => Ok (rf, rr) |}.

Definition l_over : dict pv := w_def (PList [PStr (L "*"); PStr (L "*")]) (PList (map PStr w_filled)) [].

Lemma l_processes rf rr : exists m,
  get_processes (l_owner rf rr) [] [w_ads] = (Ok (map fst (labelled w_ads w_pdef rf rr false false)), m).
Proof. eexists. vm_compute. reflexivity. Qed.
Lemma l_processes_redist rf rr : exists m,
  get_processes (l_owner rf rr) [] [w_slow_redist] = (Ok (map fst (labelled w_slow_redist w_pdef rf rr false true)), m).
Proof. eexists. vm_compute. reflexivity. Qed.
Definition l_pdef : pdef :=
  {| d_reaction := L "CO_g + *_t -> CO_t"; d_group := [w_coords];
     d_before := [L "*"; L "*"]; d_after := w_filled; d_sites := [PInt 0; PInt 1] |}.
Lemma l_processes_over rf rr : exists m,
  get_processes (l_owner rf rr) [] [l_over] = (Ok (map fst (labelled l_over l_pdef rf rr false false)), m).
Proof. eexists. vm_compute. reflexivity. Qed.

Lemma map_PStr_inj l m : map PStr l = map PStr m -> l = m.
Proof. revert m. induction l as [|x l IH]; intros [|y m] H; try discriminate; auto. injection H as -> H. f_equal. auto. Qed.
Lemma map_floats_inj c c' : map PFloat c = map PFloat c' -> c = c'.
Proof. revert c'. induction c as [|x l IH]; intros [|y m] H; try discriminate; auto. injection H as -> H. f_equal. auto. Qed.

Lemma w_def_is vb va b a extra p : seq_of vb (map PStr b) -> seq_of va (map PStr a) ->
  describes (w_def vb va extra) p -> d_before p = b /\ d_after p = a /\ d_group p = [w_coords].
Proof.
  intros Sb Sa D. destruct (de_before _ _ D) as (v1 & E1 & S1). destruct (de_after _ _ D) as (v2 & E2 & S2).
  destruct (de_group _ _ D) as (v3 & E3 & S3). cbn in E1, E2, E3. injection E1 as <-. injection E2 as <-.
  assert (I : forall v l m, seq_of v (map PStr l) -> seq_of v (map PStr m) -> l = m).
  { intros v l m [-> | ->] [H|H]; try discriminate; injection H as H; now apply map_PStr_inj. }
  split; [eapply I; eauto|]. split; [eapply I; eauto|].
  injection E3 as <-. destruct S3 as [H|H]; [|discriminate]. injection H as H.
  destruct (d_group p) as [|cs [|cs' g]]; try discriminate. f_equal.
  injection H as H. unfold w_coords.
  destruct cs as [|c0 [|c1 [|c2 cs]]]; try discriminate. cbn in H.
  injection H as H0 H1. 
  rewrite (map_floats_inj c0 [0; 0; 0]%Q), (map_floats_inj c1 [1 # 2; 0; 0]%Q); auto.
Qed.

Lemma l_roomy p : d_group p = [w_coords] -> roomy l_neighbour 2 p.
Proof.
  intros H a cs Ha Hc. rewrite H in Hc. destruct Hc as [<-|[]].
  destruct a as [|[|a]]; [| |lia]; cbn; (split; [repeat constructor; cbn; intuition lia|]);
    intros c [<-|[<-|[]]]; cbn; lia.
Qed.

Lemma l_fit : fit' l_neighbour 2 [w_ads].
Proof.
  split.
  - intros d [<-|[]]. reflexivity.
  - intros d p [<-|[]] D. destruct (w_def_is _ _ w_vacant w_filled [] p (or_introl eq_refl) (or_introl eq_refl) D) as (Eb & Ea & Eg).
    split; [|now apply l_roomy]. unfold same_wildcards. rewrite Eb, Ea. repeat constructor; intro; auto; discriminate.
Qed.

Lemma l_balanced (rf rr : R) E d p x y : (rf * exp (- E (L "V")) = rr * exp (- E (L "CO")))%R ->
  In d [w_ads] -> describes d p -> rate_pair (l_owner rf rr) (d_reaction p) x y -> balanced E p x y.
Proof.
  intros B [<-|[]] D Rp. destruct (w_def_is _ _ w_vacant w_filled [] p (or_introl eq_refl) (or_introl eq_refl) D) as (Eb & Ea & Eg).
  assert (x = rf /\ y = rr) as [-> ->].
  { destruct Rp as [[H _]|[_ H]]; [discriminate|]. cbn in H. injection H as -> ->. auto. }
  unfold balanced. rewrite Eb, Ea. unfold weight, energy, sum. cbn. rewrite !Rplus_0_r. exact B.
Qed.

Lemma flow_table neighbour basis n ps X Y :
  flow neighbour basis n ps X Y
  = sum (map (fun rb => sum (map (fun b : bool => if b then fst rb else 0%R) (snd rb)))
      (combine (map p_rate ps) (map (fun p => map (fun a => leads neighbour basis p a X Y) (seq 0 n)) ps))).
Proof.
  unfold flow. f_equal. induction ps as [|p ps IH]; [reflexivity|]. cbn [map combine fst snd]. rewrite IH, map_map. reflexivity.
Qed.

Ltac table := rewrite flow_table;
  match goal with |- context [combine ?a ?b] =>
    let b' := eval vm_compute in b in change b with b'; let a' := eval lazy in a in change a with a' end;
  unfold sum; cbn [combine map fold_right fst snd]; lra.

Lemma l_flow (rf rr : R) :
  flow l_neighbour l_basis 2 (map fst (labelled w_ads w_pdef rf rr false false)) [L "V"; L "V"] [L "CO"; L "V"] = rf /\
  flow l_neighbour l_basis 2 (map fst (labelled w_ads w_pdef rf rr false false)) [L "CO"; L "V"] [L "V"; L "V"] = rr.
Proof. split; table. Qed.

Lemma l_flow_redist (rf rr : R) :
  flow l_neighbour l_basis 2 (map fst (labelled w_slow_redist w_pdef rf rr false true)) [L "V"; L "V"] [L "CO"; L "V"] = rf /\
  flow l_neighbour l_basis 2 (map fst (labelled w_slow_redist w_pdef rf rr false true)) [L "CO"; L "V"] [L "V"; L "V"] = 0%R.
Proof. split; table. Qed.

Lemma l_flow_over (rf rr : R) :
  flow l_neighbour l_basis 2 (map fst (labelled l_over l_pdef rf rr false false)) [L "V"; L "V"] [L "CO"; L "V"] = rf /\
  flow l_neighbour l_basis 2 (map fst (labelled l_over l_pdef rf rr false false)) [L "CO"; L "V"] [L "V"; L "V"] = 0%R.
Proof. split; table. Qed.

Lemma redistribution_irreversible : exists o ds ps m X Y, get_processes o [] ds = (Ok ps, m) /\
  (forall d p, In d ds -> describes d p -> same_wildcards p /\ roomy l_neighbour 2 p) /\
  length X = 2 /\ length Y = 2 /\ (0 < flow l_neighbour l_basis 2 ps X Y)%R /\ flow l_neighbour l_basis 2 ps Y X = 0%R.
Proof.
  destruct (l_processes_redist 10 3) as (m & H). destruct (l_flow_redist 10 3) as [F1 F2].
  do 6 eexists. split; [exact H|]. split.
  - intros d p [<-|[]] D.
    destruct (w_def_is _ _ w_vacant w_filled [(L "redist", PBool true)] p (or_introl eq_refl) (or_introl eq_refl) D) as (Eb & Ea & Eg).
    split; [|now apply l_roomy]. unfold same_wildcards. rewrite Eb, Ea. repeat constructor; intro; auto; discriminate.
  - split; [|split; [|rewrite F1, F2; split; [lra|reflexivity]]]; reflexivity.
Qed.

Lemma overwriting_irreversible : exists o ds ps m X Y, get_processes o [] ds = (Ok ps, m) /\
  (forall d, In d ds -> flag d "redist" false) /\ (forall d p, In d ds -> describes d p -> roomy l_neighbour 2 p) /\
  length X = 2 /\ length Y = 2 /\ (0 < flow l_neighbour l_basis 2 ps X Y)%R /\ flow l_neighbour l_basis 2 ps Y X = 0%R.
Proof.
  destruct (l_processes_over 10 3) as (m & H). destruct (l_flow_over 10 3) as [F1 F2].
  do 6 eexists. split; [exact H|]. split; [intros d [<-|[]]; reflexivity|]. split.
  - intros d p [<-|[]] D.
    destruct (w_def_is _ _ [L "*"; L "*"] w_filled [] p (or_introl eq_refl) (or_introl eq_refl) D) as (Eb & Ea & Eg).
    now apply l_roomy.
  - split; [|split; [|rewrite F1, F2; split; [lra|reflexivity]]]; reflexivity.
Qed.

Lemma reversible' neighbour basis n (o : owner R) mapping ds ps m p a X Y :
  get_processes o mapping ds = (Ok ps, m) ->
  (forall d, In d ds -> flag d "redist" false) ->
  (forall d q, In d ds -> describes d q -> same_wildcards q /\ roomy neighbour n q) ->
  In p ps -> a < n -> length X = n -> event neighbour basis p a X = Some Y ->
  length Y = n /\ exists q, In q ps /\ event neighbour basis q a Y = Some X /\
    p_coordinates q = p_coordinates p /\ p_site q = p_site p.
Proof. intros H A B. apply (reversible neighbour basis n o mapping ds ps m); auto. now apply fit'_fit. Qed.

Lemma balance' neighbour basis n E (o : owner R) mapping ds ps m X Y :
  get_processes o mapping ds = (Ok ps, m) ->
  (forall d, In d ds -> flag d "redist" false) ->
  (forall d q, In d ds -> describes d q -> same_wildcards q /\ roomy neighbour n q) ->
  (forall d p rf rr, In d ds -> describes d p -> rate_pair o (d_reaction p) rf rr -> balanced E p rf rr) ->
  length X = n -> length Y = n ->
  (weight E X * flow neighbour basis n ps X Y = weight E Y * flow neighbour basis n ps Y X)%R.
Proof. intros H A B C LX LY. apply (detailed_balance_flow neighbour basis n E o mapping ds ps m); auto. now apply fit'_fit. Qed.

Lemma stationary' neighbour basis n E (o : owner R) mapping ds ps m Y Xs :
  get_processes o mapping ds = (Ok ps, m) ->
  (forall d, In d ds -> flag d "redist" false) ->
  (forall d q, In d ds -> describes d q -> same_wildcards q /\ roomy neighbour n q) ->
  (forall d p rf rr, In d ds -> describes d p -> rate_pair o (d_reaction p) rf rr -> balanced E p rf rr) ->
  length Y = n -> (forall X, In X Xs -> length X = n) ->
  sum (map (fun X => weight E X * flow neighbour basis n ps X Y)%R Xs)
  = (weight E Y * sum (map (fun X => flow neighbour basis n ps Y X) Xs))%R.
Proof. intros H A B C LY LX. apply (stationary_flow neighbour basis n E o mapping ds ps m); auto. now apply fit'_fit. Qed.

From Verif Require Rate_Witness.

(** The definition of adsorption with the rates of transition state theory for CO at 300 K. *)
Definition t_pdef : pdef :=
  {| d_reaction := Rate_Witness.co_rxn; d_group := [w_coords]; d_before := w_vacant; d_after := w_filled; d_sites := [PInt 0] |}.
Definition t_owner : owner R :=
  {| rxn_expressions := [Rate_Witness.co_rxn]; possible_element_types := [L "V"; L "CO"]; rate_algo := L "TST";
     rates_CT := fun _ => Err KeyError;
     rates_TST := fun e => Rate_Model.rates_TST (Rate_Witness.co_owner 300 1) e Rate_Witness.co_energies true |}.

Lemma t_case : exists rf rr, rate_pair t_owner (d_reaction t_pdef) rf rr /\
  forall E, balanced E t_pdef rf rr <-> (E (L "CO") - E (L "V") = 1 / Rate_Spec.kT 300)%R.
Proof.
  destruct Rate_Witness.co_pressures as (fls & f0 & f1 & F & F0 & F1 & U & K).
  assert (T : (0 < Thermo_Model.o_T (Rate_Witness.co_owner 300 1))%R) by (cbn; lra).
  pose proof (Rate_Proofs.rates_TST_plain _ _ _ _ _ _ T Rate_Witness.co_energies_of) as R0.
  pose proof (Rate_Proofs.rates_TST_pressure _ _ _ _ _ _ _ _ _ R0 F F0 F1 U K) as R1.
  do 2 eexists. split; [right; split; [reflexivity|exact R1]|]. intro E.
  rewrite (tst_balanced t_owner (Rate_Witness.co_owner 300 1) Rate_Witness.co_energies t_pdef fls f0 f1 (fun _ => 1%R)
    3 2 1 E _ _ eq_refl eq_refl T Rate_Witness.co_energies_of ltac:(lra) F F0 F1 U K ltac:(intro; lra)
    (or_intror (conj eq_refl R1))).
  assert (P1 : forall fs, Rate_Spec.pressure_factor (fun _ => 1%R) fs = 1%R).
  { induction fs as [|f t IH]; cbn [Rate_Spec.pressure_factor]; auto. rewrite IH.
    destruct (str_eqb _ _); auto. rewrite powerRZ_R1. lra. }
  rewrite !P1, ln_1.
  change (named (d_after t_pdef)) with [L "CO"]. change (named (d_before t_pdef)) with [L "V"].
  change (Thermo_Model.o_T (Rate_Witness.co_owner 300 1)) with 300%R.
  unfold energy, sum. cbn [map fold_right]. split; intro H; lra.
Qed.
