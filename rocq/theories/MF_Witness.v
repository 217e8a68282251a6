(** Concrete mechanisms for the coverage, rate and turnover theorems. *)
From Coq Require Import String Ascii List ZArith NArith Bool Arith Reals Lia Lra.
Import ListNotations.
From Verif Require Import PyBase PyBaseFacts Rxn_Model Rxn_Spec Rxn_Proofs Species_Model Species_Spec
  Species_Proofs Species_Matrix PyReal Energy_Proofs MF_Model MF_Spec MF_Cover MF_Rate MF_More.
Local Open Scope nat_scope.
Local Open Scope list_scope.

(** ** Deciding the hypotheses *)
Definition surfaceb (t : str) : bool := negb (str_eqb t (L "g")) && negb (str_eqb t (L "l")).
Lemma surfaceb_iff t : surfaceb t = true <-> surface_site t.
Proof.
  unfold surfaceb, surface_site. rewrite andb_true_iff, !negb_true_iff, !str_eqb_neq. tauto.
Qed.

Definition usableb (st : list formula) : bool :=
  forallb (fun f =>
    if surfaceb (f_site f)
    then (negb (has_char "-" (f_species f)) && negb (has_char "*" (f_species f)))
         || str_eqb (f_species_site f) (L "*_" ++ f_site f)
    else negb (has_char "*" (f_species f))) st.

Lemma has_char_not_In c t : has_char c t = false -> ~ In c t.
Proof. intros H I. apply has_char_In in I. congruence. Qed.

Lemma usableb_ok st : usableb st = true -> usable st.
Proof.
  unfold usableb. rewrite forallb_forall. intro H. split.
  - intros f Hf Sf. specialize (H f Hf). apply surfaceb_iff in Sf as Sf'. rewrite Sf' in H.
    apply orb_true_iff in H as [H|H].
    + apply andb_true_iff in H as [H1 H2]. apply negb_true_iff in H1, H2. left.
      split; [exact Sf|]. split; now apply has_char_not_In.
    + right. now apply str_eqb_eq.
  - intros f Hf Sf. specialize (H f Hf). destruct (surfaceb (f_site f)) eqn:E; [apply surfaceb_iff in E; tauto|].
    apply negb_true_iff in H. now apply has_char_not_In.
Qed.

Definition usable_rxnb (fls : list (list formula)) : bool :=
  match lfirst fls, llast fls with Ok a, Ok b => usableb a && usableb b | _, _ => true end.
Lemma usable_rxnb_ok fls : usable_rxnb fls = true -> usable_rxn fls.
Proof.
  unfold usable_rxnb, usable_rxn. intros H a b E1 E2. rewrite E1, E2 in H. apply andb_true_iff in H as [H1 H2].
  split; now apply usableb_ok.
Qed.

Definition hasb {A} (d : dict A) (n : str) : bool := match dget d n with Some _ => true | None => false end.
Definition preparedb (s : setup) : bool :=
  forallb (hasb (s_total s)) (l_site (s_lists s)) && forallb (hasb (s_pressure s)) (l_gas (s_lists s))
  && forallb (hasb (s_conc s)) (l_liq (s_lists s)).
Lemma hasb_ok {A} (d : dict A) ns : forallb (hasb d) ns = true -> forall n, In n ns -> exists x, dget d n = Some x.
Proof. rewrite forallb_forall. intros H n Hn. specialize (H n Hn). unfold hasb in H. destruct (dget d n); eauto. discriminate. Qed.
Lemma usable_setup_ok s : parse_rxns (s_exprs s) = Ok (s_lists s) -> preparedb s = true ->
  forallb usable_rxnb (l_rxns (s_lists s)) = true -> usable_setup s.
Proof.
  intros P B F. unfold preparedb in B. apply andb_true_iff in B as [B B3]. apply andb_true_iff in B as [B1 B2].
  split; [split; [exact P|split; [|split]]|].
  - now apply hasb_ok.
  - now apply hasb_ok.
  - now apply hasb_ok.
  - intros fls Hf. rewrite forallb_forall in F. apply usable_rxnb_ok. auto.
Qed.

Definition named (name : str) (f : formula) : bool := str_eqb (f_species_site f) name.
Definition countb (name : str) (st : list formula) : nat := length (filter (named name) st).
Lemma count_absent name st : countb name st = 0 -> forall g, In g st -> f_species_site g <> name.
Proof.
  unfold countb. intros H g Hg E. assert (In g (filter (named name) st)) as I.
  { apply filter_In. split; auto. unfold named. now apply str_eqb_eq. }
  destruct (filter (named name) st); [destruct I|discriminate].
Qed.
Lemma count_one name st : countb name st = 1 -> exists b f a, st = b ++ f :: a /\ f_species_site f = name /\
  (forall g, In g b -> f_species_site g <> name) /\ (forall g, In g a -> f_species_site g <> name).
Proof.
  induction st as [|f st IH]; intro H; [discriminate|]. unfold countb in *. cbn [filter] in H.
  destruct (named name f) eqn:E.
  - exists [], f, st. split; [reflexivity|]. split; [now apply str_eqb_eq|]. split; [intros g []|].
    apply count_absent. unfold countb. cbn in H. lia.
  - destruct (IH H) as (b & g & a & -> & H1 & H2 & H3). exists (f :: b), g, a. repeat split; auto.
    intros h [<-|Hh]; auto. intro Q. apply str_eqb_eq in Q. unfold named in E. congruence.
Qed.

Definition plain_inb (name : str) (fls : list (list formula)) : bool :=
  forallb (fun st => Nat.eqb (countb name st) 0) fls ||
  match fls with
  | first :: rest =>
      match rev rest with
      | last :: rmid =>
          (Nat.eqb (countb name first) 1 && Nat.eqb (countb name last) 0) ||
          (forallb (fun st => Nat.eqb (countb name st) 0) (first :: rmid) && Nat.eqb (countb name last) 1)
      | [] => false
      end
  | [] => false
  end.
Lemma counts_absent name fls : forallb (fun st => Nat.eqb (countb name st) 0) fls = true -> absent name fls.
Proof.
  rewrite forallb_forall. intros H st g Hs Hg. apply (count_absent name st); auto. apply Nat.eqb_eq. auto.
Qed.
Lemma plain_inb_ok name fls : plain_inb name fls = true -> plain_in name fls.
Proof.
  unfold plain_inb. intro H. apply orb_true_iff in H as [H|H]; [left; now apply counts_absent|].
  destruct fls as [|first rest]; [discriminate|]. destruct (rev rest) as [|last rmid] eqn:E; [discriminate|].
  assert (Er : rest = rev rmid ++ [last]) by (rewrite <- (rev_involutive rest), E; reflexivity).
  apply orb_true_iff in H as [H|H]; apply andb_true_iff in H as [H1 H2].
  - apply Nat.eqb_eq in H1, H2. destruct (count_one _ _ H1) as (b & f & a & -> & Ef & Hb & Ha). right. left.
    exists b, f, a, (rev rmid), last. split; [now rewrite Er|]. split; auto.
    intros st g [<-|[<-|[<-|[]]]] Hg; auto. now apply (count_absent name last).
  - apply Nat.eqb_eq in H2. destruct (count_one _ _ H2) as (b & f & a & -> & Ef & Hb & Ha). right. right.
    exists b, f, a, (first :: rev rmid). split; [now rewrite Er|]. split; [discriminate|]. split; auto.
    intros st g [<-|[<-|Hs]] Hg; auto. apply counts_absent in H1. apply (H1 st g); auto.
    destruct Hs as [<-|Hs]; [now left|right]. now apply in_rev.
Qed.
Lemma all_plain_ok s : forallb (fun n => forallb (plain_inb n) (l_rxns (s_lists s))) (ads s) = true ->
  forall name fls, In name (ads s) -> In fls (l_rxns (s_lists s)) -> plain_in name fls.
Proof.
  rewrite forallb_forall. intros H n fls Hn Hf. specialize (H n Hn). rewrite forallb_forall in H.
  apply plain_inb_ok. auto.
Qed.

(** ** Mechanisms *)
Definition no_lists : lists := {| l_rxns := []; l_ads := []; l_gas := []; l_liq := []; l_site := []; l_ts := [] |}.
Definition lists_of (es : list str) : lists := match parse_rxns es with Ok p => p | Err _ => no_lists end.
Definition setup_of (es : list str) (ls : lists) (tot : dict num) (p c : dict R) : setup :=
  {| s_exprs := es; s_lists := ls; s_total := tot; s_pressure := p; s_conc := c |}.
Definition one : num := {| n_val := 1; n_text := L "1.0" |}.
Definition tenth : num := {| n_val := / 10; n_text := L "0.1" |}.

Definition oxidation : list str :=
  [L "CO_g + *_s -> CO_s"; L "O2_g + 2*_s -> 2O_s"; L "CO_s + O_s <-> CO-O_2s -> CO2_g + 2*_s"].
Definition ox_lists : lists := Eval vm_compute in lists_of oxidation.
Definition ox_setup : setup :=
  setup_of oxidation ox_lists [(L "*_s", one)] [(L "CO_g", 2); (L "O2_g", 3); (L "CO2_g", 0)]%R [].
Lemma ox_usable : usable_setup ox_setup.
Proof. apply usable_setup_ok; vm_compute; reflexivity. Qed.
Lemma ox_plain : forall name fls, In name (ads ox_setup) -> In fls (l_rxns (s_lists ox_setup)) -> plain_in name fls.
Proof. apply all_plain_ok. vm_compute. reflexivity. Qed.
Lemma ox_ads : ads ox_setup = [L "CO_s"; L "O_s"].
Proof. vm_compute. reflexivity. Qed.

(** A reaction in which O_s takes part without being used up. *)
Definition spectator : list str := [L "O_s + 2H_s -> O_s + H2_s + *_s"].
Definition sp_lists : lists := Eval vm_compute in lists_of spectator.
Definition sp_setup : setup := setup_of spectator sp_lists [(L "*_s", one)] [] [].
Lemma sp_usable : usable_setup sp_setup.
Proof. apply usable_setup_ok; vm_compute; reflexivity. Qed.
Lemma sp_ads : ads sp_setup = [L "H2_s"; L "H_s"; L "O_s"].
Proof. vm_compute. reflexivity. Qed.

(** The same reaction written twice. *)
Definition twice : list str := [L "CO_g + *_s -> CO_s"; L "CO_g + *_s -> CO_s"].
Definition tw_lists : lists := Eval vm_compute in lists_of twice.
Definition tw_setup : setup := setup_of twice tw_lists [(L "*_s", one)] [(L "CO_g", 2%R)] [].
Lemma tw_usable : usable_setup tw_setup.
Proof. apply usable_setup_ok; vm_compute; reflexivity. Qed.

(** A scarce site. *)
Definition adsorption : list str := [L "CO_g + *_s -> CO_s"].
Definition sc_lists : lists := Eval vm_compute in lists_of adsorption.
Definition sc_setup : setup := setup_of adsorption sc_lists [(L "*_s", tenth)] [(L "CO_g", 2%R)] [].
Lemma sc_usable : usable_setup sc_setup.
Proof. apply usable_setup_ok; vm_compute; reflexivity. Qed.

(** ** Facts about them *)
Lemma at_position {A} (l : list A) x j : nth_error l j = Some x ->
  (forall k, k < j -> nth_error l k <> Some x) -> first_position l x j.
Proof. split; auto. Qed.

Ltac first_pos := apply at_position; [reflexivity|];
  let k := fresh in let H := fresh in
  intros k H; repeat (destruct k as [|k]; [vm_compute; discriminate|]); lia.

Lemma list3 (a b c a' b' c' : R) : a = a' -> b = b' -> c = c' -> [a; b; c] = [a'; b'; c'].
Proof. congruence. Qed.

Lemma ox_rates t1 t2 a b c a' b' c' : exists data rfs rrs,
  get_data ox_setup = Ok data /\
  rates ox_setup (Ok ([a; b; c], [a'; b'; c'])%R) (Some data) [t1; t2] = Ok (rfs, rrs) /\
  rfs = [a * 2 * (1 - t1 - t2); b * 3 * (1 - t1 - t2) ^ 2; c * t1 * t2]%R /\
  rrs = [a' * t1; b' * t2 ^ 2; c' * 0 * (1 - t1 - t2) ^ 2]%R.
Proof.
  assert (Len : length [t1; t2] = length (ads ox_setup)) by (rewrite ox_ads; reflexivity).
  destruct (rates_indexed ox_setup ox_usable [t1; t2] [a; b; c] [a'; b'; c'] Len eq_refl eq_refl)
    as (data & rfs & rrs & E1 & E2 & L1 & L2 & H).
  exists data, rfs, rrs. split; [exact E1|]. split; [exact E2|].
  destruct rfs as [|f0 [|f1 [|f2 [|]]]]; try discriminate. destruct rrs as [|r0 [|r1 [|r2 [|]]]]; try discriminate.
  pose proof (fun first last => H 0 0 _ _ first last a a' eq_refl ltac:(first_pos) eq_refl) as H0.
  pose proof (fun first last => H 1 1 _ _ first last b b' eq_refl ltac:(first_pos) eq_refl) as H1.
  pose proof (fun first last => H 2 2 _ _ first last c c' eq_refl ltac:(first_pos) eq_refl) as H2.
  clear H. edestruct H0 as [A0 B0]; [vm_compute; reflexivity|vm_compute; reflexivity|reflexivity|reflexivity|].
  edestruct H1 as [A1 B1]; [vm_compute; reflexivity|vm_compute; reflexivity|reflexivity|reflexivity|].
  edestruct H2 as [A2 B2]; [vm_compute; reflexivity|vm_compute; reflexivity|reflexivity|reflexivity|].
  clear H0 H1 H2. cbn [nth_error] in *.
  injection A0 as ->. injection A1 as ->. injection A2 as ->. injection B0 as ->. injection B1 as ->. injection B2 as ->.
  lazy -[Rmult Rminus Rplus Rpow_def.pow IZR]. split; apply list3; ring.
Qed.

Lemma sp_refutes : exists s cvgs kf kr data F i name x,
  usable_setup s /\ get_data s = Ok data /\
  steady_state_function s (Ok (kf, kr)) (Some data) cvgs = Ok F /\
  nth_error (ads s) i = Some name /\ nth_error F i = Some x /\
  (forall fls first last, In fls (l_rxns (s_lists s)) -> lfirst fls = Ok first -> llast fls = Ok last ->
     net_consumption name first last = 0%Z) /\ x <> 0%R.
Proof.
  set (q := (/ 4)%R). assert (Q : (0 < q)%R) by (unfold q; lra). clearbody q.
  assert (Len : length [q; q; q] = length (ads sp_setup)) by reflexivity.
  destruct (rates_indexed sp_setup sp_usable [q; q; q] [1%R] [0%R] Len eq_refl eq_refl)
    as (data' & rfs' & rrs' & E1' & E2' & L1 & L2 & HR).
  destruct (steady_indexed sp_setup sp_usable [q; q; q] [1%R] [0%R] Len eq_refl eq_refl)
    as (data & rfs & rrs & F & E1 & E2 & E3 & LF & H).
  assert (data' = data) by congruence. subst data'. rewrite E2 in E2'. injection E2' as <- <-.
  change (length (ads sp_setup)) with 3 in LF. change (length (s_exprs sp_setup)) with 1 in *.
  destruct F as [|x0 [|x1 [|x [|]]]]; try discriminate.
  destruct rfs as [|rf [|]]; try discriminate. destruct rrs as [|rr [|]]; try discriminate.
  exists sp_setup, [q; q; q], [1%R], [0%R], data, [x0; x1; x], 2, (L "O_s"), x.
  split; [exact sp_usable|]. split; [exact E1|]. split; [exact E3|]. split; [reflexivity|]. split; [reflexivity|].
  split.
  { intros fls first last [<-|[]] H1 H2. vm_compute in H1. injection H1 as <-. vm_compute in H2. injection H2 as <-.
    vm_compute. reflexivity. }
  destruct (H 2 (L "O_s") x eq_refl eq_refl) as (cs & Lc & -> & C).
  destruct cs as [|c [|]]; try discriminate. cbn [Rsum].
  pose proof (C 0 _ rf rr c eq_refl eq_refl eq_refl eq_refl) as C0. clear C H.
  destruct C0 as [[A _]|[(n & M & ->)|(i & n & M & _)]].
  - exfalso. eapply (A _ _ (or_introl eq_refl) (or_introl eq_refl)). reflexivity.
  - assert (M' : met_first (L "O_s") (hd [] (l_rxns (s_lists sp_setup))) 0 1%Z).
    { eexists _, [], _, _. split; [reflexivity|]. split; [reflexivity|]. split; [reflexivity|]. split; [reflexivity|].
      split; [intros g []|]. intros k st' Hk. lia. }
    destruct (met_first_unique _ _ _ _ _ _ M M') as [_ ->].
    edestruct (HR 0 0 (L "O_s + 2H_s -> O_s + H2_s + *_s")) as [R1 R2];
      [reflexivity|first_pos|reflexivity|reflexivity|reflexivity|reflexivity|reflexivity|].
    cbn [nth_error] in R1, R2. injection R1 as ->. injection R2 as ->.
    match goal with |- (IZR 1 * (?u - ?w) + 0)%R <> 0%R =>
      replace u with 0%R; [replace w with (q * (q * q))%R|] end.
    + assert (0 < q * (q * q))%R by (repeat apply Rmult_lt_0_compat; auto). lra.
    + lazy -[Rmult Rminus Rplus IZR]. ring.
    + lazy -[Rmult Rminus Rplus IZR]. ring.
  - exfalso. assert (M' : met_first (L "O_s") (hd [] (l_rxns (s_lists sp_setup))) 0 1%Z).
    { eexists _, [], _, _. split; [reflexivity|]. split; [reflexivity|]. split; [reflexivity|]. split; [reflexivity|].
      split; [intros g []|]. intros k st' Hk. lia. }
    destruct (met_first_unique _ _ _ _ _ _ M M') as [? _]. discriminate.
Qed.

Lemma tw_refutes : exists s cvgs kf kr data rfs rrs i e fls first k x,
  usable_setup s /\ get_data s = Ok data /\ rates s (Ok (kf, kr)) (Some data) cvgs = Ok (rfs, rrs) /\
  nth_error (s_exprs s) i = Some e /\ rxn_formula_list e = Ok fls /\ lfirst fls = Ok first /\
  nth_error kf i = Some k /\ nth_error rfs i = Some x /\ x <> mass_action s cvgs k first.
Proof.
  assert (Len : length [0%R] = length (ads tw_setup)) by reflexivity.
  destruct (rates_indexed tw_setup tw_usable [0%R] [1; 5]%R [0; 0]%R Len eq_refl eq_refl)
    as (data & rfs & rrs & E1 & E2 & L1 & L2 & H).
  edestruct (H 1 0) as [R1 _]; [reflexivity|first_pos|reflexivity|reflexivity|reflexivity|reflexivity|reflexivity|].
  exists tw_setup, [0%R], [1; 5]%R, [0; 0]%R, data, rfs, rrs, 1. do 5 eexists.
  split; [exact tw_usable|]. split; [exact E1|]. split; [exact E2|]. split; [reflexivity|].
  split; [vm_compute; reflexivity|]. split; [reflexivity|]. split; [reflexivity|]. split; [exact R1|].
  lazy -[Rmult Rminus Rplus IZR]. intro Q. apply Rmult_eq_reg_l in Q; [|lra]. lra.
Qed.

Lemma sc_refutes : exists s T ed cvgs, prepared s /\ (0 < T)%R /\
  boltzmann_coverages s T (Some ed) true = Ok cvgs /\ ~ feasible s cvgs.
Proof.
  destruct (boltzmann_facts sc_setup 300 [(L "CO_s", 0%R); (L "*_s", 0%R)] true (proj1 sc_usable) ltac:(lra) ltac:(discriminate))
    as (cvgs & E & Lc & B & _ & _ & _ & Z0).
  { intros n [<-|[<-|[]]]; eexists; reflexivity. }
  exists sc_setup, 300%R, [(L "CO_s", 0%R); (L "*_s", 0%R)], cvgs. split; [exact (proj1 sc_usable)|].
  split; [lra|]. split; [exact E|]. intros (_ & F & _).
  destruct cvgs as [|x [|]]; try discriminate. specialize (Z0 eq_refl 0 (L "CO_s") x eq_refl eq_refl).
  specialize (F 0 (L "CO_s") x eq_refl eq_refl).
  change (ads sc_setup ++ sites sc_setup) with [L "CO_s"; L "*_s"] in Z0.
  change (total sc_setup (site_tag (L "CO_s"))) with (/ 10)%R in F. cbn [map Rsum] in Z0.
  change (value [(L "CO_s", 0%R); (L "*_s", 0%R)] (L "CO_s")) with 0%R in Z0.
  change (value [(L "CO_s", 0%R); (L "*_s", 0%R)] (L "*_s")) with 0%R in Z0.
  replace (- (0 - 0) / Rate_Spec.kT 300)%R with 0%R in Z0 by (unfold Rdiv; ring). rewrite exp_0 in Z0. lra.
Qed.


Lemma NoDup_first {A} (l : list A) i x : NoDup l -> nth_error l i = Some x -> first_position l x i.
Proof.
  intros N H. split; auto. intros k Hk E. rewrite NoDup_nth_error in N.
  assert (k = i); [|lia]. apply N; [|congruence]. apply nth_error_Some. congruence.
Qed.

Lemma rates_distinct s cvgs kf kr : usable_setup s -> NoDup (s_exprs s) -> length cvgs = length (ads s) ->
  length kf = length (s_exprs s) -> length kr = length (s_exprs s) ->
  exists data rfs rrs,
    get_data s = Ok data /\ rates s (Ok (kf, kr)) (Some data) cvgs = Ok (rfs, rrs) /\
    length rfs = length (s_exprs s) /\ length rrs = length (s_exprs s) /\
    forall i fls first last a b,
      nth_error (l_rxns (s_lists s)) i = Some fls -> lfirst fls = Ok first -> llast fls = Ok last ->
      nth_error kf i = Some a -> nth_error kr i = Some b ->
      nth_error rfs i = Some (mass_action s cvgs a first) /\
      nth_error rrs i = Some (mass_action s cvgs b last).
Proof.
  intros U N Len Lf Lr. destruct (rates_indexed s U cvgs kf kr Len Lf Lr) as (data & rfs & rrs & E1 & E2 & L1 & L2 & H).
  exists data, rfs, rrs. do 4 (split; [assumption|]). intros i fls first last a b Hf H1 H2 Ha Hb.
  assert (Hi : i < length (s_exprs s)) by (rewrite <- Lf; apply nth_error_Some; congruence).
  destruct (nth_error_lt (s_exprs s) i _ eq_refl Hi) as [e He].
  apply (H i i e fls first last a b); auto. now apply NoDup_first.
Qed.

Lemma ox_example_covered : exists cl d, classify ox_setup = Ok cl /\ tuple2dict ox_setup cl [/ 4; / 2]%R = Ok d /\
  map fst d = [L "CO_s"; L "O_s"; L "*_s"] /\ exists free, dget d (L "*_s") = Some free /\ free = (/ 4)%R.
Proof.
  destruct (views_agree ox_setup (proj1 ox_usable) [/ 4; / 2]%R eq_refl) as (cl & d & E1 & E2 & _ & K & _ & F).
  exists cl, d. split; [exact E1|]. split; [exact E2|]. split; [exact K|].
  destruct (F (L "*_s") (or_introl eq_refl)) as (free & G & S0). exists free. split; [exact G|].
  change (total ox_setup (L "*_s")) with 1%R in S0.
  change (covered (L "*_s") (ads ox_setup) [/ 4; / 2]%R) with (/ 4 + (/ 2 + 0))%R in S0. lra.
Qed.

Lemma ox_constrained : exists c, constrain_coverages ox_setup [2; -1]%R = Ok c /\ nth_error c 0 = Some 1%R /\
  nth_error c 1 = Some 0%R.
Proof.
  destruct (constrain_exact ox_setup [2; -1]%R (proj1 ox_usable)) as (c & E & Lc & H).
  { intros site [<-|[]]. change (0 <= 1)%R. lra. }
  { reflexivity. }
  assert (C : clipped ox_setup [2; -1]%R = [1; 0]%R).
  { change (clipped ox_setup [2; -1]%R) with [Rmin (Rmax 0 (Rmin 1 2)) 1; Rmin (Rmax 0 (Rmin 1 (-1))) 1]%R.
    rewrite (Rmin_left 1 2), (Rmin_right 1 (-1)) by lra. rewrite (Rmax_right 0 1), (Rmax_left 0 (-1)) by lra.
    rewrite (Rmin_left 1 1), (Rmin_left 0 1) by lra. reflexivity. }
  assert (S0 : share ox_setup [1; 0]%R (L "*_s") = 1%R).
  { unfold share. cbn zeta. destruct (Rle_dec _ _) as [Hl|Hl]; auto. exfalso. apply Hl.
    change (1 + (0 + 0) <= 1)%R. lra. }
  exists c. split; [exact E|].
  pose proof (H 0 _ _ eq_refl (f_equal (fun l => nth_error l 0) C)) as H0.
  pose proof (H 1 _ _ eq_refl (f_equal (fun l => nth_error l 1) C)) as H1.
  rewrite C in H0, H1. change (site_tag _) with (L "*_s") in H0. change (site_tag _) with (L "*_s") in H1.
  rewrite S0 in H0, H1. rewrite H0, H1. split; f_equal; ring.
Qed.
