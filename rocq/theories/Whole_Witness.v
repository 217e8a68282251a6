(** Concrete mechanisms for the whole-mechanism theorems. *)
From Coq Require Import String Ascii List ZArith NArith Bool Arith Reals Lia Lra Permutation.
Import ListNotations.
From Verif Require Import PyBase PyBaseFacts Rxn_Model Rxn_Spec Species_Model Species_Spec
  PyReal Energy_Model Energy_Spec Rate_Model Rate_Spec MF_Model MF_Spec MF_Witness Whole_Spec Whole_Energy
  Whole_Rates Whole_Bound Whole_Order.
Local Open Scope list_scope.
Local Open Scope R_scope.

Definition nodupb (l : list str) : bool := Nat.eqb (length (nodup (list_eq_dec ascii_dec) l)) (length l).
Lemma NoDup_ok l : nodup (list_eq_dec ascii_dec) l = l -> NoDup l.
Proof. intro E. rewrite <- E. apply NoDup_nodup. Qed.

(** ** Cycles *)
Definition two_writings : list str := [L "CO_g + *_s -> CO_s"; L "*_s + CO_g -> CO_s"].
Definition tw_parsed : list (list (list formula)) :=
  Eval vm_compute in match mapM rxn_formula_list two_writings with Ok l => l | Err _ => [] end.
Lemma tw_cycle name : dot [1; -1] (map (fun fls => IZR (produced name fls)) tw_parsed) = 0.
Proof.
  assert (forall a b, nth_error tw_parsed 0 = Some a -> nth_error tw_parsed 1 = Some b -> produced name a = produced name b) as Q.
  { intros a b Ha Hb. injection Ha as <-. injection Hb as <-. unfold produced, molecules. cbn [begins ends hd last map sum_Z]. lia. }
  unfold tw_parsed in *. cbn [map]. rewrite (Q _ _ eq_refl eq_refl). unfold dot. cbn [combine map Rsum fst snd]. ring.
Qed.

Ltac names := repeat match goal with |- context [energy_name ?f] =>
  let v := eval vm_compute in (energy_name f) in change (energy_name f) with v end.
Ltac each_name name := repeat match goal with |- context [str_eqb ?a name] => destruct (str_eqb a name) end.

Definition detour : list str := [L "CO_g + *_s -> CO_s"; L "CO_s + O_s <-> CO-O_2s -> CO2_g + 2*_s"; L "CO_g + O_s -> CO2_g + *_s"].
Definition detour_parsed : list (list (list formula)) :=
  Eval vm_compute in match mapM rxn_formula_list detour with Ok l => l | Err _ => [] end.
Lemma detour_ok : mapM rxn_formula_list detour = Ok detour_parsed.
Proof. vm_compute. reflexivity. Qed.
Definition detour_energies : dict R :=
  [(L "CO_g", 1); (L "O_s", 2); (L "*_s", 3); (L "CO_s", 5); (L "CO2_g", 7); (L "CO-O_2s", 30)].
Lemma detour_cycle name : dot [1; 1; -1] (map (fun fls => IZR (produced name fls)) detour_parsed) = 0.
Proof.
  unfold detour_parsed, produced, molecules. cbn [begins ends hd last map sum_Z f_stoich]. names.
  unfold dot. cbn [combine map Rsum fst snd]. each_name name; lazy -[Rmult Rminus Rplus IZR Ropp]; lra.
Qed.
Lemma detour_relative : exists r, relative_from_absolute true detour_energies detour = Ok r /\
  exists a b c, r_dG r = [a; b; c] /\ a = 1 /\ b = 6 /\ c = 7.
Proof.
  eexists. split; [lazy -[Rmult Rminus Rplus IZR Rmax]; reflexivity|]. cbn [r_dG]. do 3 eexists. split; [reflexivity|].
  repeat split; ring.
Qed.

Lemma supplied_refutes : exists es d st r rxns c,
  rel_parse_data None (Some d) (length es) {| es_rel := None; es_has_rel := false; es_abs := None; es_has_abs := false |}
    = (st, Ok tt) /\ es_rel st = Some r /\
  mapM rxn_formula_list es = Ok rxns /\
  (forall name, dot c (map (fun fls => IZR (produced name fls)) rxns) = 0) /\ dot c (r_dG r) <> 0.
Proof.
  exists two_writings, {| d_Ga := Some [5; 5]; d_dG := Some [1; 2] |}. do 2 eexists. exists tw_parsed, [1; -1].
  split; [reflexivity|]. split; [reflexivity|]. split; [vm_compute; reflexivity|]. split; [exact tw_cycle|].
  cbn. lra.
Qed.

Definition lone : list str := [L "CO_s ->"].
Definition lone_lists : lists := Eval vm_compute in lists_of lone.
Lemma lone_ok : parse_rxns lone = Ok lone_lists.
Proof. vm_compute. reflexivity. Qed.
Lemma lone_refutes : exists es p xs atom site ed ed' r r',
  parse_rxns es = Ok p /\ rereferenced (reference xs atom site) (l_rxns p) ed ed' /\
  relative_from_absolute true ed es = Ok r /\ relative_from_absolute true ed' es = Ok r' /\ r_Gaf r <> r_Gaf r'.
Proof.
  exists lone, lone_lists, ["C"%char], (fun _ => 1), (fun _ => 0), [(L "CO_s", 0)], [(L "CO_s", 1)]. do 2 eexists.
  split; [exact lone_ok|]. split.
  - intros f x (fls & st & H1 & H2 & H3) Hd. unfold lone_lists in H1. cbn in H1. destruct H1 as [<-|[]].
    destruct H2 as [<-|[]]. destruct H3 as [<-|[]].
    match type of Hd with dget _ (energy_name ?f) = _ => change (energy_name f) with (L "CO_s") in * end.
    change (Some 0 = Some x) in Hd. injection Hd as <-. lazy -[Rmult Rminus Rplus IZR]. f_equal. ring.
  - split; [lazy -[Rmult Rminus Rplus IZR Rmax]; reflexivity|]. split; [lazy -[Rmult Rminus Rplus IZR Rmax]; reflexivity|].
    cbn [r_Gaf]. intro Q. injection Q as Q. lra.
Qed.

(** ** Equilibrium *)
Definition eq_setup : setup :=
  setup_of oxidation ox_lists [(L "*_s", MF_Witness.one)] [(L "CO_g", 1); (L "O2_g", 1); (L "CO2_g", 1)] [].
Lemma eq_usable : usable_setup eq_setup.
Proof. apply usable_setup_ok; vm_compute; reflexivity. Qed.
Lemma ox_distinct : NoDup oxidation.
Proof. apply NoDup_ok. vm_compute. reflexivity. Qed.
Definition flat : dict R :=
  [(L "CO_g", 0); (L "O2_g", 0); (L "CO2_g", 0); (L "*_s", 0); (L "CO_s", 0); (L "O_s", 0); (L "CO-O_2s", 1)].
Lemma flat_relative : exists r, relative_from_absolute true flat oxidation = Ok r.
Proof. eexists. lazy -[Rmult Rminus Rplus IZR Rmax]. reflexivity. Qed.

Lemma eq_boltzmann T : 0 < T -> forall st f, end_state eq_setup st -> In f st ->
  activity eq_setup [/ 3; / 3] f
  = exp ((reference [] (fun _ => 0) (fun _ => kT T * ln (/ 3)) f - value flat (energy_name f)) / kT T).
Proof.
  intros HT st f (fls & H1 & H2) H3. pose proof (kT_pos T HT) as HK.
  assert (Z : forall k, k = / 3 -> k = exp ((0 + kT T * ln (/ 3) * 1 - 0) / kT T)).
  { intros k ->. replace ((0 + kT T * ln (/ 3) * 1 - 0) / kT T) with (ln (/ 3)) by (field; lra). rewrite exp_ln; lra. }
  assert (G : 1 = exp ((0 + 0 - 0) / kT T)).
  { replace ((0 + 0 - 0) / kT T) with 0 by (field; lra). now rewrite exp_0. }
  cbn in H1. destruct H1 as [<-|[<-|[<-|[]]]]; (destruct H2 as [->| ->]); cbn in H3;
    repeat (destruct H3 as [<-|H3]; [lazy -[Rmult Rminus Rplus IZR Rdiv exp ln kT Rinv Ropp]; first [exact G | apply Z; try reflexivity; lra]|]); destruct H3.
Qed.

(** ** Physical coverages *)

(** An adsorbate written as the transition state. *)
Definition passing : list str := [L "CO_s <-> OC_s -> C1O_s"].
Definition passing_lists : lists := Eval vm_compute in lists_of passing.
Definition passing_setup : setup := setup_of passing passing_lists [(L "*_s", MF_Witness.one)] [] [].
Lemma passing_usable : usable_setup passing_setup.
Proof. apply usable_setup_ok; vm_compute; reflexivity. Qed.
Lemma passing_ads : ads passing_setup = [L "C1O_s"; L "CO_s"; L "OC_s"].
Proof. vm_compute. reflexivity. Qed.
Lemma passing_refutes : exists s cvgs kf kr data F i name y,
  usable_setup s /\ NoDup (s_exprs s) /\ length cvgs = length (ads s) /\
  (forall k, In k kf \/ In k kr -> 0 <= k) /\ nothing_negative s cvgs /\
  get_data s = Ok data /\ steady_state_function s (Ok (kf, kr)) (Some data) cvgs = Ok F /\
  nth_error (ads s) i = Some name /\ nth_error cvgs i = Some 0 /\ nth_error F i = Some y /\ y < 0.
Proof.
  assert (ND : NoDup (s_exprs passing_setup)) by (apply NoDup_ok; vm_compute; reflexivity).
  destruct (explicit passing_setup passing_usable ND [/ 2; 0; 0] [1] [1] eq_refl eq_refl eq_refl) as (data & E1 & _ & _ & E4 & _).
  exists passing_setup, [/ 2; 0; 0], [1], [1], data. eexists. exists 2%nat, (L "OC_s"). eexists.
  split; [exact passing_usable|]. split; [exact ND|]. split; [reflexivity|]. split.
  { intros k [[<-|[]]|[<-|[]]]; lra. }
  split.
  { split; [discriminate|]. split; [discriminate|]. split.
    - intros x [<-|[<-|[<-|[]]]]; lra.
    - intros site [<-|[]]. change (/ 2 + (0 + (0 + 0)) <= 1). lra. }
  split; [exact E1|]. split; [exact E4|]. split; [reflexivity|]. split; [reflexivity|].
  split; [reflexivity|]. lazy -[Rmult Rminus Rplus IZR Rinv Rlt Ropp]. lra.
Qed.

(** An adsorbate on two sites. *)
Definition wide : list str := [L "O2_2s -> 2O_s"].
Definition wide_lists : lists := Eval vm_compute in lists_of wide.
Definition wide_setup : setup := setup_of wide wide_lists [(L "*_s", MF_Witness.one)] [] [].
Lemma wide_usable : usable_setup wide_setup.
Proof. apply usable_setup_ok; vm_compute; reflexivity. Qed.
Lemma wide_plain : forall name fls, In name (ads wide_setup) -> In fls (l_rxns (s_lists wide_setup)) -> plain_in name fls.
Proof. apply all_plain_ok. vm_compute. reflexivity. Qed.
Lemma wide_ads : ads wide_setup = [L "O2_2s"; L "O_s"].
Proof. vm_compute. reflexivity. Qed.
Lemma wide_refutes : exists s cvgs kf kr data F site,
  usable_setup s /\ NoDup (s_exprs s) /\ length cvgs = length (ads s) /\
  (forall k, In k kf \/ In k kr -> 0 <= k) /\ nothing_negative s cvgs /\
  (forall n fls, In n (ads s) -> In fls (l_rxns (s_lists s)) -> plain_in n fls) /\
  In site (sites s) /\ covered site (ads s) cvgs = total s site /\
  get_data s = Ok data /\ steady_state_function s (Ok (kf, kr)) (Some data) cvgs = Ok F /\
  covered site (ads s) F > 0.
Proof.
  assert (ND : NoDup (s_exprs wide_setup)) by (apply NoDup_ok; vm_compute; reflexivity).
  destruct (explicit wide_setup wide_usable ND [1; 0] [1] [0] eq_refl eq_refl eq_refl) as (data & E1 & _ & _ & E4 & _).
  exists wide_setup, [1; 0], [1], [0], data. eexists. exists (L "*_s").
  split; [exact wide_usable|]. split; [exact ND|]. split; [reflexivity|]. split.
  { intros k [[<-|[]]|[<-|[]]]; lra. }
  split.
  { split; [discriminate|]. split; [discriminate|]. split.
    - intros x [<-|[<-|[]]]; lra.
    - intros site [<-|[]]. change (1 + (0 + 0) <= 1). lra. }
  split; [exact wide_plain|]. split; [now left|]. split; [change (1 + (0 + 0) = 1); lra|].
  split; [exact E1|]. split; [exact E4|]. lazy -[Rmult Rminus Rplus IZR Rinv Rlt Rgt Ropp]. lra.
Qed.

(** The oxidation mechanism meets the hypotheses. *)
Lemma ox_middle name fls : In name (ads ox_setup) -> In fls (l_rxns (s_lists ox_setup)) -> absent name (removelast (tl fls)).
Proof.
  intros Hn Hf. apply counts_absent. rewrite ox_ads in Hn.
  assert (forallb (fun fls => forallb (fun n => forallb (fun st => Nat.eqb (countb n st) 0) (removelast (tl fls))) [L "CO_s"; L "O_s"])
    (l_rxns (s_lists ox_setup)) = true) as Q by (vm_compute; reflexivity).
  rewrite forallb_forall in Q. specialize (Q fls Hf). rewrite forallb_forall in Q. exact (Q name Hn).
Qed.
Lemma ox_single n : In n (ads ox_setup) -> leading_number (after_last_underscore n) = 1%Z.
Proof. rewrite ox_ads. intros [<-|[<-|[]]]; reflexivity. Qed.
Lemma ox_nonneg : nothing_negative ox_setup [0; 1].
Proof.
  split.
  { intros g x H. cbn in H. repeat match type of H with context [if ?b then _ else _] => destruct b end; injection H as <- || discriminate; lra. }
  split; [discriminate|]. split.
  - intros x [<-|[<-|[]]]; lra.
  - intros site [<-|[]]. change (0 + (1 + 0) <= 1). lra.
Qed.

(** ** Writing *)
Definition shuffled : list str :=
  [L "CO_s + O_s <-> CO-O_2s -> CO2_g + 2*_s"; L "O2_g + 2*_s -> 2O_s"; L "CO_g + *_s -> CO_s"].
Definition shuffled_lists : lists := Eval vm_compute in lists_of shuffled.
Definition shuffled_setup : setup :=
  setup_of shuffled shuffled_lists (s_total ox_setup) (s_pressure ox_setup) (s_conc ox_setup).
Lemma shuffled_same : same_but_reactions ox_setup shuffled_setup.
Proof. split; [vm_compute; reflexivity|auto]. Qed.

Definition backwards : list str :=
  [L "CO_s -> CO_g + *_s"; L "O2_g + 2*_s -> 2O_s"; L "CO2_g + 2*_s <-> CO-O_2s -> CO_s + O_s"].
Definition backwards_lists : lists := Eval vm_compute in lists_of backwards.
Definition backwards_setup : setup :=
  setup_of backwards backwards_lists (s_total ox_setup) (s_pressure ox_setup) (s_conc ox_setup).
Lemma backwards_same : same_but_reactions ox_setup backwards_setup.
Proof. split; [vm_compute; reflexivity|auto]. Qed.
Lemma backwards_turned a b c a' b' c' :
  Forall2 turned (combine oxidation (combine [a; b; c] [a'; b'; c'])) (combine backwards (combine [a'; b; c'] [a; b'; c])).
Proof.
  constructor; [|constructor; [|constructor; [|constructor]]].
  - right. split; [vm_compute; reflexivity|reflexivity].
  - left. reflexivity.
  - right. split; [vm_compute; reflexivity|reflexivity].
Qed.
Lemma backwards_plain n fls : In n (ads ox_setup) ->
  In fls (l_rxns (s_lists ox_setup) ++ l_rxns (s_lists backwards_setup)) -> plain_in n fls.
Proof.
  intros Hn Hf. apply plain_inb_ok. rewrite ox_ads in Hn.
  assert (forallb (fun fls => forallb (fun n => plain_inb n fls) [L "CO_s"; L "O_s"])
    (l_rxns (s_lists ox_setup) ++ l_rxns (s_lists backwards_setup)) = true) as Q by (vm_compute; reflexivity).
  rewrite forallb_forall in Q. specialize (Q fls Hf). rewrite forallb_forall in Q. exact (Q n Hn).
Qed.

Definition spectator_back : list str := [L "O_s + H2_s + *_s -> O_s + 2H_s"].
Definition spectator_back_lists : lists := Eval vm_compute in lists_of spectator_back.
Definition spectator_back_setup : setup :=
  setup_of spectator_back spectator_back_lists (s_total sp_setup) (s_pressure sp_setup) (s_conc sp_setup).
Lemma spectator_back_usable : usable_setup spectator_back_setup.
Proof. apply usable_setup_ok; vm_compute; reflexivity. Qed.
Lemma direction_refutes : exists s s' cvgs kf kr kf' kr' data data' F F',
  usable_setup s /\ NoDup (s_exprs s) /\ NoDup (s_exprs s') /\ same_but_reactions s s' /\
  length kf = length (s_exprs s) /\ length kr = length (s_exprs s) /\
  length kf' = length (s_exprs s') /\ length kr' = length (s_exprs s') /\
  Forall2 turned (combine (s_exprs s) (combine kf kr)) (combine (s_exprs s') (combine kf' kr')) /\
  length cvgs = length (ads s) /\ ads s' = ads s /\
  get_data s = Ok data /\ get_data s' = Ok data' /\
  steady_state_function s (Ok (kf, kr)) (Some data) cvgs = Ok F /\
  steady_state_function s' (Ok (kf', kr')) (Some data') cvgs = Ok F' /\ F <> F'.
Proof.
  assert (ND : NoDup (s_exprs sp_setup)) by (apply NoDup_ok; vm_compute; reflexivity).
  assert (ND' : NoDup (s_exprs spectator_back_setup)) by (apply NoDup_ok; vm_compute; reflexivity).
  destruct (explicit sp_setup sp_usable ND [0; / 2; / 4] [1] [0] eq_refl eq_refl eq_refl) as (data & E1 & _ & _ & E4 & _).
  destruct (explicit spectator_back_setup spectator_back_usable ND' [0; / 2; / 4] [0] [1] eq_refl eq_refl eq_refl)
    as (data' & E1' & _ & _ & E4' & _).
  exists sp_setup, spectator_back_setup, [0; / 2; / 4], [1], [0], [0], [1], data, data'. do 2 eexists.
  split; [exact sp_usable|]. split; [exact ND|]. split; [exact ND'|].
  split; [split; [vm_compute; reflexivity|auto]|]. do 4 (split; [reflexivity|]).
  split. { constructor; [|constructor]. right. split; [vm_compute; reflexivity|reflexivity]. }
  split; [reflexivity|]. split; [vm_compute; reflexivity|]. split; [exact E1|]. split; [exact E1'|].
  split; [exact E4|]. split; [exact E4'|].
  intro Q. apply (f_equal (fun l => nth 2 l 0)) in Q. revert Q. lazy -[Rmult Rminus Rplus IZR Rinv Ropp]. intro Q. lra.
Qed.
