(** Lemmas: expected rates on a lattice are those of mass action (C110). *)
From Coq Require Import String Ascii List ZArith NArith Bool Arith QArith Reals Lra Lia Permutation.
Import ListNotations.
From Verif Require Import PyBase PyBaseFacts Kmc_Model Kmc_Spec Kmc_Proofs KmcLat_Spec KmcLat_Proofs KmcLat_Reach KmcMean_Spec.
From Verif Require Rxn_Model MF_Model MF_Spec Rate_Model Rate_Spec Rate_Proofs.
Local Open Scope list_scope.
Local Open Scope nat_scope.

Lemma product_app l m : product (l ++ m) = (product l * product m)%R.
Proof. unfold product. induction l as [|x l IH]; cbn; [lra|]. rewrite IH. lra. Qed.

Lemma product_perm l m : Permutation l m -> product l = product m.
Proof. intro P. unfold product. induction P; cbn; try lra; rewrite ?IHP; auto; congruence. Qed.

Lemma sum_flat_map {A B} (f : B -> R) (g : A -> list B) l :
  sum (map f (flat_map g l)) = sum (map (fun x => sum (map f (g x))) l).
Proof.
  induction l as [|x l IH]; [reflexivity|]. cbn [flat_map map]. rewrite map_app, sum_app, IH. reflexivity.
Qed.

(** A sum over configurations of products over sites is a product of sums. *)
Fixpoint over (g : nat -> str -> R) (s : nat) (X : config) : R :=
  match X with [] => 1%R | x :: t => (g s x * over g (S s) t)%R end.

Lemma sum_over types g n : forall s,
  sum (map (over g s) (configs types n)) = product (map (fun i => sum (map (g i) types)) (seq s n)).
Proof.
  induction n as [|n IH]; intro s.
  - unfold sum, product. cbn. lra.
  - cbn [configs seq map]. rewrite sum_flat_map. unfold product. cbn [fold_right]. fold (product (map (fun i => sum (map (g i) types)) (seq (S s) n))).
    rewrite <- IH. rewrite Rmult_comm, sum_scale. rewrite map_map. apply sum_ext. intros t _.
    rewrite map_map. cbn [over]. rewrite <- (map_map (over g (S s)) (fun x => (g s t * x)%R)), <- sum_scale. ring.
Qed.

Definition need (e t : str) : bool := str_eqb e (L "*") || str_eqb t e.
(** What the constraints say of one site. *)
Definition meets (l : list (nat * str)) (s : nat) (t : str) : bool :=
  forallb (fun se => negb (fst se =? s) || need (snd se) t) l.
Definition cell (theta : str -> R) (l : list (nat * str)) (s : nat) (t : str) : R :=
  (theta t * if meets l s t then 1 else 0)%R.

Lemma fits_meets l : forall X, (forall se, In se l -> fst se < length X) ->
  forallb (fits X) l = true <-> (forall s x, nth_error X s = Some x -> meets l s x = true).
Proof.
  intros X B. rewrite forallb_forall. unfold meets. split.
  - intros H s x Hx. apply forallb_forall. intros [s' e] Hin. cbn [fst snd].
    destruct (Nat.eqb_spec s' s) as [->|]; [|reflexivity]. cbn [negb orb].
    specialize (H _ Hin). unfold fits in H. cbn [fst snd] in H. rewrite Hx in H. exact H.
  - intros H [s e] Hin. specialize (B _ Hin). cbn in B. unfold fits. cbn [fst snd].
    destruct (nth_error X s) as [x|] eqn:Hx; [|apply nth_error_None in Hx; lia].
    specialize (H s x Hx). rewrite forallb_forall in H. specialize (H _ Hin). cbn [fst snd] in H.
    rewrite Nat.eqb_refl in H. exact H.
Qed.

Lemma over_cell theta l : forall X s,
  over (cell theta l) s X
  = (product (map theta X) * if forallb (fun i => match nth_error X i with Some x => meets l (s + i) x | None => true end)
       (seq 0 (length X)) then 1 else 0)%R.
Proof.
  induction X as [|x X IH]; intro s.
  - unfold product. cbn. lra.
  - cbn [over map length seq forallb nth_error]. rewrite IH. unfold product. cbn [fold_right].
    rewrite <- seq_shift, Nat.add_0_r. unfold cell.
    assert (E : forallb (fun i => match nth_error (x :: X) i with Some x0 => meets l (s + i) x0 | None => true end) (map S (seq 0 (length X)))
      = forallb (fun i => match nth_error X i with Some x0 => meets l (S s + i) x0 | None => true end) (seq 0 (length X))).
    { generalize (seq 0 (length X)). intro q. induction q as [|i q IHq]; [reflexivity|]. cbn [map forallb nth_error].
      rewrite IHq. replace (s + S i) with (S s + i) by lia. reflexivity. }
    rewrite E. destruct (meets l s x); cbn [andb]; [|lra].
    destruct (forallb _ _); lra.
Qed.

Lemma configs_length types n X : In X (configs types n) -> length X = n.
Proof.
  revert X. induction n as [|n IH]; intros X H; cbn in H.
  - destruct H as [<-|[]]. reflexivity.
  - apply in_flat_map in H as (t & _ & H). apply in_map_iff in H as (Y & <- & H). cbn. now rewrite (IH Y).
Qed.

Lemma over_fits theta l X : (forall se, In se l -> fst se < length X) ->
  over (cell theta l) 0 X = (product (map theta X) * if forallb (fits X) l then 1 else 0)%R.
Proof.
  intro B. rewrite over_cell. f_equal.
  destruct (forallb (fits X) l) eqn:F.
  - rewrite (proj1 (fits_meets l X B)) in F || idtac.
    pose proof (proj1 (fits_meets l X B) F) as M.
    replace (forallb _ (seq 0 (length X))) with true; [reflexivity|]. symmetry. apply forallb_forall. intros i _.
    cbn [plus]. destruct (nth_error X i) eqn:E; auto.
  - destruct (forallb (fun i => match nth_error X i with Some x => meets l (0 + i) x | None => true end) (seq 0 (length X))) eqn:G; [|reflexivity].
    assert (forallb (fits X) l = true); [|congruence]. apply (fits_meets l X B). intros s x Hx.
    rewrite forallb_forall in G. specialize (G s). rewrite Hx in G. apply G. apply in_seq.
    assert (s < length X) by (apply nth_error_Some; congruence). lia.
Qed.

(** The sum over the elements of one site. *)
Definition site_sum theta types l s : R := sum (map (cell theta l s) types).

Lemma sum_pick (theta : str -> R) types e : NoDup types -> In e types ->
  sum (map (fun t => theta t * if str_eqb t e then 1 else 0)%R types) = theta e.
Proof.
  intros N I. unfold sum. induction types as [|t types IH]; [destruct I|]. cbn [map fold_right].
  inversion N as [|? ? N1 N2]; subst. destruct (str_eqb_spec t e) as [->|Ne].
  - assert (Z : fold_right Rplus 0%R (map (fun t => theta t * (if str_eqb t e then 1 else 0))%R types) = 0%R).
    { clear - N1. induction types as [|t types IH]; [reflexivity|]. cbn [map fold_right].
      rewrite IH by (intro H; apply N1; now right).
      destruct (str_eqb_spec t e) as [->|]; [exfalso; apply N1; now left|lra]. }
    rewrite Z. lra.
  - destruct I as [->|I]; [congruence|]. rewrite IH by auto. lra.
Qed.

Lemma meets_absent l s t : ~ In s (map fst l) -> meets l s t = true.
Proof.
  intro H. apply forallb_forall. intros [s' e] Hin. cbn [fst snd].
  destruct (Nat.eqb_spec s' s) as [->|]; [|reflexivity]. exfalso. apply H. apply (in_map fst) in Hin. exact Hin.
Qed.

Lemma product_pick (h : nat -> R) c s l : NoDup l -> In s l -> h s = 1%R ->
  product (map (fun i => if i =? s then c else h i) l) = (c * product (map h l))%R.
Proof.
  intros N I H1. unfold product. induction l as [|i l IH]; [destruct I|]. cbn [map fold_right].
  inversion N as [|? ? N1 N2]; subst. destruct (Nat.eqb_spec i s) as [->|Ne].
  - rewrite H1. f_equal. rewrite Rmult_1_l. f_equal. apply map_ext_in. intros j Hj.
    destruct (Nat.eqb_spec j s) as [->|]; [contradiction|reflexivity].
  - destruct I as [->|I]; [congruence|]. rewrite IH by auto. lra.
Qed.

Lemma sites_product theta types n l : NoDup types -> sum (map theta types) = 1%R ->
  NoDup (map fst l) -> (forall se, In se l -> fst se < n /\ (snd se = L "*" \/ In (snd se) types)) ->
  product (map (site_sum theta types l) (seq 0 n)) = product (map theta (named (map snd l))).
Proof.
  intros N T. induction l as [|[s e] l IH]; intros ND B.
  - assert (forall k, product (map (site_sum theta types []) (seq k n)) = 1%R) as ->; [|reflexivity].
    assert (E : forall s, site_sum theta types [] s = 1%R).
    { intro s. unfold site_sum. rewrite <- T. apply sum_ext. intros t _. unfold cell. cbn. lra. }
    induction n as [|n IHn]; intro k; [reflexivity|]. unfold product in *. cbn [seq map fold_right]. rewrite IHn, E; [lra|].
    intros se [].
  - cbn [map fst snd] in *. inversion ND as [|? ? N1 N2]; subst.
    assert (B' : forall se, In se l -> fst se < n /\ (snd se = L "*" \/ In (snd se) types)) by (intros; apply B; now right).
    specialize (IH N2 B'). destruct (B (s, e) (or_introl eq_refl)) as [Bs Be]. cbn [fst snd] in Bs, Be.
    unfold named. cbn [filter]. fold (named (map snd l)).
    assert (H1 : site_sum theta types l s = 1%R).
    { unfold site_sum. rewrite <- T. apply sum_ext. intros t _. unfold cell. rewrite meets_absent by auto. lra. }
    destruct (str_eqb_spec e (L "*")) as [Ee|Ee]; cbn [negb].
    + rewrite <- IH. f_equal. apply map_ext. intro i. unfold site_sum. f_equal. apply map_ext. intro t.
      unfold cell, meets. cbn [forallb fst snd]. unfold need at 1. rewrite (proj2 (str_eqb_eq _ _) Ee). cbn [orb].
      rewrite orb_true_r. reflexivity.
    + destruct Be as [Be|Be]; [contradiction|].
      rewrite (map_ext (site_sum theta types ((s, e) :: l)) (fun i => if i =? s then theta e else site_sum theta types l i)).
      * rewrite product_pick; auto; [|apply seq_NoDup|apply in_seq; lia].
        rewrite IH. unfold product. reflexivity.
      * intro i. unfold site_sum. destruct (Nat.eqb_spec i s) as [->|Ni].
        -- rewrite <- (sum_pick theta types e N Be). apply sum_ext. intros t _. unfold cell. f_equal.
           unfold meets. cbn [forallb fst snd]. rewrite Nat.eqb_refl. cbn [negb orb].
           fold (meets l s t). rewrite meets_absent, andb_true_r by auto. unfold need.
           destruct (str_eqb_spec e (L "*")); [contradiction|]. reflexivity.
        -- apply sum_ext. intros t _. unfold cell. f_equal. unfold meets. cbn [forallb fst snd].
           destruct (Nat.eqb_spec s i); [congruence|]. reflexivity.
Qed.

Lemma combine_fst {A B} (a : list A) (b : list B) : length b = length a -> map fst (combine a b) = a.
Proof. revert b. induction a as [|x a IH]; intros [|y b] H; try discriminate; auto. cbn. f_equal. apply IH. now injection H. Qed.
Lemma combine_snd {A B} (a : list A) (b : list B) : length b = length a -> map snd (combine a b) = b.
Proof. revert b. induction a as [|x a IH]; intros [|y b] H; try discriminate; auto. cbn. f_equal. apply IH. now injection H. Qed.

Lemma expected_value neighbour basis n theta (o : owner R) mapping ds ps m p a :
  get_processes o mapping ds = (Ok ps, m) -> In p ps ->
  (forall d q, In d ds -> describes d q -> roomy neighbour n q) ->
  NoDup (possible_element_types o) -> sum (map theta (possible_element_types o)) = 1%R ->
  a < n -> number (p_site p) = Some (basis a) ->
  expected_rate neighbour basis n (possible_element_types o) theta p a
  = (p_rate p * product (map theta (named (texts (p_before p)))))%R.
Proof.
  intros H Hp Rm N T Ha Hb.
  destruct (process_cases _ _ _ _ _ _ H Hp) as (d & pd & cs & site & Hd & D & W & Kn & Hc & _ & Ec & _ & Tx).
  destruct (Rm d pd Hd D a cs Ha Hc) as [ND Bd].
  set (types := possible_element_types o) in *.
  assert (Lb : length (texts (p_before p)) = length cs).
  { destruct Tx as [[E _]|[E _]]; rewrite E; [apply (wf_before _ W cs Hc)|apply (wf_after _ W cs Hc)]. }
  assert (Kb : forall e, In e (texts (p_before p)) -> e = L "*" \/ In e types).
  { intros e He. apply Kn. destruct Tx as [[E _]|[E _]]; rewrite E in He; auto. }
  set (l := combine (map (neighbour a) cs) (texts (p_before p))).
  assert (Lc : length (texts (p_before p)) = length (map (neighbour a) cs)) by now rewrite map_length.
  assert (F1 : map fst l = map (neighbour a) cs) by now apply combine_fst.
  assert (F2 : map snd l = texts (p_before p)) by now apply combine_snd.
  assert (B : forall se, In se l -> fst se < n /\ (snd se = L "*" \/ In (snd se) types)).
  { intros se Hs. split.
    - apply (in_map fst) in Hs. rewrite F1 in Hs. apply in_map_iff in Hs as (c & <- & Hc'). now apply Bd.
    - apply Kb. rewrite <- F2. now apply in_map. }
  unfold expected_rate.
  rewrite (sum_ext _ (fun X => (p_rate p * over (cell theta l) 0 X)%R)).
  - rewrite <- (map_map (over (cell theta l) 0) (fun x => (p_rate p * x)%R)), <- sum_scale. f_equal.
    rewrite sum_over. rewrite <- F2. rewrite <- F1 in ND. exact (sites_product theta types n l N T ND B).
  - intros X HX. apply configs_length in HX. rewrite over_fits.
    + unfold event. rewrite Ec, Hb, Z.eqb_refl. cbn [andb]. fold l. destruct (forallb (fits X) l); lra.
    + intros se Hs. rewrite HX. apply (B se Hs).
Qed.

Lemma expected_elsewhere neighbour basis n types theta (p : kmc_process R) a :
  number (p_site p) <> Some (basis a) -> expected_rate neighbour basis n types theta p a = 0%R.
Proof.
  intro H. unfold expected_rate. assert (E : forall X, event neighbour basis p a X = None).
  { intro X. unfold event. destruct (number (p_site p)) as [z|]; [|reflexivity].
    destruct (Z.eqb_spec z (basis a)) as [->|]; [congruence|reflexivity]. }
  induction (configs types n) as [|X l IH]; [reflexivity|]. unfold sum in *. cbn [map fold_right]. rewrite IH, E. lra.
Qed.

(** ** Mass action *)
Lemma map_repeat'' {A B} (f : A -> B) x k : map f (repeat x k) = repeat (f x) k.
Proof. induction k; cbn; congruence. Qed.
Lemma product_repeat x k : product (repeat x k) = (x ^ k)%R.
Proof. unfold product. induction k; cbn; [lra|]. now rewrite IHk. Qed.

Lemma map_inj {A B} (f : A -> B) : (forall x y, f x = f y -> x = y) -> forall l m, map f l = map f m -> l = m.
Proof. intros I. induction l as [|x l IH]; intros [|y m] H; try discriminate; auto. injection H as H1 H2. f_equal; auto. Qed.

Lemma seq_of_unique v l m : seq_of v l -> seq_of v m -> l = m.
Proof. intros [-> | ->] [H|H]; try discriminate; now injection H. Qed.

Lemma describes_unique d p q : describes d p -> describes d q -> p = q.
Proof.
  intros D E. destruct (de_group _ _ D) as (v1 & A1 & B1). destruct (de_before _ _ D) as (v2 & A2 & B2).
  destruct (de_after _ _ D) as (v3 & A3 & B3). destruct (de_sites _ _ D) as (v4 & A4 & B4).
  destruct (de_group _ _ E) as (w1 & C1 & D1). destruct (de_before _ _ E) as (w2 & C2 & D2).
  destruct (de_after _ _ E) as (w3 & C3 & D3). destruct (de_sites _ _ E) as (w4 & C4 & D4).
  pose proof (de_reaction _ _ D) as A0. pose proof (de_reaction _ _ E) as C0.
  rewrite A0 in C0. rewrite A1 in C1. rewrite A2 in C2. rewrite A3 in C3. rewrite A4 in C4.
  injection C0 as C0. injection C1 as <-. injection C2 as <-. injection C3 as <-. injection C4 as <-.
  pose proof (seq_of_unique _ _ _ B1 D1) as E1. pose proof (seq_of_unique _ _ _ B2 D2) as E2.
  pose proof (seq_of_unique _ _ _ B3 D3) as E3. pose proof (seq_of_unique _ _ _ B4 D4) as E4.
  destruct p, q. cbn in *. f_equal; auto.
  - revert E1. apply map_inj. intros x y H. injection H as H. revert H. apply map_inj. intros a b H. injection H as H.
    revert H. apply map_inj. intros u v H. now injection H.
  - revert E2. apply map_inj. intros x y H. now injection H.
  - revert E3. apply map_inj. intros x y H. now injection H.
Qed.

Lemma mass_action_split s cvgs k P st : no_liquid st ->
  (forall f, In f st -> Rxn_Model.f_site f = L "g" -> Rxn_Model.f_stoich f = 1%Z /\
     MF_Spec.value (MF_Model.s_pressure s) (Rxn_Model.f_species_site f) = P (Rxn_Model.f_species_site f)) ->
  MF_Spec.mass_action s cvgs k st
  = (k * Rate_Spec.pressure_factor P st * product (map (MF_Spec.coverage s cvgs) (on_surface st)))%R.
Proof.
  induction st as [|f t IH]; intros NL G.
  - unfold product. cbn. lra.
  - cbn [MF_Spec.mass_action Rate_Spec.pressure_factor on_surface flat_map].
    rewrite IH; [|intros x Hx; apply NL; now right|intros x Hx; apply G; now right].
    unfold MF_Spec.activity. fold (on_surface t).
    destruct (str_eqb_spec (Rxn_Model.f_site f) (L "g")) as [E|E].
    + destruct (G f (or_introl eq_refl) E) as [G1 G2]. rewrite G1, G2. cbn [app].
      change (Z.to_nat 1) with 1. rewrite pow_1. unfold powerRZ. change (Pos.to_nat 1) with 1. rewrite pow_1. ring.
    + destruct (str_eqb_spec (Rxn_Model.f_site f) (L "l")) as [E'|E']; [exfalso; now apply (NL f (or_introl eq_refl))|].
      rewrite map_app, product_app. rewrite map_repeat'', product_repeat. ring.
Qed.

Lemma accepted_processes (o : owner R) mapping ds ps m d pd rf rr site cs :
  get_processes o mapping ds = (Ok ps, m) -> In d ds -> describes d pd -> flag d "redist" false ->
  rate_pair o (d_reaction pd) rf rr -> In site (d_sites pd) -> In cs (d_group pd) ->
  exists p q, In p ps /\ In q ps /\
    p_coordinates p = cs /\ p_site p = site /\ p_rate p = rf /\
    texts (p_before p) = d_before pd /\ texts (p_after p) = d_after pd /\
    p_coordinates q = cs /\ p_site q = site /\ p_rate q = rr /\
    texts (p_before q) = d_after pd /\ texts (p_after q) = d_before pd.
Proof.
  intros H Hd D Fr Rp Hs Hc. destruct (get_processes_inv _ _ _ _ _ H) as (ls & A & ->). clear H.
  assert (exists l, In l ls /\ accepted o d l) as (l & Hl & Acc).
  { clear - A Hd. induction A as [|d' l' ds ls A1 A2 IH]; [destruct Hd|].
    destruct Hd as [->|Hd]; [exists l'; split; [now left|assumption]|].
    destruct (IH Hd) as (l & ? & ?). exists l. split; [now right|assumption]. }
  destruct Acc as (pd' & rf' & rr' & fast & redist & D' & W & _ & _ & Kn & Rp' & _ & Fr' & ->).
  assert (pd' = pd) as -> by (eapply describes_unique; eauto).
  rewrite (flag_unique _ _ _ _ Fr' Fr) in *. clear Fr'.
  assert (rf' = rf /\ rr' = rr) as [-> ->].
  { destruct Rp as [[A1 A2]|[A1 A2]], Rp' as [[B1 B2]|[B1 B2]]; rewrite A1 in B1; try discriminate B1;
      rewrite A2 in B2; injection B2; auto. }
  destruct (de_before _ _ D) as (vb & Db & Sb). destruct (de_after _ _ D) as (va & Da & Sa).
  assert (Hin : forall q : kmc_process R, In q [fwd d pd cs site rf fast; bwd d pd cs site rr fast] -> In q (map fst (concat ls))).
  { intros q Hq. assert (In q (map (@fst (kmc_process R) str) (labelled d pd rf rr fast false))) as Hq'.
    { rewrite labelled_pairs. apply in_flat_map. exists site. split; auto. apply in_flat_map. exists cs. auto. }
    apply in_map_iff in Hq' as (y & Ey & Hy). apply in_map_iff. exists y. split; auto. apply in_concat. eauto. }
  exists (fwd d pd cs site rf fast), (bwd d pd cs site rr fast).
  split; [apply Hin; left; reflexivity|]. split; [apply Hin; right; left; reflexivity|].
  unfold fwd, bwd. cbn [p_coordinates p_site p_rate p_before p_after]. rewrite Db, Da.
  rewrite (texts_of _ _ Sb), (texts_of _ _ Sa). repeat split.
Qed.

Lemma surface_product (theta : str -> R) (occ : str -> str) s cvgs (bs : list str) st : (forall e, In e bs -> theta e = MF_Spec.coverage s cvgs (occ e)) ->
  Permutation (map occ bs) (on_surface st) ->
  product (map theta bs) = product (map (MF_Spec.coverage s cvgs) (on_surface st)).
Proof.
  intros H P. rewrite <- (product_perm _ _ (Permutation_map (MF_Spec.coverage s cvgs) P)), map_map. f_equal.
  now apply map_ext_in.
Qed.

Lemma named_in e l : In e (named l) -> In e l.
Proof. unfold named. intro H. apply filter_In in H. tauto. Qed.

Lemma mean_field neighbour basis n theta (o : owner R) mapping ds ps m d pd ro r fls f0 f1 P kf kr s cvgs occ (site : pv) cs a :
  get_processes o mapping ds = (Ok ps, m) -> In d ds -> describes d pd -> flag d "redist" false ->
  (forall d q, In d ds -> describes d q -> roomy neighbour n q) ->
  NoDup (possible_element_types o) -> sum (map theta (possible_element_types o)) = 1%R ->
  rate_algo o = L "TST" -> rates_TST o (d_reaction pd) = Rate_Model.rates_TST ro (d_reaction pd) r true ->
  Rate_Model.rates_TST ro (d_reaction pd) r false = Ok (kf, kr) ->
  Rxn_Model.rxn_formula_list (d_reaction pd) = Ok fls -> lfirst fls = Ok f0 -> llast fls = Ok f1 ->
  Forall Rate_Spec.unnumbered (Rate_Spec.gases f0 ++ Rate_Spec.gases f1) -> Rate_Spec.knows_pressures ro P [f0; f1] ->
  no_liquid f0 -> no_liquid f1 ->
  (forall f, In f (Rate_Spec.gases f0 ++ Rate_Spec.gases f1) ->
     MF_Spec.value (MF_Model.s_pressure s) (Rxn_Model.f_species_site f) = P (Rxn_Model.f_species_site f)) ->
  (forall e, In e (named (d_before pd)) \/ In e (named (d_after pd)) -> theta e = MF_Spec.coverage s cvgs (occ e)) ->
  Permutation (map occ (named (d_before pd))) (on_surface f0) ->
  Permutation (map occ (named (d_after pd))) (on_surface f1) ->
  In site (d_sites pd) -> In cs (d_group pd) -> a < n -> number site = Some (basis a) ->
  exists p q, In p ps /\ In q ps /\ p_coordinates p = cs /\ p_site p = site /\ p_coordinates q = cs /\ p_site q = site /\
    texts (p_before p) = d_before pd /\ texts (p_after p) = d_after pd /\
    texts (p_before q) = d_after pd /\ texts (p_after q) = d_before pd /\
    expected_rate neighbour basis n (possible_element_types o) theta p a = MF_Spec.mass_action s cvgs kf f0 /\
    expected_rate neighbour basis n (possible_element_types o) theta q a = MF_Spec.mass_action s cvgs kr f1.
Proof.
  intros H Hd D Fr Rm N T Al Rt R0 F F0 F1 U K N0 N1 V Th P0 P1 Hs Hc Ha Hb.
  pose proof (Rate_Proofs.rates_TST_pressure ro _ r _ _ _ P _ _ R0 F F0 F1 U K) as R1.
  assert (Rp : rate_pair o (d_reaction pd) (Rate_Spec.pressure_factor P f0 * kf)%R (Rate_Spec.pressure_factor P f1 * kr)%R).
  { right. split; auto. now rewrite Rt. }
  destruct (accepted_processes o mapping ds ps m d pd _ _ site cs H Hd D Fr Rp Hs Hc)
    as (p & q & Ip & Iq & p1 & p2 & p3 & p4 & p5 & q1 & q2 & q3 & q4 & q5).
  exists p, q. do 10 (split; [assumption|]).
  rewrite Forall_forall in U.
  assert (G : forall f st, In st [f0; f1] -> In f st -> Rxn_Model.f_site f = L "g" ->
    In f (Rate_Spec.gases f0 ++ Rate_Spec.gases f1)).
  { intros f st Hst Hf E. apply in_or_app. destruct Hst as [<-|[<-|[]]]; [left|right]; unfold Rate_Spec.gases;
      apply filter_In; (split; [exact Hf|rewrite E; apply str_eqb_refl]). }
  rewrite !(expected_value neighbour basis n theta o mapping ds ps m) by (auto; congruence).
  rewrite (mass_action_split s cvgs kf P f0), (mass_action_split s cvgs kr P f1); auto.
  - rewrite p3, q3, p4, q4. rewrite (surface_product theta occ s cvgs _ f0), (surface_product theta occ s cvgs _ f1); auto.
    split; ring.
  - intros f Hf E. assert (I := G f f1 (or_intror (or_introl eq_refl)) Hf E). split; [apply (U f I)|now apply V].
  - intros f Hf E. assert (I := G f f0 (or_introl eq_refl) Hf E). split; [apply (U f I)|now apply V].
Qed.
