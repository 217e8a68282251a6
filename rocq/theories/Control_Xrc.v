(** The sum of the degrees of rate control that [get_single_XRC] returns: lemmas. *)
From Coq Require Import String Ascii List ZArith NArith Bool Arith Reals Relations Lia Lra.
Import ListNotations.
From Verif Require Import PyBase PyBaseFacts Rxn_Model Rxn_Spec Species_Model Species_Spec PyReal Energy_Model Energy_Spec
  Thermo_Model Rate_Model Rate_Spec Rate_Proofs MF_Model MF_Spec MF_Cover MF_Rate MF_More Whole_Spec Whole_Energy Whole_Rates Whole_Order
  MF_Witness Hop_Spec Markov_Proofs Control_Proofs Xrc_Model Xrc_Spec Xrc_Proofs Control_Spec.
Local Open Scope list_scope.
Local Open Scope R_scope.

(** From changes to degrees of rate control. *)
Lemma degrees_of s kf (r f : R) (kfs : nat -> list R) (rs ys : nat -> R) x : length kf = length (s_exprs s) ->
  (forall a, In a kf -> 0 < a) -> f <> 1 -> r <> 0 ->
  (forall j, (j < length (s_exprs s))%nat -> sped_up f j kf (kfs j) /\
     forall k k', nth_error kf j = Some k -> nth_error (kfs j) j = Some k' -> is_control k r k' (rs j) (Num (ys j))) ->
  Rabs (Rsum (map (fun j => rs j - r) (seq 0 (length (s_exprs s)))) - (f - 1) * r) <= x ->
  Rabs (Rsum (map ys (seq 0 (length (s_exprs s)))) - 1) <= x / (Rabs (f - 1) * Rabs r).
Proof.
  intros Lf Pf F1 R0 Q H.
  assert (Y : forall j, (j < length (s_exprs s))%nat -> rs j - r = (f - 1) * r * ys j).
  { intros j Hj. destruct (Q j Hj) as (S1 & C).
    destruct (nth_error kf j) as [k|] eqn:Ek; [|apply nth_error_None in Ek; lia].
    pose proof (proj2 S1 j k Ek) as Ek'. rewrite Nat.eqb_refl in Ek'. specialize (C k (f * k) eq_refl Ek').
    pose proof (Pf k (nth_error_In _ _ Ek)) as Pk. destruct C as [[_ C]|[_ (y & C & E)]]; [discriminate|].
    injection C as <-. apply (Rmult_eq_reg_l k); lra. }
  rewrite (Rsum_ext _ (fun j => (f - 1) * r * ys j)) in H by (intros j Hj; apply in_seq in Hj; apply Y; lia).
  rewrite Rsum_mul in H. set (S := Rsum (map ys (seq 0 (length (s_exprs s))))) in *.
  replace ((f - 1) * r * S - (f - 1) * r) with ((f - 1) * r * (S - 1)) in H by ring.
  rewrite !Rabs_mult in H.
  assert (Pa : 0 < Rabs (f - 1)) by (apply Rabs_pos_lt; lra). assert (Pb : 0 < Rabs r) by now apply Rabs_pos_lt.
  assert (Pc : 0 < Rabs (f - 1) * Rabs r) by now apply Rmult_lt_0_compat.
  apply (Rmult_le_reg_l (Rabs (f - 1) * Rabs r)); [exact Pc|].
  replace (Rabs (f - 1) * Rabs r * (x / (Rabs (f - 1) * Rabs r))) with x by (field; lra). exact H.
Qed.

(** The rule for numbers that are degrees of rate control. *)
Lemma control_rule s l kf kr : usable_setup s -> only_hops s l ->
  length kf = length (s_exprs s) -> length kr = length (s_exprs s) ->
  (forall site, In site (sites s) -> 0 <= total s site <= 1) ->
  (forall a, In a kf -> 0 < a) -> (forall b, In b kr -> 0 < b) -> supplied (Rlt 0) s -> linked s l ->
  forall g, exists K, 0 <= K /\ forall data c r, get_data s = Ok data -> at_rest s kf kr data c -> turns s kf kr data c g r ->
    forall f (kfs krs cs : nat -> list R) (rs ys : nat -> R), 0 < f -> f <> 1 -> r <> 0 ->
    (forall j, (j < length (s_exprs s))%nat -> sped_up f j kf (kfs j) /\ sped_up f j kr (krs j) /\
       at_rest s (kfs j) (krs j) data (cs j) /\ turns s (kfs j) (krs j) data (cs j) g (rs j) /\
       forall k k', nth_error kf j = Some k -> nth_error (kfs j) j = Some k' -> is_control k r k' (rs j) (Num (ys j))) ->
    Rabs (Rsum (map ys (seq 0 (length (s_exprs s)))) - 1) <= K / Rabs r * Rabs (f - 1).
Proof.
  intros U OH Lf Lr Tot Pf Pr Sup Lk g.
  destruct (sum_rule s U l OH Tot Sup Lk kf kr Lf Lr Pf Pr g) as (K & PK & H). exists K. split; [exact PK|].
  intros data c r D Rest T f kfs krs cs rs ys Hf F1 R0 Q.
  assert (Pa : 0 < Rabs (f - 1)) by (apply Rabs_pos_lt; lra). assert (Pb : 0 < Rabs r) by now apply Rabs_pos_lt.
  assert (Sq : (f - 1) * (f - 1) = Rabs (f - 1) * Rabs (f - 1)) by (rewrite <- Rabs_mult; symmetry; apply Rabs_pos_eq, Rle_0_sqr).
  replace (K / Rabs r * Rabs (f - 1)) with (K * ((f - 1) * (f - 1)) / (Rabs (f - 1) * Rabs r)) by (rewrite Sq; field; lra).
  apply (degrees_of s kf r f kfs rs ys _ Lf Pf F1 R0).
  - intros j Hj. destruct (Q j Hj) as (? & _ & _ & _ & ?). auto.
  - apply (H data c r D Rest T f kfs krs cs rs Hf). intros j Hj. destruct (Q j Hj) as (? & ? & ? & ? & _). auto.
Qed.
(** With coverages that are steady up to a tolerance. *)
Lemma near_control_rule s l kf kr : usable_setup s -> only_hops s l ->
  length kf = length (s_exprs s) -> length kr = length (s_exprs s) ->
  (forall site, In site (sites s) -> 0 <= total s site <= 1) ->
  (forall a, In a kf -> 0 < a) -> (forall b, In b kr -> 0 < b) -> supplied (Rlt 0) s -> linked s l ->
  forall g, exists K, 0 <= K /\ forall data tol c r, get_data s = Ok data -> 0 <= tol -> near_rest s kf kr data tol c -> turns s kf kr data c g r ->
    forall f (kfs krs cs : nat -> list R) (rs ys : nat -> R), 0 < f -> f <> 1 -> r <> 0 ->
    (forall j, (j < length (s_exprs s))%nat -> sped_up f j kf (kfs j) /\ sped_up f j kr (krs j) /\
       near_rest s (kfs j) (krs j) data tol (cs j) /\ turns s (kfs j) (krs j) data (cs j) g (rs j) /\
       forall k k', nth_error kf j = Some k -> nth_error (kfs j) j = Some k' -> is_control k r k' (rs j) (Num (ys j))) ->
    Rabs (Rsum (map ys (seq 0 (length (s_exprs s)))) - 1) <= K / Rabs r * (Rabs (f - 1) + tol * (1 + / Rabs (f - 1))).
Proof.
  intros U OH Lf Lr Tot Pf Pr Sup Lk g.
  destruct (near_rule s U l OH Tot Sup Lk kf kr Lf Lr Pf Pr g) as (K & PK & H). exists K. split; [exact PK|].
  intros data tol c r D Ht Rest T f kfs krs cs rs ys Hf F1 R0 Q.
  assert (Pa : 0 < Rabs (f - 1)) by (apply Rabs_pos_lt; lra). assert (Pb : 0 < Rabs r) by now apply Rabs_pos_lt.
  assert (Sq : (f - 1) * (f - 1) = Rabs (f - 1) * Rabs (f - 1)) by (rewrite <- Rabs_mult; symmetry; apply Rabs_pos_eq, Rle_0_sqr).
  replace (K / Rabs r * (Rabs (f - 1) + tol * (1 + / Rabs (f - 1))))
    with (K * ((f - 1) * (f - 1) + tol * (1 + Rabs (f - 1))) / (Rabs (f - 1) * Rabs r)) by (rewrite Sq; field; lra).
  apply (degrees_of s kf r f kfs rs ys _ Lf Pf F1 R0).
  - intros j Hj. destruct (Q j Hj) as (? & _ & _ & _ & ?). auto.
  - apply (H data tol c r D Ht Rest T f kfs krs cs rs Hf). intros j Hj. destruct (Q j Hj) as (? & ? & ? & ? & _). auto.
Qed.

(** Constants of transition state theory, one by one. *)
Lemma constants_entry ec o own r : 0 < o_T o -> NoDup (o_rxns o) -> entries r (length (o_rxns o)) ->
  exists kf kr, rate_constants ec o (L "TST") (Some r) own = Ok (kf, kr) /\
    length kf = length (o_rxns o) /\ length kr = length (o_rxns o) /\
    forall i, (i < length (o_rxns o))%nat -> exists a b, nth_error (r_Gaf r) i = Some a /\ nth_error (r_Gar r) i = Some b /\
      nth_error kf i = Some (frequency (o_T o) * exp (- a / kT (o_T o))) /\
      nth_error kr i = Some (frequency (o_T o) * exp (- b / kT (o_T o))).
Proof.
  intros HT ND (L1 & L2 & L3).
  assert (Ex : forall i e, nth_error (o_rxns o) i = Some e -> exists a b d, energies_of o r e a b d /\ entry r i a b d).
  { intros i x He. assert (Hl : (i < length (o_rxns o))%nat) by (apply nth_error_Some; congruence).
    destruct (nth_error_lt _ i _ L1 Hl) as [a Ha]. destruct (nth_error_lt _ i _ L2 Hl) as [b Hb].
    destruct (nth_error_lt _ i _ L3 Hl) as [d Hd]. exists a, b, d.
    assert (entry r i a b d) by (repeat split; auto). split; auto. exists i.
    destruct (NoDup_first _ _ _ ND He). auto. }
  destruct (rate_constants_TST ec o (Some r) own r HT eq_refl) as (kf & kr & E & M1 & M2 & V).
  { intros x He. apply In_nth_error in He as [i Hi]. destruct (Ex i x Hi) as (a & b & d & ? & _). eauto. }
  exists kf, kr. do 3 (split; [assumption|]). intros i Hl.
  destruct (nth_error_lt (o_rxns o) i _ eq_refl Hl) as [x He]. destruct (Ex i x He) as (a & b & d & Q1 & (Q2 & Q3 & _)).
  exists a, b. split; [exact Q2|]. split; [exact Q3|]. exact (V i x a b d He Q1).
Qed.

Section Xrc.
  Context {W : Type}.
  Variable q : tools W.
  Variables (ec : str -> R -> R -> R -> res R) (o : owner) (own : option rel_energies) (s : setup).
  Variables (data : dict R * dict R) (gas : str) (g : nat).
  Variable rest : list R -> list R -> list R -> Prop.
  Hypothesis X : sound_tools ec o own s data gas g rest q.
  Hypothesis Eo : o_rxns o = s_exprs s.
  Hypothesis ND : NoDup (s_exprs s).
  Hypothesis HT : 0 < o_T o.
  Variables (d : refs) (h : heap) (e : dict (list R)) (r : rel_energies).
  Hypothesis Vw : view h d = Ok e.
  Hypothesis Sep : separate d.
  Hypothesis He : has_energies e r.
  Hypothesis Hr : entries r (length (s_exprs s)).
  Variables kf kr : list R.
  Hypothesis EK : rate_constants ec o (L "TST") (Some r) own = Ok (kf, kr).

  Lemma named n l : dget e n = Some l -> exists a, dget d n = Some a.
  Proof. intro H. rewrite (proj2 (view_get h d e Vw)) in H. destruct (dget d n) as [a|]; [eauto|discriminate]. Qed.
  Lemma times_of n l : dget e n = Some l ->
    times d n = if str_eqb n (L "Gaf") then 1%nat else if str_eqb n (L "Gar") then 1%nat else 0%nat.
  Proof.
    intro H. destruct (named n l H) as [a Ha]. unfold times. rewrite Ha.
    destruct He as (H1 & H2 & _). destruct (named _ _ H1) as [b Hb]. destruct (named _ _ H2) as [c Hc]. rewrite Hb, Hc.
    destruct (str_eqb_spec n (L "Gaf")) as [->|N1]; [|destruct (str_eqb_spec n (L "Gar")) as [->|N2]].
    - assert (a = b) by congruence. subst b. rewrite Nat.eqb_refl. destruct (Nat.eqb_spec a c) as [->|]; [|reflexivity].
      exfalso. pose proof (Sep _ _ _ Hb Hc). discriminate.
    - assert (a = c) by congruence. subst c. rewrite Nat.eqb_refl. destruct (Nat.eqb_spec a b) as [->|]; [|reflexivity].
      exfalso. pose proof (Sep _ _ _ Hb Hc). discriminate.
    - destruct (Nat.eqb_spec a b) as [->|]; [exfalso; apply N1; eapply Sep; eauto|].
      destruct (Nat.eqb_spec a c) as [->|]; [exfalso; apply N2; eapply Sep; eauto|]. reflexivity.
  Qed.

  (** Raising both barriers of a reaction slows it down both ways. *)
  Lemma raised_one i eps e' : raised d i eps e e' -> exists r' kf' kr', has_energies e' r' /\
    rate_constants ec o (L "TST") (Some r') own = Ok (kf', kr') /\
    sped_up (exp (- eps / kT (o_T o))) i kf kf' /\ sped_up (exp (- eps / kT (o_T o))) i kr kr'.
  Proof.
    intros (_ & Q). destruct He as (H1 & H2 & H3). destruct Hr as (L1 & L2 & L3).
    destruct (Q _ _ H1) as (f1 & F1 & M1 & V1). destruct (Q _ _ H2) as (f2 & F2 & M2 & V2). destruct (Q _ _ H3) as (f3 & F3 & M3 & V3).
    rewrite (times_of _ _ H1) in V1. rewrite (times_of _ _ H2) in V2. cbn [str_eqb] in V1, V2.
    set (r' := {| r_Gaf := f1; r_Gar := f2; r_dG := f3 |}).
    assert (Hr' : entries r' (length (o_rxns o))) by (unfold entries, r'; cbn; rewrite Eo; repeat split; congruence).
    assert (Hr0 : entries r (length (o_rxns o))) by (rewrite Eo; repeat split; assumption).
    assert (ND' : NoDup (o_rxns o)) by now rewrite Eo.
    destruct (constants_entry ec o own r HT ND' Hr0) as (a1 & b1 & E1 & A1 & A2 & A3).
    assert (a1 = kf /\ b1 = kr) as [-> ->] by (split; congruence).
    destruct (constants_entry ec o own r' HT ND' Hr') as (kf' & kr' & E2 & B1 & B2 & B3).
    exists r', kf', kr'. split; [repeat split; assumption|]. split; [exact E2|].
    assert (EXP : forall x, frequency (o_T o) * exp (- (x + INR 1 * eps) / kT (o_T o)) = exp (- eps / kT (o_T o)) * (frequency (o_T o) * exp (- x / kT (o_T o)))).
    { intro x. replace (- (x + INR 1 * eps) / kT (o_T o)) with (- eps / kT (o_T o) + - x / kT (o_T o)).
      - rewrite exp_plus. ring.
      - cbn [INR]. unfold Rdiv. ring. }
    split; (split; [congruence|]); intros j x Hx;
      (assert (Hj : (j < length (o_rxns o))%nat) by first [rewrite <- A1; apply nth_error_Some; congruence|rewrite <- A2; apply nth_error_Some; congruence]);
      destruct (A3 j Hj) as (a & b & G1 & G2 & G3 & G4); destruct (B3 j Hj) as (a' & b' & G1' & G2' & G3' & G4').
    - cbn [r_Gaf r'] in G1'. rewrite (V1 j a G1) in G1'. injection G1' as <-. rewrite G3'. rewrite G3 in Hx. injection Hx as <-.
      destruct (Nat.eqb j i); [now rewrite <- EXP|reflexivity].
    - cbn [r_Gar r'] in G2'. rewrite (V2 j b G2) in G2'. injection G2' as <-. rewrite G4'. rewrite G4 in Hx. injection Hx as <-.
      destruct (Nat.eqb j i); [now rewrite <- EXP|reflexivity].
  Qed.

  Lemma collected eps guess rate kfs : kfs = kf -> rate <> 0 -> eps <> 0 -> forall i n w xs w', controls q gas eps d e guess rate kfs i n w xs w' ->
    (i + n <= length (s_exprs s))%nat ->
    exists (fs bs cs : nat -> list R) (rs ys : nat -> R), xs = map Num (map ys (seq i n)) /\
      forall j, (i <= j < i + n)%nat -> sped_up (exp (- eps / kT (o_T o))) j kf (fs j) /\ sped_up (exp (- eps / kT (o_T o))) j kr (bs j) /\
        rest (fs j) (bs j) (cs j) /\ turns s (fs j) (bs j) data (cs j) g (rs j) /\
        forall k k', nth_error kf j = Some k -> nth_error (fs j) j = Some k' -> is_control k rate k' (rs j) (Num (ys j)).
  Proof.
    intros -> R0 E0 i n w xs w' H. induction H as [i w|i n w e' k ks k' cvgs r' x l w1 w2 w3 w4 Ra Hk Tc Hk' Ts Tt Ic H IH]; intro Le.
    - exists (fun _ => []), (fun _ => []), (fun _ => []), (fun _ => 0), (fun _ => 0). split; [reflexivity|]. intros; lia.
    - destruct IH as (fs & bs & cs & rs & ys & El & Q); [lia|].
      destruct X as (_ & X1 & X2 & X3). destruct (raised_one i eps e' Ra) as (re & kf' & kr' & He' & EK' & S1 & S2).
      destruct (X1 e' re ks w w1 He' Tc) as (krs & EK''). assert (ks = kf') by congruence. subst ks.
      destruct (X2 guess e' re kf' kr' cvgs w1 w2 He' EK' Ts) as (c & -> & Rc).
      pose proof (X3 c e' re kf' kr' r' w2 w3 He' EK' Tt) as Tu.
      pose proof (proj2 S1 i k Hk) as Ek. rewrite Nat.eqb_refl in Ek.
      assert (Ex : exists y, x = Num y).
      { destruct Ic as [[[C|C] _]|[_ (y & -> & _)]]; [congruence| |eauto]. exfalso.
        assert (k' = exp (- eps / kT (o_T o)) * k) by congruence. subst k'.
        assert (Hr0 : entries r (length (o_rxns o))) by now rewrite Eo.
        destruct (constants_entry ec o own r HT ltac:(now rewrite Eo) Hr0) as (a1 & b1 & E1 & A1 & A2 & A3).
        assert (a1 = kf) by congruence. subst a1.
        destruct (A3 i) as (a & b & _ & _ & G3 & _); [rewrite Eo; lia|]. pose proof (frequency_pos _ HT).
        pose proof (exp_pos (- a / kT (o_T o))). assert (Pk : 0 < k).
        { rewrite Hk in G3. injection G3 as ->. now apply Rmult_lt_0_compat. }
        assert (exp (- eps / kT (o_T o)) = 1) by (apply (Rmult_eq_reg_r k); lra).
        assert (Z : - eps / kT (o_T o) = 0) by (apply exp_inv; now rewrite exp_0).
        pose proof (kT_pos _ HT). apply E0. apply (Rmult_eq_compat_r (kT (o_T o))) in Z. unfold Rdiv in Z.
        rewrite Rmult_assoc, Rinv_l in Z; lra. }
      destruct Ex as [y ->].
      set (up := fun A (v : A) (f : nat -> A) j => if Nat.eqb j i then v else f j).
      assert (New : forall A (v : A) f, up A v f i = v) by (intros; unfold up; now rewrite Nat.eqb_refl).
      assert (Old : forall A (v : A) f j, (S i <= j)%nat -> up A v f j = f j).
      { intros A v f j Hj. unfold up. destruct (Nat.eqb_spec j i); [lia|reflexivity]. }
      exists (up _ kf' fs), (up _ kr' bs), (up _ c cs), (up _ r' rs), (up _ y ys). split.
      + cbn [seq map]. rewrite New, El. f_equal. f_equal. apply map_ext_in. intros j Hj. apply in_seq in Hj. symmetry. apply Old. lia.
      + intros j Hj. destruct (Nat.eq_dec j i) as [->|Nj].
        * rewrite !New. do 4 (split; [assumption|]). intros k0 k0' G1 G2.
          assert (k0 = k) by congruence. assert (k0' = k') by congruence. now subst.
        * rewrite !Old by lia. apply Q. lia.
  Qed.
End Xrc.

(** What a run returns. *)
Lemma run_degrees ec o own s r : NoDup (s_exprs s) -> o_rxns o = s_exprs s -> 0 < o_T o -> entries r (length (s_exprs s)) ->
  forall kf kr, rate_constants ec o (L "TST") (Some r) own = Ok (kf, kr) ->
  forall rest g (W : Type) (q : tools W) data gas given h w e guess rate eps xs h' w',
    let d := match given with Some d => d | None => t_own q end in
    sound_tools ec o own s data gas g rest q ->
    NoDup (map fst d) -> separate d -> view h d = Ok e -> has_energies e r ->
    t_stored q w = Some guess -> turns s kf kr data guess g rate -> rate <> 0 -> eps <> 0 ->
    single_xrc q gas (Some eps) given h w = (Ok xs, h', w') ->
    exists (fs bs cs : nat -> list R) (rs ys : nat -> R), xs = map Num (map ys (seq 0 (length (s_exprs s)))) /\
      forall j, (j < length (s_exprs s))%nat -> sped_up (exp (- eps / kT (o_T o))) j kf (fs j) /\ sped_up (exp (- eps / kT (o_T o))) j kr (bs j) /\
        rest (fs j) (bs j) (cs j) /\ turns s (fs j) (bs j) data (cs j) g (rs j) /\
        forall k k', nth_error kf j = Some k -> nth_error (fs j) j = Some k' -> is_control k rate k' (rs j) (Num (ys j)).
Proof.
  intros ND Eo HT Hr kf kr EK rest g W q data gas given h w e guess rate eps xs h' w' d X NDd Sep Vw He St T R0 E0 Sx.
  assert (Ce : complete e (t_rxns q)).
  { destruct X as (X0 & _). destruct He as (H1 & H2 & _). destruct Hr as (M1 & M2 & _). exists (r_Gaf r), (r_Gar r).
    rewrite X0. repeat split; auto; lia. }
  destruct (proj1 (single_ok q gas (Some eps) given h w xs w' e NDd Vw Ce) (ex_intro _ h' Sx))
    as (guess' & rate' & kfs & w1 & w2 & St' & Tt & Tc & Cs).
  assert (guess' = guess) by congruence. subst guess'.
  pose proof X as (X0 & X1 & X2 & X3). destruct (X1 e r kfs w1 w2 He Tc) as (krs & EK').
  assert (Ek : kfs = kf) by congruence.
  pose proof (X3 guess e r kf kr rate' w w1 He EK Tt) as T'.
  assert (rate' = rate).
  { destruct T as (t1 & A1 & A2), T' as (t2 & B1 & B2). congruence. }
  subst rate'. rewrite X0 in Cs.
  destruct (collected q ec o own s data gas g rest X Eo ND HT d h e r Vw Sep He Hr kf kr EK eps guess rate kfs Ek R0 E0 0 _ w2 xs w' Cs ltac:(lia))
    as (fs & bs & cs & rs & ys & El & Q).
  exists fs, bs, cs, rs, ys. split; [exact El|]. intros j Hj. apply Q. lia.
Qed.
Lemma positive_constants ec o own r kf kr : 0 < o_T o -> NoDup (o_rxns o) -> entries r (length (o_rxns o)) ->
  rate_constants ec o (L "TST") (Some r) own = Ok (kf, kr) ->
  (length kf = length (o_rxns o) /\ length kr = length (o_rxns o)) /\ (forall a, In a kf -> 0 < a) /\ (forall b, In b kr -> 0 < b).
Proof.
  intros HT ND Hr EK. destruct (constants_entry ec o own r HT ND Hr) as (kf' & kr' & EK' & L1 & L2 & V).
  assert (kf' = kf /\ kr' = kr) as [-> ->] by (split; congruence). split; [auto|].
  pose proof (frequency_pos _ HT) as PF. split; intros x Hx; apply In_nth_error in Hx as [i Hi];
    (destruct (V i) as (a & b & _ & _ & V1 & V2);
      [first [rewrite <- L1; apply nth_error_Some; congruence|rewrite <- L2; apply nth_error_Some; congruence]|]);
    [pose proof (exp_pos (- a / kT (o_T o)))|pose proof (exp_pos (- b / kT (o_T o)))];
    [rewrite V1 in Hi|rewrite V2 in Hi]; injection Hi as <-; now apply Rmult_lt_0_compat.
Qed.
Lemma factor_not_one o eps : 0 < o_T o -> eps <> 0 -> exp (- eps / kT (o_T o)) <> 1.
Proof.
  intros HT E0 C. pose proof (kT_pos _ HT). assert (Z : - eps / kT (o_T o) = 0) by (apply exp_inv; now rewrite exp_0).
  apply E0. apply (Rmult_eq_compat_r (kT (o_T o))) in Z. unfold Rdiv in Z. rewrite Rmult_assoc, Rinv_l in Z; lra.
Qed.

Lemma computed_rule ec o own s l r : usable_setup s -> only_hops s l -> linked s l -> supplied (Rlt 0) s ->
  (forall site, In site (sites s) -> 0 <= total s site <= 1) ->
  o_rxns o = s_exprs s -> 0 < o_T o -> entries r (length (s_exprs s)) -> forall g,
  exists K kf kr, 0 <= K /\ rate_constants ec o (L "TST") (Some r) own = Ok (kf, kr) /\
    forall (W : Type) (q : tools W) data gas given h w e guess rate eps xs h' w',
      let d := match given with Some d => d | None => t_own q end in
      get_data s = Ok data -> exact_tools ec o own s data gas g q ->
      NoDup (map fst d) -> separate d -> view h d = Ok e -> has_energies e r ->
      t_stored q w = Some guess -> at_rest s kf kr data guess -> turns s kf kr data guess g rate -> rate <> 0 -> eps <> 0 ->
      single_xrc q gas (Some eps) given h w = (Ok xs, h', w') ->
      exists ys, xs = map Num ys /\ Rabs (Rsum ys - 1) <= K / Rabs rate * Rabs (exp (- eps / kT (o_T o)) - 1).
Proof.
  intros U OH Lk Sup Tot Eo HT Hr g. pose proof (proj2 OH) as ND.
  destruct (constants_entry ec o own r HT) as (kf & kr & EK & _); [now rewrite Eo|now rewrite Eo|].
  destruct (positive_constants ec o own r kf kr HT) as ((L1 & L2) & P1 & P2); auto; [now rewrite Eo|now rewrite Eo|]. rewrite Eo in L1, L2.
  destruct (control_rule s l kf kr U OH L1 L2 Tot P1 P2 Sup Lk g) as (K & PK & H).
  exists K, kf, kr. split; [exact PK|]. split; [exact EK|].
  intros W q data gas given h w e guess rate eps xs h' w' d D X NDd Sep Vw He St Rest T R0 E0 Sx.
  destruct (run_degrees ec o own s r ND Eo HT Hr kf kr EK _ g W q data gas given h w e guess rate eps xs h' w' X NDd Sep Vw He St T R0 E0 Sx)
    as (fs & bs & cs & rs & ys & El & Q).
  exists (map ys (seq 0 (length (s_exprs s)))). split; [exact El|].
  apply (H data guess rate D Rest T (exp (- eps / kT (o_T o))) fs bs cs rs ys); auto; [apply exp_pos|now apply factor_not_one].
Qed.
Lemma rough_rule ec o own s l r : usable_setup s -> only_hops s l -> linked s l -> supplied (Rlt 0) s ->
  (forall site, In site (sites s) -> 0 <= total s site <= 1) ->
  o_rxns o = s_exprs s -> 0 < o_T o -> entries r (length (s_exprs s)) -> forall g,
  exists K kf kr, 0 <= K /\ rate_constants ec o (L "TST") (Some r) own = Ok (kf, kr) /\
    forall (W : Type) (q : tools W) data gas given h w e guess rate eps tol xs h' w',
      let d := match given with Some d => d | None => t_own q end in
      let f := Rabs (exp (- eps / kT (o_T o)) - 1) in
      get_data s = Ok data -> 0 <= tol -> rough_tools ec o own s data gas g tol q ->
      NoDup (map fst d) -> separate d -> view h d = Ok e -> has_energies e r ->
      t_stored q w = Some guess -> near_rest s kf kr data tol guess -> turns s kf kr data guess g rate -> rate <> 0 -> eps <> 0 ->
      single_xrc q gas (Some eps) given h w = (Ok xs, h', w') ->
      exists ys, xs = map Num ys /\ Rabs (Rsum ys - 1) <= K / Rabs rate * (f + tol * (1 + / f)).
Proof.
  intros U OH Lk Sup Tot Eo HT Hr g. pose proof (proj2 OH) as ND.
  destruct (constants_entry ec o own r HT) as (kf & kr & EK & _); [now rewrite Eo|now rewrite Eo|].
  destruct (positive_constants ec o own r kf kr HT) as ((L1 & L2) & P1 & P2); auto; [now rewrite Eo|now rewrite Eo|]. rewrite Eo in L1, L2.
  destruct (near_control_rule s l kf kr U OH L1 L2 Tot P1 P2 Sup Lk g) as (K & PK & H).
  exists K, kf, kr. split; [exact PK|]. split; [exact EK|].
  intros W q data gas given h w e guess rate eps tol xs h' w' d f D Ht X NDd Sep Vw He St Rest T R0 E0 Sx.
  destruct (run_degrees ec o own s r ND Eo HT Hr kf kr EK _ g W q data gas given h w e guess rate eps xs h' w' X NDd Sep Vw He St T R0 E0 Sx)
    as (fs & bs & cs & rs & ys & El & Q).
  exists (map ys (seq 0 (length (s_exprs s)))). split; [exact El|].
  apply (H data tol guess rate D Ht Rest T (exp (- eps / kT (o_T o))) fs bs cs rs ys); auto; [apply exp_pos|now apply factor_not_one].
Qed.
