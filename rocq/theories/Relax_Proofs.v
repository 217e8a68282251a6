(** Single-site mechanisms approach their steady state in the course of time: lemmas. *)
From Coq Require Import String Ascii List ZArith NArith Bool Arith Reals Relations Lia Lra.
Import ListNotations.
From Verif Require Import PyBase PyBaseFacts Rxn_Model Rxn_Spec Species_Model Species_Spec PyReal Energy_Model Energy_Spec
  Thermo_Model Rate_Model Rate_Spec RDeriv MF_Model MF_Spec
  MF_Cover MF_More Whole_Spec Whole_Energy Whole_Rates Whole_Bound Flow_Spec Flow_Real Flow_Proofs Hop_Spec Markov_Proofs Hop_Proofs Relax_Markov.
Local Open Scope list_scope.
Local Open Scope R_scope.

(** Exchange is linear. *)
Lemma inflow_sub Ls k v w i : inflow Ls k (fun j => v j - w j) i = inflow Ls k v i - inflow Ls k w i.
Proof. unfold inflow. rewrite <- Rsum_sub. apply Rsum_ext. intros; ring. Qed.

Section Relax.
  Variable s : setup.
  Hypothesis U : usable_setup s.
  Let P : prepared s := proj1 U.
  Variable l : list (str * str).
  Hypothesis OH : only_hops s l.
  Let ND : NoDup (s_exprs s) := proj2 OH.
  Variables kf kr : list R.
  Hypothesis Lf : length kf = length (s_exprs s).
  Hypothesis Lr : length kr = length (s_exprs s).
  Variable E : list edge.
  Hypothesis El : map fst E = l.
  Hypothesis Ed : forall c n, In n (ads s) ->
    derivative s c (reactions s kf kr) n = Rsum (map (e_change (coverage s c) n) E).

  Section Course.
    Variable th : R -> list R.
    Hypothesis Sol : forall T, solution s kf kr T th.
    Let x (n : str) (u : R) : R := coverage s (pad s (th u)) n.
    Lemma long t : 0 <= t -> length (th t) = length (ads s).
    Proof. intro Ht. destruct (Sol t t) as [Len _]; [lra|exact Len]. Qed.
    Lemma x_is n t : 0 <= t -> x n t = coverage s (th t) n.
    Proof. intro Ht. unfold x. now rewrite pad_same by now apply long. Qed.
    Lemma ads_moves site n t : In site (sites s) -> In n (on site (ads s)) -> 0 <= t ->
      derivable_pt_lim (x n) t (inflow (states s site) (rate_of E) (coverage s (th t)) n).
    Proof.
      intros Hs Hn Ht. pose proof Hn as Hn'. apply on_In in Hn' as [Ha _].
      rewrite (inflow_is s U l OH E El _ site n Hs (or_intror Hn)), <- (Ed (th t) n Ha).
      destruct (ads_index s U th n Ha) as (i & Hi & _ & Ex).
      apply (d_ext (fun u => nth i (th u) 0)); [intro u; symmetry; apply Ex|].
      apply (change s U ND kf kr Lf Lr t th (Sol t)); auto. lra.
    Qed.
    Lemma moves site n t : In site (sites s) -> In n (states s site) -> 0 <= t ->
      derivable_pt_lim (x n) t (inflow (states s site) (rate_of E) (coverage s (th t)) n).
    Proof.
      intros Hs [<-|Hn] Ht; [|now apply ads_moves].
      apply (d_ext (fun u => total s site - Rsum (map (fun n => x n u) (on site (ads s))))).
      { intro u. unfold x. rewrite (site_coverage s P _ (pad_length s _) site Hs), (covered_sum s P _ (pad_length s _) site). reflexivity. }
      apply (d_eq _ _ (0 - Rsum (map (inflow (states s site) (rate_of E) (coverage s (th t))) (on site (ads s))))).
      { pose proof (inflow_sum (states s site) (rate_of E) (coverage s (th t))) as Z. cbn [states map Rsum] in Z. 
        fold (states s site) in Z. lra. }
      apply (d_minus (fun _ => total s site)); [apply d_const|].
      apply (d_sum x). intros n Hn. now apply ads_moves.
    Qed.
  End Course.

  Hypothesis Pe : forall e, In e E -> 0 < fst (snd e) /\ 0 < snd (snd e).
  Hypothesis Lk : linked s l.
  Variable c : list R.
  Hypothesis Len : length c = length (ads s).
  Hypothesis Zc : forall n, In n (ads s) -> derivative s c (reactions s kf kr) n = 0.

  Lemma site_relaxes site : In site (sites s) -> exists r, 0 < r /\ forall th, (forall T, solution s kf kr T th) ->
    exists C, 0 <= C /\ forall n t, In n (states s site) -> 0 <= t ->
      Rabs (coverage s (th t) n - coverage s c n) <= C * exp (- r * t).
  Proof.
    intro Hs.
    assert (K0 : forall i j, 0 <= rate_of E i j) by (apply rate_nonneg; intros e He; destruct (Pe e He); lra).
    assert (Lk' : all_linked (states s site) (rate_of E)) by exact (states_linked s U l OH Lk E site El Pe Hs).
    destruct (stationary_exists (states s site) (states_NoDup s U site Hs) ltac:(discriminate) (rate_of E) K0) as (q & Q0 & Q1 & Qb).
    assert (Qp : forall i, In i (states s site) -> 0 < q i).
    { apply (all_positive (states s site) (rate_of E) K0 Lk' q Qb); [rewrite Q1; lra|auto]. }
    destruct (relaxes (states s site) (rate_of E) K0 Lk' q Qp Q1 Qb) as (r & Pr & H). exists r. split; [exact Pr|].
    intros th Sol. pose proof (proj1 (zero_balanced s U l OH kf kr E El c (Ed c)) Zc site Hs) as B.
    destruct (H (fun n u => coverage s (pad s (th u)) n - coverage s c n)) as (C & PC & HC).
    - intros t Ht. rewrite (Rsum_sub (coverage s (pad s (th t))) (coverage s c)).
      rewrite (states_sum s U _ site (pad_length s _) Hs), (states_sum s U c site Len Hs). ring.
    - intros n t Hn Ht. apply (d_eq _ _ (inflow (states s site) (rate_of E) (coverage s (th t)) n - 0)).
      + rewrite (inflow_sub _ _ (coverage s (pad s (th t))) (coverage s c)), (B n Hn).
        now rewrite (pad_same s _ (long th Sol t Ht)).
      + apply (d_minus (fun u => coverage s (pad s (th u)) n) (fun _ => coverage s c n)); [|apply d_const].
        now apply (moves th Sol site).
    - exists C. split; [exact PC|]. intros n t Hn Ht. specialize (HC n t Hn Ht). cbv beta in HC.
      now rewrite (pad_same s _ (long th Sol t Ht)) in HC.
  Qed.

  Lemma all_relax : exists r, 0 < r /\ forall th, (forall T, solution s kf kr T th) ->
    exists C, forall n t, In n (ads s) \/ In n (sites s) -> 0 <= t ->
      Rabs (coverage s (th t) n - coverage s c n) <= C * exp (- r * t).
  Proof.
    assert (G : forall m, incl m (sites s) -> exists r, 0 < r /\ forall th, (forall T, solution s kf kr T th) ->
      exists C, 0 <= C /\ forall site n t, In site m -> In n (states s site) -> 0 <= t ->
        Rabs (coverage s (th t) n - coverage s c n) <= C * exp (- r * t)).
    { induction m as [|a m IH]; intro I.
      - exists 1. split; [lra|]. intros th _. exists 0. split; [lra|]. intros site n t [].
      - destruct IH as (r1 & P1 & H1); [intros b Hb; apply I; now right|].
        destruct (site_relaxes a (I a (or_introl eq_refl))) as (r2 & P2 & H2).
        exists (Rmin r1 r2). split; [now apply Rmin_glb_lt|]. intros th Sol.
        destruct (H1 th Sol) as (C1 & PC1 & HC1). destruct (H2 th Sol) as (C2 & PC2 & HC2).
        assert (Slow : forall r0 C0 t, Rmin r1 r2 <= r0 -> 0 <= C0 <= C1 + C2 -> 0 <= t ->
          C0 * exp (- r0 * t) <= (C1 + C2) * exp (- Rmin r1 r2 * t)).
        { intros r0 C0 t Hr HC Ht. pose proof (exp_pos (- r0 * t)).
          assert (exp (- r0 * t) <= exp (- Rmin r1 r2 * t)).
          { destruct (Req_dec (- r0 * t) (- Rmin r1 r2 * t)) as [->|N]; [lra|]. left. apply exp_increasing. nra. }
          nra. }
        exists (C1 + C2). split; [lra|]. intros site n t [<-|Hm] Hn Ht.
        + eapply Rle_trans; [now apply HC2|]. apply Slow; auto; [apply Rmin_r|lra].
        + eapply Rle_trans; [now apply (HC1 site)|]. apply Slow; auto; [apply Rmin_l|lra]. }
    destruct (G (sites s) (incl_refl _)) as (r & Pr & H). exists r. split; [exact Pr|]. intros th Sol.
    destruct (H th Sol) as (C & _ & HC). exists C. intros n t [Hn|Hn] Ht.
    - destruct (ads_site s P n Hn) as [_ Hs]. apply (HC (site_tag n)); auto. apply (in_states s U); auto. now left.
    - apply (HC n); auto. now left.
  Qed.
End Relax.

Lemma approach s l kf kr : usable_setup s -> only_hops s l ->
  length kf = length (s_exprs s) -> length kr = length (s_exprs s) ->
  (forall site, In site (sites s) -> 0 <= total s site <= 1) ->
  (forall a, In a kf -> 0 < a) -> (forall b, In b kr -> 0 < b) -> supplied (Rlt 0) s -> linked s l ->
  exists data c r, get_data s = Ok data /\ feasible s c /\
    (exists F, steady_state_function s (Ok (kf, kr)) (Some data) c = Ok F /\ forall y, In y F -> y = 0) /\ 0 < r /\
    forall th, (forall T, solution s kf kr T th) -> exists C, forall n t, In n (ads s) \/ In n (sites s) -> 0 <= t ->
      Rabs (coverage s (th t) n - coverage s c n) <= C * exp (- r * t).
Proof.
  intros U OH Lf Lr Tot Pf Pr Sup Lk.
  destruct (edges_of s U l OH kf kr Lf Lr (Rlt 0)) as (E & E1 & E2 & E3); auto; [apply Rmult_lt_0_compat|lra|].
  assert (E2' : forall e, In e E -> 0 <= fst (snd e) /\ 0 <= snd (snd e)) by (intros e He; destruct (E2 e He); lra).
  destruct (zero_exists s U l OH kf kr Tot E E1 E2' E3) as (c & Fc & Z).
  destruct (steady_zero s U l OH kf kr Lf Lr) as (data & D & H).
  destruct (all_relax s U l OH kf kr Lf Lr E E1 E3 E2 Lk c (proj1 Fc) Z) as (r & Hr & G).
  exists data, c, r. split; [exact D|]. split; [exact Fc|]. split; [|split; [exact Hr|exact G]].
  destruct (H c (proj1 Fc)) as (F & EF & Q). exists F. split; [exact EF|]. now apply Q.
Qed.

(** However one starts, the coverages come and stay as close to the steady state as one likes. *)
Lemma limit s l kf kr : usable_setup s -> only_hops s l ->
  length kf = length (s_exprs s) -> length kr = length (s_exprs s) ->
  (forall site, In site (sites s) -> 0 <= total s site <= 1) ->
  (forall a, In a kf -> 0 < a) -> (forall b, In b kr -> 0 < b) -> supplied (Rlt 0) s -> linked s l ->
  forall data c F, get_data s = Ok data -> length c = length (ads s) ->
    steady_state_function s (Ok (kf, kr)) (Some data) c = Ok F -> (forall y, In y F -> y = 0) ->
    forall th, (forall T, solution s kf kr T th) ->
    forall eps, 0 < eps -> exists t0, 0 <= t0 /\ forall t i x y, t0 <= t ->
      nth_error (th t) i = Some x -> nth_error c i = Some y -> Rabs (x - y) < eps.
Proof.
  intros U OH Lf Lr Tot Pf Pr Sup Lk data c F D Len EF ZF th Sol eps He.
  destruct (approach s l kf kr U OH Lf Lr Tot Pf Pr Sup Lk) as (data' & c' & r & D' & Fc & (F' & EF' & ZF') & Hr & G).
  assert (data' = data) by congruence. subst data'.
  destruct (exactly_one s U l OH kf kr Lf Lr Tot Pf Pr Sup Lk) as (data' & c0 & D0 & _ & _ & Only).
  assert (data' = data) by congruence. subst data'.
  assert (c' = c0) by (apply Only; [exact (proj1 Fc)|eauto]). assert (c = c0) by (apply Only; [exact Len|eauto]). subst c0 c'.
  destruct (G th Sol) as (C & HC).
  (* when C * exp (- r t) < eps *)
  set (B := Rabs C + 1). assert (PB : 0 < B) by (pose proof (Rabs_pos C); unfold B; lra).
  exists (Rmax 0 (ln (B / eps) / r)). split; [apply Rmax_l|]. intros t i x y Ht Hx Hy.
  assert (T0 : 0 <= t) by (eapply Rle_trans; [apply Rmax_l|exact Ht]).
  assert (Lt : length (th t) = length (ads s)) by now apply (long s kf kr th Sol).
  assert (Hi : (i < length (ads s))%nat) by (rewrite <- Lt; apply nth_error_Some; congruence).
  destruct (nth_error (ads s) i) as [n|] eqn:Hn; [|apply nth_error_None in Hn; lia].
  pose proof (HC n t (or_introl (nth_error_In _ _ Hn)) T0) as Q.
  rewrite (nth_coverage s (proj1 U) _ Lt i n x Hn Hx), (nth_coverage s (proj1 U) _ Len i n y Hn Hy) in Q.
  assert (T1 : ln (B / eps) / r <= t) by (eapply Rle_trans; [apply Rmax_r|exact Ht]).
  assert (Pq : 0 < B / eps) by (apply Rmult_lt_0_compat; [exact PB|now apply Rinv_0_lt_compat]).
  assert (T2 : - r * t <= - ln (B / eps)).
  { apply (Rmult_le_compat_l r) in T1; [|lra]. replace (r * (ln (B / eps) / r)) with (ln (B / eps)) in T1 by (field; lra). lra. }
  assert (T3 : exp (- r * t) <= eps / B).
  { apply (Rle_trans _ (exp (- ln (B / eps)))).
    - destruct T2 as [T2|T2]; [left; now apply exp_increasing|right; now rewrite T2].
    - rewrite exp_Ropp, exp_ln by exact Pq. right. field. split; lra. }
  pose proof (exp_pos (- r * t)) as Pp. pose proof (Rle_abs C).
  assert (B * exp (- r * t) <= eps).
  { apply (Rmult_le_compat_l B) in T3; [|lra]. replace (B * (eps / B)) with eps in T3 by (field; lra). exact T3. }
  unfold B in *. nra.
Qed.

(** The same with rate constants from energies. *)
Lemma approach_TST ec o own s l r : usable_setup s -> only_hops s l -> linked s l -> supplied (Rlt 0) s ->
  (forall site, In site (sites s) -> 0 <= total s site <= 1) ->
  o_rxns o = s_exprs s -> 0 < o_T o -> consistent r (length (s_exprs s)) ->
  exists data kf kr c rho, get_data s = Ok data /\ rate_constants ec o (L "TST") (Some r) own = Ok (kf, kr) /\ feasible s c /\
    (exists F, steady_state_function s (Ok (kf, kr)) (Some data) c = Ok F /\ forall y, In y F -> y = 0) /\ 0 < rho /\
    forall th, (forall T, solution s kf kr T th) -> exists C, forall n t, In n (ads s) \/ In n (sites s) -> 0 <= t ->
      Rabs (coverage s (th t) n - coverage s c n) <= C * exp (- rho * t).
Proof.
  intros U OH Lk Sup Tot Eo HT Cons. pose proof (proj2 OH) as ND.
  destruct (constants_of ec o r own HT) as (kf & kr & E & L1 & L2 & V); [rewrite Eo; exact ND|rewrite Eo; exact Cons|].
  rewrite Eo in L1, L2. pose proof Cons as [(_ & _ & L3) _].
  assert (Pos : (forall a, In a kf -> 0 < a) /\ (forall b, In b kr -> 0 < b)).
  { assert (K1 : length kf = length (r_dG r)) by congruence. assert (K2 : length kr = length (r_dG r)) by congruence.
    split; intros a Ha; apply In_nth_error in Ha as [i Hi].
    - assert (Hd : (i < length (r_dG r))%nat) by (rewrite <- K1; apply nth_error_Some; congruence).
      destruct (nth_error (r_dG r) i) as [d|] eqn:Ed; [|apply nth_error_None in Ed; lia].
      destruct (V i d Ed) as (a' & b' & X1 & X2 & Pa & Pb & _). congruence.
    - assert (Hd : (i < length (r_dG r))%nat) by (rewrite <- K2; apply nth_error_Some; congruence).
      destruct (nth_error (r_dG r) i) as [d|] eqn:Ed; [|apply nth_error_None in Ed; lia].
      destruct (V i d Ed) as (a' & b' & X1 & X2 & Pa & Pb & _). congruence. }
  destruct (approach s l kf kr U OH L1 L2 Tot (proj1 Pos) (proj2 Pos) Sup Lk) as (data & c & rho & D & Fc & St & Pr & Q).
  exists data, kf, kr, c, rho. auto 7.
Qed.

(** What is steady stays. *)
Lemma steady_solves s kf kr data c F : get_data s = Ok data -> length c = length (ads s) ->
  steady_state_function s (Ok (kf, kr)) (Some data) c = Ok F -> (forall y, In y F -> y = 0) ->
  forall T, solution s kf kr T (fun _ => c).
Proof.
  intros D Len E Z T t _. split; [exact Len|]. exists data, F. split; [exact D|]. split; [exact E|].
  intros i y Hy. rewrite (Z y (nth_error_In _ _ Hy)). apply d_const.
Qed.
