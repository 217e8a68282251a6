(** Net rates at a steady state: lemmas. *)
From Coq Require Import String Ascii List ZArith NArith Bool Arith Reals Lia Lra.
Import ListNotations.
From Verif Require Import PyBase PyBaseFacts Rxn_Model Rxn_Spec Species_Model Species_Spec PyReal MF_Model MF_Spec
  MF_Cover MF_Rate MF_More Whole_Spec Whole_Energy Whole_Rates Whole_Bound Markov_Proofs Series_Spec.
Local Open Scope list_scope.
Local Open Scope R_scope.

Lemma only_term {A} (f : A -> R) l j x : nth_error l j = Some x ->
  (forall i y, nth_error l i = Some y -> i <> j -> f y = 0) -> Rsum (map f l) = f x.
Proof.
  revert j. induction l as [|a l IH]; intros [|j] E H; try discriminate; cbn [map Rsum].
  - injection E as <-. rewrite Rsum_zero; [ring|]. intros y Hy. apply In_nth_error in Hy as [i Hi]. apply (H (S i)); [exact Hi|lia].
  - rewrite (IH j E); [rewrite (H O a eq_refl); [ring|lia]|]. intros i y Hi N. apply (H (S i)); [exact Hi|lia].
Qed.
Lemma two_terms {A} (f : A -> R) l i x j y : nth_error l i = Some x -> nth_error l j = Some y -> i <> j ->
  (forall k z, nth_error l k = Some z -> k <> i -> k <> j -> f z = 0) -> Rsum (map f l) = f x + f y.
Proof.
  revert i j. induction l as [|a l IH]; intros [|i] [|j] Ei Ej N H; try discriminate; [congruence| | |]; cbn [map Rsum].
  - injection Ei as <-. f_equal. apply (only_term f l j y Ej). intros k z Hk Nk. apply (H (S k)); [exact Hk|lia|lia].
  - injection Ej as <-. rewrite Rplus_comm. f_equal. apply (only_term f l i x Ei). intros k z Hk Nk. apply (H (S k)); [exact Hk|lia|lia].
  - rewrite (IH i j Ei Ej); [|congruence|intros k z Hk N1 N2; apply (H (S k)); [exact Hk|lia|lia]].
    rewrite (H O a eq_refl); [ring|lia|lia].
Qed.
Lemma dot_map {A} (f g : A -> R) l : dot (map f l) (map g l) = Rsum (map (fun x => f x * g x) l).
Proof. unfold dot. induction l as [|a l IH]; cbn [map combine Rsum fst snd]; [reflexivity|]. now rewrite IH. Qed.

Section Series.
  Variable s : setup.
  Hypothesis U : usable_setup s.
  Hypothesis ND : NoDup (s_exprs s).
  Variables (cvgs kf kr : list R).
  Hypothesis Len : length cvgs = length (ads s).
  Hypothesis Lf : length kf = length (s_exprs s).
  Hypothesis Lr : length kr = length (s_exprs s).
  Let X := reactions s kf kr.
  Let net (x : rxn) : R := fwd s cvgs x - bwd s cvgs x.

  Lemma derivative_used n : (forall fls, In fls (l_rxns (s_lists s)) -> plain_in n fls) ->
    derivative s cvgs X n = - Rsum (map (fun x => IZR (used_up n (fst x)) * net x) X).
  Proof.
    intro Pl. unfold derivative.
    replace (- Rsum (map (fun x => IZR (used_up n (fst x)) * net x) X))
      with (Rsum (map (fun x => -1 * (IZR (used_up n (fst x)) * net x)) X)) by (rewrite Rsum_mul; ring).
    apply Rsum_ext. intros x Hx. destruct (reactions_In _ _ _ _ Hx) as (A & _).
    rewrite (plain_change n (fst x) _ _ _ (Pl _ A) (counted_is n (fst x) _ _) (begins (fst x)) (ends (fst x)));
      [|apply begins_first|apply ends_last]; try now apply (rxn_nonempty s U).
    unfold used_up, net. ring.
  Qed.

  Variables (data : dict R * dict R) (F nets : list R).
  Hypothesis D : get_data s = Ok data.
  Hypothesis EF : steady_state_function s (Ok (kf, kr)) (Some data) cvgs = Ok F.
  Hypothesis EN : net_rates s (Ok (kf, kr)) (Some data) cvgs = Ok nets.

  Lemma nets_are : nets = map net X.
  Proof.
    destruct (explicit s U ND cvgs kf kr Len Lf Lr) as (data' & E1 & _ & E3 & _). assert (data' = data) by congruence. subst data'.
    rewrite EN in E3. now injection E3.
  Qed.
  Lemma F_is : F = map (derivative s cvgs X) (ads s).
  Proof.
    destruct (explicit s U ND cvgs kf kr Len Lf Lr) as (data' & E1 & _ & _ & E4 & _). assert (data' = data) by congruence. subst data'.
    rewrite EF in E4. now injection E4.
  Qed.
  Lemma lists_of_X : map fst X = l_rxns (s_lists s).
  Proof.
    assert (Q : length (combine kf kr) = length (l_rxns (s_lists s))).
    { rewrite combine_length, Lf, Lr, (num_rxns s U). lia. }
    unfold X, reactions. revert Q. generalize (combine kf kr). induction (l_rxns (s_lists s)) as [|a l IH]; intros [|b m] Q; try discriminate; [reflexivity|].
    cbn [combine map fst]. f_equal. apply IH. now injection Q.
  Qed.

  Lemma balances (w : str -> R) eps : (forall y, In y F -> Rabs y <= eps) ->
    (forall n fls, In n (ads s) -> In fls (l_rxns (s_lists s)) -> plain_in n fls) ->
    Rabs (dot nets (map (fun fls => Rsum (map (fun n => w n * IZR (used_up n fls)) (ads s))) (l_rxns (s_lists s))))
      <= eps * Rsum (map (fun n => Rabs (w n)) (ads s)).
  Proof.
    intros Z Pl. rewrite nets_are, <- lists_of_X, map_map, dot_map.
    rewrite (Rsum_ext _ (fun x => Rsum (map (fun n => w n * (IZR (used_up n (fst x)) * net x)) (ads s)))).
    2:{ intros x _. rewrite <- Rsum_mul. apply Rsum_ext. intros; ring. }
    rewrite Rsum_swap.
    rewrite (Rsum_ext _ (fun n => w n * - derivative s cvgs X n)).
    2:{ intros n Hn. rewrite (Rsum_mul (fun x => IZR (used_up n (fst x)) * net x)), derivative_used by auto. ring. }
    assert (G : forall n, In n (ads s) -> Rabs (derivative s cvgs X n) <= eps).
    { intros n Hn. apply Z. rewrite F_is. now apply in_map. }
    clear -G. induction (ads s) as [|n l IH]; cbn [map Rsum]; [rewrite Rabs_R0; lra|].
    eapply Rle_trans; [apply Rabs_triang|]. rewrite Rmult_plus_distr_l. apply Rplus_le_compat; [|apply IH; intros; apply G; now right].
    rewrite Rabs_mult, Rabs_Ropp. specialize (G n (or_introl eq_refl)). pose proof (Rabs_pos (w n)). nra.
  Qed.

  Hypothesis Z : forall y, In y F -> y = 0.
  Lemma nothing n : In n (ads s) -> (forall fls, In fls (l_rxns (s_lists s)) -> plain_in n fls) ->
    Rsum (map (fun x => IZR (used_up n (fst x)) * net x) X) = 0.
  Proof.
    intros Hn Pl. assert (Q : derivative s cvgs X n = 0) by (apply Z; rewrite F_is; now apply in_map).
    rewrite (derivative_used n Pl) in Q. lra.
  Qed.
  Lemma net_at i x : nth_error X i = Some x -> nth_error nets i = Some (net x) /\ nth_error (l_rxns (s_lists s)) i = Some (fst x).
  Proof.
    intro H. split; [rewrite nets_are; now apply map_nth_error|]. rewrite <- lists_of_X. now apply map_nth_error.
  Qed.
  Lemma at_list i fls : nth_error (l_rxns (s_lists s)) i = Some fls -> exists x, nth_error X i = Some x /\ fst x = fls.
  Proof. rewrite <- lists_of_X, nth_error_map. destruct (nth_error X i) as [x|]; [|discriminate]. intro H. injection H as <-. eauto. Qed.

  Lemma idle l : dead_ends s l -> forall j, In j l -> nth_error nets j = Some 0.
  Proof.
    induction 1 as [|l j' Hl IH (n & fls & Hn & Pl & Hj & C & O)]; intros j Hin; [destruct Hin|].
    destruct Hin as [<-|Hin]; [|auto]. destruct (at_list _ _ Hj) as (x & Hx & <-).
    pose proof (nothing n Hn Pl) as Q. rewrite (only_term _ X j' x Hx) in Q.
    - destruct (net_at _ _ Hx) as [-> _]. f_equal. apply Rmult_integral in Q as [Q|Q]; [|exact Q]. now apply eq_IZR in Q.
    - intros i y Hy Ni. destruct (net_at i y Hy) as [N1 N2]. destruct (in_dec Nat.eq_dec i l) as [I|I].
      + specialize (IH i I). rewrite N1 in IH. injection IH as ->. ring.
      + rewrite (O i (fst y) N2 Ni I). ring.
  Qed.
  Lemma same_pace l i j a b x y : dead_ends s l -> in_series s l i j a b ->
    nth_error nets i = Some x -> nth_error nets j = Some y -> IZR a * x = IZR b * y.
  Proof.
    intros Hl (n & fi & fj & Hn & Pl & Nij & Hi & Hj & Ci & Cj & O) Ei Ej.
    destruct (at_list _ _ Hi) as (xi & Hxi & <-). destruct (at_list _ _ Hj) as (xj & Hxj & <-).
    pose proof (nothing n Hn Pl) as Q. rewrite (two_terms _ X i xi j xj Hxi Hxj Nij) in Q.
    - destruct (net_at _ _ Hxi) as [N1 _]. destruct (net_at _ _ Hxj) as [N2 _].
      assert (x = net xi) by congruence. assert (y = net xj) by congruence. subst x y.
      rewrite Ci, Cj, opp_IZR in Q. lra.
    - intros k z Hz N1 N2. destruct (net_at k z Hz) as [M1 M2]. destruct (in_dec Nat.eq_dec k l) as [I|I].
      + pose proof (idle l Hl k I) as E. rewrite M1 in E. injection E as ->. ring.
      + rewrite (O k (fst z) M2 N1 N2 I). ring.
  Qed.

  Lemma no_turnover l : dead_ends s l -> (forall j, (j < length (s_exprs s))%nat -> In j l) ->
    exists tof, tofs s (Ok (kf, kr)) (Some data) cvgs = Ok tof /\ length tof = length (l_gas (s_lists s) ++ l_liq (s_lists s)) /\
      forall y, In y tof -> y = 0.
  Proof.
    intros Hl All. destruct (explicit s U ND cvgs kf kr Len Lf Lr) as (data' & E1 & _ & _ & _ & E5).
    assert (data' = data) by congruence. subst data'. eexists. split; [exact E5|]. split; [now rewrite map_length|].
    intros y Hy. apply in_map_iff in Hy as (g & <- & _). unfold turnover. apply Rsum_zero. intros x Hx.
    apply In_nth_error in Hx as [i Hi]. destruct (net_at i x Hi) as [N1 N2].
    assert (Hl' : (i < length (s_exprs s))%nat) by (rewrite <- (num_rxns s U); apply nth_error_Some; congruence).
    rewrite (idle l Hl i (All i Hl')) in N1. injection N1 as N1. fold (net x). rewrite <- N1. ring.
  Qed.
End Series.
