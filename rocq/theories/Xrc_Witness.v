(** Examples for C67, and what the number means. *)
From Coq Require Import String Ascii List Arith Bool Reals Lia Lra.
Import ListNotations.
From Verif Require Import PyBase PyBaseFacts PyReal Rate_Spec Thermo_Model Rate_Model Xrc_Model Xrc_Spec Xrc_Proofs.
Local Open Scope list_scope.
Local Open Scope nat_scope.

(** The world is the stored coverages; the rate is the first coverage; the rate constants are the
    barriers; a search adds the square of the first barrier. *)
Definition barrier (e : dict (list R)) : list R := match dget e (L "Gaf") with Some l => l | None => [] end.
Definition toy : tools (option (list R)) := {|
  t_stored w := w;
  t_tof c e g w := match c with Some (x :: _) => (Ok x, w) | _ => (Err TypeError, w) end;
  t_constants e w := (Ok (barrier e), w);
  t_search c e w := match c, barrier e with
                    | x :: _, b :: _ => (Ok (Some [x + b * b]%R), Some [x + b * b]%R)
                    | _, _ => (Err IndexError, w)
                    end;
  t_own := [(L "Gaf", 0); (L "Gar", 1)];
  t_size := 1%R;
  t_rxns := 1
|}.
Definition lists : heap := [[1]; [1]]%R.
Definition apart : refs := [(L "Gaf", 0); (L "Gar", 1)].
Definition together : refs := [(L "Gaf", 0); (L "Gar", 0)].

Lemma control_num k r dr dk : r <> 0%R -> dk <> 0%R -> control k r dr dk = Num (k / r * (dr / dk))%R.
Proof.
  intros A B. unfold control.
  assert (Reqb r 0 = false) as -> by (destruct (Reqb r 0) eqn:Q; auto; apply Reqb_eq in Q; contradiction).
  assert (Reqb dk 0 = false) as -> by (destruct (Reqb dk 0) eqn:Q; auto; apply Reqb_eq in Q; contradiction). reflexivity.
Qed.

Lemma toy_run x d h : (0 < x)%R ->
  view lists d = Ok [(L "Gaf", [1]%R); (L "Gar", [1]%R)] ->
  forall b c h', deepcopy [] d lists = Ok (c, h) ->
  (exists h2, raise_at h c (L "Gaf") 0 1 = Ok h2 /\ raise_at h2 c (L "Gar") 0 1 = Ok h') ->
  (exists rest, view h' c = Ok ((L "Gaf", [b]%R) :: rest)) -> b <> 1%R ->
  single_xrc toy (L "g") (Some 1%R) (Some d) lists (Some [x]) = (Ok [Num (1 / x * ((x + b * b - x) / (b - 1)))%R], h', Some [x + b * b]%R).
Proof.
  intros Hx V b c h' DC (h2 & R1 & R2) (rest & V') Hb.
  unfold single_xrc. cbn [t_stored toy]. rewrite V. cbn [t_tof t_constants toy].
  change (barrier [(L "Gaf", [1]%R); (L "Gar", [1]%R)]) with [1]%R.
  cbn [t_rxns toy each]. unfold one. rewrite DC, R1, R2, V'.
  unfold lindex. cbn [nth_error t_constants t_search t_tof toy].
  change (barrier ((L "Gaf", [b]) :: rest)%R) with [b]%R. cbn [nth_error].
  rewrite control_num; [reflexivity|lra|lra].
Qed.

Lemma toy_apart x : (0 < x)%R -> exists h',
  single_xrc toy (L "g") (Some 1%R) (Some apart) lists (Some [x]) = (Ok [Num (1 / x * 4)%R], h', Some [x + 4]%R).
Proof.
  intro Hx.
  pose proof (toy_run x apart _ Hx eq_refl (1 + 1)%R _ _ eq_refl (ex_intro _ _ (conj eq_refl eq_refl)) (ex_intro _ _ eq_refl)) as H.
  replace (1 / x * ((x + (1 + 1) * (1 + 1) - x) / (1 + 1 - 1)))%R with (1 / x * 4)%R in H by (field; lra).
  replace (x + (1 + 1) * (1 + 1))%R with (x + 4)%R in H by ring. eexists. apply H. lra.
Qed.
Lemma toy_together x : (0 < x)%R -> exists h',
  single_xrc toy (L "g") (Some 1%R) (Some together) lists (Some [x]) = (Ok [Num (1 / x * (9 / 2))%R], h', Some [x + 9]%R).
Proof.
  intro Hx.
  pose proof (toy_run x together _ Hx eq_refl (1 + 1 + 1)%R _ _ eq_refl (ex_intro _ _ (conj eq_refl eq_refl)) (ex_intro _ _ eq_refl)) as H.
  replace (1 / x * ((x + (1 + 1 + 1) * (1 + 1 + 1) - x) / (1 + 1 + 1 - 1)))%R with (1 / x * (9 / 2))%R in H by (field; lra).
  replace (x + (1 + 1 + 1) * (1 + 1 + 1))%R with (x + 9)%R in H by ring. eexists. apply H. lra.
Qed.

Lemma alias_differs : exists (q : tools (option (list R))) gas eps h w d d' e l l' h1 h2 w1 w2,
  view h d = Ok e /\ view h d' = Ok e /\ separate d /\
  single_xrc q gas eps (Some d) h w = (Ok l, h1, w1) /\ single_xrc q gas eps (Some d') h w = (Ok l', h2, w2) /\ l <> l'.
Proof.
  destruct (toy_apart 1) as [h1 H1]; [lra|]. destruct (toy_together 1) as [h2 H2]; [lra|].
  exists toy, (L "g"), (Some 1%R), lists, (Some [1]%R), apart, together.
  do 3 eexists. exists h1, h2. do 2 eexists.
  split; [reflexivity|]. split; [reflexivity|]. split.
  - intros n m a Hn Hm. unfold apart in *. cbn [dget] in Hn, Hm.
    destruct (str_eqb n (L "Gaf")) eqn:A1; destruct (str_eqb m (L "Gaf")) eqn:A2.
    + apply str_eqb_eq in A1, A2. congruence.
    + destruct (str_eqb m (L "Gar")); congruence.
    + destruct (str_eqb n (L "Gar")); congruence.
    + destruct (str_eqb n (L "Gar")) eqn:B1; destruct (str_eqb m (L "Gar")) eqn:B2; try congruence.
      apply str_eqb_eq in B1, B2. congruence.
  - split; [exact H1|]. split; [exact H2|]. intro Q. injection Q as Q. lra.
Qed.

Lemma twice_differs : exists (q : tools (option (list R))) gas eps h w d l1 h1 w1 l2 h2 w2,
  (forall c x w cv w', t_search q c x w = (Ok cv, w') -> t_stored q w' = cv) /\
  single_xrc q gas eps (Some d) h w = (Ok l1, h1, w1) /\
  single_xrc q gas eps (Some d) h w1 = (Ok l2, h2, w2) /\ l1 <> l2 /\ t_stored q w1 <> t_stored q w.
Proof.
  destruct (toy_apart 1) as [h1 H1]; [lra|]. destruct (toy_apart (1 + 4)) as [h2 H2]; [lra|].
  exists toy, (L "g"), (Some 1%R), lists, (Some [1]%R), apart. eexists. exists h1. do 2 eexists. exists h2. eexists.
  split; [|split; [exact H1|split; [exact H2|]]].
  - intros c x w cv w' H. cbn in H. destruct c as [|y c]; [discriminate|].
    destruct (barrier x); [discriminate|]. injection H as <- <-. reflexivity.
  - split; intro Q; injection Q as Q; lra.
Qed.

Lemma toy_hypotheses : NoDup (map fst apart) /\ separate apart /\ exists e, view lists apart = Ok e /\ complete e (t_rxns toy).
Proof.
  split; [repeat constructor; cbn; intuition discriminate|]. split.
  - intros n m a Hn Hm. unfold apart in *. cbn [dget] in Hn, Hm.
    destruct (str_eqb n (L "Gaf")) eqn:A1; destruct (str_eqb m (L "Gaf")) eqn:A2.
    + apply str_eqb_eq in A1, A2. congruence.
    + destruct (str_eqb m (L "Gar")); congruence.
    + destruct (str_eqb n (L "Gar")); congruence.
    + destruct (str_eqb n (L "Gar")) eqn:B1; destruct (str_eqb m (L "Gar")) eqn:B2; try congruence.
      apply str_eqb_eq in B1, B2. congruence.
  - eexists. split; [reflexivity|]. do 2 eexists. repeat split; cbn; lia.
Qed.

(** ** What the number means *)
Lemma proportional k r k' r' : r <> 0%R -> k' <> k -> (r' * k = r * k')%R -> is_control k r k' r' (Num 1).
Proof. intros A B C. right. split; auto. exists 1%R. split; auto. lra. Qed.
Lemma indifferent k r k' : r <> 0%R -> k' <> k -> is_control k r k' r (Num 0).
Proof. intros A B. right. split; auto. exists 0%R. split; auto. lra. Qed.

Lemma control_limit (k : R -> R) (g : R -> R) (k0 dk dg : R) : k 0%R = k0 -> k0 <> 0%R -> g k0 <> 0%R ->
  (forall t, t <> 0%R -> k t <> k0) -> derivable_pt_lim k 0 dk -> derivable_pt_lim g k0 dg ->
  forall e, (0 < e)%R -> exists delta, (0 < delta)%R /\ forall eps x, eps <> 0%R -> (Rabs eps < delta)%R ->
    is_control k0 (g k0) (k eps) (g (k eps)) x -> exists y, x = Num y /\ (Rabs (y - k0 * dg / g k0) < e)%R.
Proof.
  intros K0 Nk Ng Inj Dk Dg e He.
  assert (Ka : (0 < Rabs k0)%R) by now apply Rabs_pos_lt. assert (Ra : (0 < Rabs (g k0))%R) by now apply Rabs_pos_lt.
  assert (He' : (0 < e * Rabs (g k0) / Rabs k0)%R) by (apply Rdiv_lt_0_compat; auto; now apply Rmult_lt_0_compat).
  destruct (Dg _ He') as [d1 H1].
  assert (Ck : continuity_pt k 0) by (apply derivable_continuous_pt; exists dk; exact Dk).
  destruct (Ck d1 (cond_pos d1)) as (d2 & Hd2 & H2). exists d2. split; [exact Hd2|].
  intros eps x Ne Le [[[Q|Q] _]|[_ (y & -> & E)]]; [contradiction|exfalso; now apply (Inj eps)|].
  exists y. split; [reflexivity|].
  assert (Nd : (k eps - k0 <> 0)%R) by (intro Z; apply (Inj eps Ne); lra).
  assert (Hd : (Rabs (k eps - k0) < d1)%R).
  { specialize (H2 eps). cbn [dist R_met Base] in H2. unfold R_dist in H2. rewrite K0 in H2. apply H2. split.
    - split; [exact I|]. now apply not_eq_sym.
    - now rewrite Rminus_0_r. }
  specialize (H1 _ Nd Hd). replace (k0 + (k eps - k0))%R with (k eps) in H1 by ring.
  assert (Y : y = (k0 / g k0 * ((g (k eps) - g k0) / (k eps - k0)))%R).
  { apply Rmult_eq_reg_r with (g k0 * (k eps - k0))%R; [|apply Rmult_integral_contrapositive; split; auto].
    rewrite E. field. auto. }
  replace (y - k0 * dg / g k0)%R with (k0 / g k0 * ((g (k eps) - g k0) / (k eps - k0) - dg))%R by (rewrite Y; field; auto).
  rewrite Rabs_mult. unfold Rdiv at 1. rewrite Rabs_mult, Rabs_inv.
  apply Rmult_lt_reg_l with (Rabs (g k0) * / Rabs k0)%R.
  { apply Rmult_lt_0_compat; auto. now apply Rinv_0_lt_compat. }
  replace (Rabs (g k0) * / Rabs k0 * (Rabs k0 * / Rabs (g k0) * Rabs ((g (k eps) - g k0) / (k eps - k0) - dg)))%R
    with (Rabs ((g (k eps) - g k0) / (k eps - k0) - dg))%R by (field; split; lra).
  replace (Rabs (g k0) * / Rabs k0 * e)%R with (e * Rabs (g k0) / Rabs k0)%R by (unfold Rdiv; ring). exact H1.
Qed.

(** The rate constants of transition state theory. *)
Lemma tst_limit T Ga (g : R -> R) (dg : R) : (0 < T)%R ->
  let k t := (frequency T * exp (- (Ga + t) / kT T))%R in
  derivable_pt_lim g (k 0%R) dg -> g (k 0%R) <> 0%R ->
  forall e, (0 < e)%R -> exists delta, (0 < delta)%R /\ forall eps x, eps <> 0%R -> (Rabs eps < delta)%R ->
    is_control (k 0%R) (g (k 0%R)) (k eps) (g (k eps)) x -> exists y, x = Num y /\ (Rabs (y - k 0%R * dg / g (k 0%R)) < e)%R.
Proof.
  intros HT k Dg Ng.
  assert (HkT : (0 < kT T)%R) by (unfold kT, kB_eV; apply Rmult_lt_0_compat; lra).
  assert (Hf : (0 < frequency T)%R) by (unfold frequency, h_eV; apply Rdiv_lt_0_compat; lra).
  apply (control_limit k g (k 0%R) (frequency T * (exp (- (Ga + 0) / kT T) * (- / kT T)))%R dg); auto.
  - pose proof (exp_pos (- (Ga + 0) / kT T)). unfold k.
    apply Rgt_not_eq, Rmult_lt_0_compat; auto.
  - intros t Nt Q. unfold k in Q. apply Rmult_eq_reg_l in Q; [|lra]. apply exp_inv in Q.
    apply Nt. unfold Rdiv in Q. apply Rmult_eq_reg_r in Q; [lra|]. apply Rgt_not_eq. now apply Rinv_0_lt_compat.
  - unfold k. apply (derivable_pt_lim_scal (fun t => exp (- (Ga + t) / kT T))).
    replace (exp (- (Ga + 0) / kT T) * - / kT T)%R with (exp ((fun t => - (Ga + t) / kT T) 0%R) * - / kT T)%R by reflexivity.
    apply (derivable_pt_lim_comp (fun t => - (Ga + t) / kT T)%R exp); [|apply derivable_pt_lim_exp].
    apply (derivable_pt_lim_ext (fun t => (- Ga / kT T) + (- / kT T) * t)%R); [intro; field; lra|].
    assert (D : derivable_pt_lim ((fun _ => (- Ga / kT T)%R) + mult_real_fct (- / kT T)%R id)%F 0%R (0 + (- / kT T) * 1)%R).
    { apply derivable_pt_lim_plus; [apply derivable_pt_lim_const|]. apply derivable_pt_lim_scal, derivable_pt_lim_id. }
    replace (0 + (- / kT T) * 1)%R with (- / kT T)%R in D by ring. exact D.
Qed.

Lemma toy_missing : exists h',
  single_xrc toy (L "g") None (Some [(L "Gaf", 0)]) lists (Some [2]%R) = (Err KeyError, h', Some [2]%R).
Proof.
  eapply missing with (e := [(L "Gaf", [1]%R)]); try reflexivity; [cbn; lia|].
  right. split; [|reflexivity]. exists [1]%R. split; [reflexivity|discriminate].
Qed.
