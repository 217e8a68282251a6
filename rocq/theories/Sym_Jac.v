(** Proofs about the symbolic evaluation: the analytical Jacobian. *)
From Coq Require Import String Ascii List ZArith NArith Bool Arith Reals Lia Lra.
Import ListNotations.
From Verif Require Import PyBase PyBaseFacts Rxn_Model Rxn_Spec Rxn_Proofs Species_Model Species_Spec
  Species_Proofs Species_Matrix PyReal RDeriv Energy_Model Energy_Spec Thermo_Model Rate_Model Rate_Spec Rate_Proofs
  MF_Model MF_Spec MF_Cover MF_Rate MF_More Archive_Proofs Sym_Model Sym_Spec Sym_Proofs Sym_Eval Sym_Rates Sym_Main
  Sym_Steady.
Local Open Scope nat_scope.
Local Open Scope list_scope.

(** ** Derivative of an expression *)
Fixpoint sval (d : dict R) (e : sexpr) : R :=
  match e with
  | SNum x => x
  | SSym n => match dget d n with Some x => x | None => 0 end
  | SAdd a b => sval d a + sval d b
  | SSub a b => sval d a - sval d b
  | SMul a b => sval d a * sval d b
  | SDiv a b => sval d a / sval d b
  | SNeg a => - sval d a
  | SPow a n => sval d a ^ n
  | SExp a => exp (sval d a)
  end%R.

Ltac split_bind H :=
  match type of H with
  | bind ?r _ = Ok _ => let E := fresh "E" in destruct r eqn:E; cbn [bind] in H; [|discriminate]
  end.

Lemma sev_sval d e : forall x, sev d e = Ok x -> sval d e = x.
Proof.
  induction e; intros v H; cbn [sev sval] in *; repeat split_bind H;
    repeat match goal with
    | IH : forall x, Ok ?a = Ok x -> _ |- _ => specialize (IH a eq_refl)
    | IH : forall x, sev d ?e = Ok x -> _, E : sev d ?e = Ok _ |- _ => specialize (IH _ E)
    end; try congruence.
  - destruct (dget d n); congruence.
  - destruct (Reqb a0 0); congruence.
Qed.

Lemma sval_ext d d' e : (forall k, dget d k = dget d' k) -> sval d e = sval d' e.
Proof. intro H. induction e; cbn [sval]; try congruence. now rewrite H. Qed.

Lemma sval_same d x t e : dget d x = Some t -> sval (dset d x t) e = sval d e.
Proof.
  intro H. apply sval_ext. intro k. rewrite dget_dset. destruct (str_eqb_spec k x) as [->|]; auto.
Qed.

Lemma sdiff_ok d x t e : dget d x = Some t -> forall v, sev d e = Ok v ->
  exists w, sev d (sdiff x e) = Ok w /\ derivable_pt_lim (fun u => sval (dset d x u) e) t w.
Proof.
  intro Hx. pose proof (fun e => sval_same d x t e Hx) as SS.
  induction e; intros v H; cbn [sev] in H; repeat split_bind H; cbn [sdiff sval].
  - exists 0%R. split; [reflexivity|]. apply d_const.
  - destruct (dget d n) as [c|] eqn:E; [|discriminate]. destruct (str_eqb_spec n x) as [->|N].
    + exists 1%R. split; [reflexivity|]. eapply d_ext; [|apply d_id]. intro u. cbn beta.
      now rewrite dget_dset, str_eqb_refl.
    + exists 0%R. split; [reflexivity|]. eapply d_ext; [|apply (d_const c)]. intro u. cbn beta. rewrite dget_dset.
      apply str_eqb_neq in N. rewrite N, E. reflexivity.
  - destruct (IHe1 _ eq_refl) as (w1 & A1 & B1). destruct (IHe2 _ eq_refl) as (w2 & A2 & B2).
    exists (w1 + w2)%R. cbn [sev]. rewrite A1, A2. split; [reflexivity|]. now apply d_plus.
  - destruct (IHe1 _ eq_refl) as (w1 & A1 & B1). destruct (IHe2 _ eq_refl) as (w2 & A2 & B2).
    exists (w1 - w2)%R. cbn [sev]. rewrite A1, A2. split; [reflexivity|]. now apply d_minus.
  - destruct (IHe1 _ eq_refl) as (w1 & A1 & B1). destruct (IHe2 _ eq_refl) as (w2 & A2 & B2).
    exists (w1 * a0 + a * w2)%R. cbn [sev]. rewrite A1, A2, E, E0. split; [reflexivity|].
    pose proof (d_mult _ _ t w1 w2 B1 B2) as D. cbn beta in D. rewrite !SS, (sev_sval _ _ _ E), (sev_sval _ _ _ E0) in D. exact D.
  - destruct (IHe1 _ eq_refl) as (w1 & A1 & B1). destruct (IHe2 _ eq_refl) as (w2 & A2 & B2).
    unfold Reqb in H. destruct (Req_EM_T a0 0) as [|N0]; [discriminate|].
    exists ((w1 * a0 - a * w2) / (a0 * a0))%R. cbn [sev]. rewrite A1, A2, E, E0. cbn [bind].
    assert (a0 * a0 <> 0)%R by (now apply Rmult_integral_contrapositive_currified).
    unfold Reqb. destruct (Req_EM_T (a0 * a0) 0); [contradiction|]. split; [reflexivity|].
    pose proof (sev_sval _ _ _ E) as V1. pose proof (sev_sval _ _ _ E0) as V2.
    assert (NZ : sval (dset d x t) e2 <> 0%R) by (rewrite SS, V2; auto).
    pose proof (d_mult _ _ t w1 _ B1 (d_comp _ _ t w2 _ B2 (d_inv _ NZ))) as D. cbn beta in D.
    rewrite !SS, V1, V2 in D. eapply d_eq; [|exact D]. field. auto.
  - destruct (IHe _ eq_refl) as (w1 & A1 & B1). exists (- w1)%R. cbn [sev]. rewrite A1. split; [reflexivity|]. now apply d_opp.
  - destruct (IHe _ eq_refl) as (w1 & A1 & B1). exists (INR n * a ^ pred n * w1)%R. cbn [sev]. rewrite A1, E.
    split; [reflexivity|]. pose proof (d_pow_comp _ n t w1 B1) as D. cbn beta in D.
    rewrite SS, (sev_sval _ _ _ E) in D. exact D.
  - destruct (IHe _ eq_refl) as (w1 & A1 & B1). exists (exp a * w1)%R. cbn [sev]. rewrite A1, E.
    split; [reflexivity|]. pose proof (d_comp _ _ t w1 _ B1 (derivable_pt_lim_exp _)) as D. cbn beta in D.
    rewrite SS, (sev_sval _ _ _ E) in D. exact D.
Qed.

(** ** Moving one coverage *)
Lemma moved_length l j t : j < length l -> length (moved l j t) = length l.
Proof. intro H. unfold moved. rewrite app_length, firstn_length. cbn [length]. rewrite skipn_length. lia. Qed.
Lemma moved_at l j t : j < length l -> nth_error (moved l j t) j = Some t.
Proof.
  intro H. unfold moved. rewrite nth_error_app2 by (rewrite firstn_length; lia).
  rewrite firstn_length. replace (j - Nat.min j (length l)) with 0 by lia. reflexivity.
Qed.
Lemma moved_other l j t i : i <> j -> j < length l -> nth_error (moved l j t) i = nth_error l i.
Proof.
  intros N H. unfold moved. destruct (Nat.lt_trichotomy i j) as [A|[A|A]]; [|contradiction|].
  - rewrite nth_error_app1 by (rewrite firstn_length; lia).
    rewrite <- (firstn_skipn j l) at 2. rewrite nth_error_app1 by (rewrite firstn_length; lia). reflexivity.
  - rewrite nth_error_app2 by (rewrite firstn_length; lia). rewrite firstn_length.
    replace (i - Nat.min j (length l)) with (S (i - S j)) by lia. cbn [nth_error].
    rewrite <- (firstn_skipn (S j) l) at 2. rewrite nth_error_app2 by (rewrite firstn_length; lia).
    rewrite firstn_length. replace (i - Nat.min (S j) (length l)) with (i - S j) by lia. reflexivity.
Qed.

Lemma layers_get (G th C p : dict R) k : NoDup (keys G) -> NoDup (keys th) -> NoDup (keys C) -> NoDup (keys p) ->
  dget (fold_left dupdate [G; th; C; p; []] []) k =
  match dget p k with Some x => Some x | None => match dget C k with Some x => Some x | None =>
    match dget th k with Some x => Some x | None => dget G k end end end.
Proof.
  intros. cbn [fold_left]. rewrite !dget_update by (auto; constructor). cbn [dget].
  destruct (dget p k); auto. destruct (dget C k); auto. destruct (dget th k); auto. destruct (dget G k); auto.
Qed.

Section Jac.
  Variable s : setup.
  Variables (y : symbols) (data : dict R * dict R) (T : R) (r : rel_energies) (cvgs : list R).
  Hypothesis U : usable_setup s.
  Hypothesis PS : plain_sites s.
  Hypothesis NL : l_liq (s_lists s) = [].
  Hypothesis HT : (0 < T)%R.
  Hypothesis ER : energies_ready s r.
  Hypothesis Len : length cvgs = length (ads s).
  Hypothesis SY : symbolic s y data.

  Lemma theta_NoDup : NoDup (map sym_name (map theta_sym (ads s))).
  Proof.
    unfold theta_sym. rewrite names_prefixed. apply (NoDup_prefixed (L "theta_") (fun n => n)); auto.
    apply NoDup_ads. exact (proj1 U).
  Qed.

  Lemma theta_table_moved j name t k : nth_error (ads s) j = Some name ->
    dget (subs_pairs (map theta_sym (ads s)) (moved cvgs j t) []) k =
    dget (dset (subs_pairs (map theta_sym (ads s)) cvgs []) (L "theta_" ++ name) t) k.
  Proof.
    intro Hj. assert (Lj : j < length cvgs) by (rewrite Len; apply nth_error_Some; congruence).
    rewrite dget_dset. destruct (str_eqb_spec k (L "theta_" ++ name)) as [->|N].
    - apply (subs_at _ _ [] j (theta_sym name) t); [apply theta_NoDup| |now apply moved_at|reflexivity].
      exact (map_nth_error theta_sym j (ads s) Hj).
    - destruct (in_dec (list_eq_dec Ascii.ascii_dec) k (map sym_name (map theta_sym (ads s)))) as [I|I].
      + apply in_map_iff in I as (e & <- & I). apply In_nth_error in I as [i Hi].
        assert (Li : i < length cvgs).
        { rewrite Len. rewrite <- (map_length theta_sym). apply nth_error_Some. congruence. }
        assert (i <> j).
        { intros ->. rewrite (map_nth_error theta_sym j (ads s) Hj) in Hi. injection Hi as <-. now apply N. }
        destruct (nth_error_lt cvgs i _ eq_refl Li) as [c Hc].
        rewrite (subs_at _ cvgs [] i e c); auto; [|apply theta_NoDup].
        rewrite (subs_at _ (moved cvgs j t) [] i e c); auto; [apply theta_NoDup|]. now rewrite moved_other.
      + rewrite !subs_other; auto.
  Qed.

  Lemma subs_moved j name t d : nth_error (ads s) j = Some name ->
    subs_dict s y T r (Some data) (Some cvgs) = Ok d ->
    exists d', subs_dict s y T r (Some data) (Some (moved cvgs j t)) = Ok d' /\
      forall k, dget d' k = dget (dset d (L "theta_" ++ name) t) k.
  Proof.
    intros Hj. destruct (symbolic_inv s y data (proj1 U) SY) as [-> ->].
    rewrite !(subs_dict_eq s NL T r).
    assert (Lj : j < length cvgs) by (rewrite Len; apply nth_error_Some; congruence).
    pose proof (theta_table_moved j name t) as TM.
    assert (exists x l, cvgs = x :: l) as (x & l & Ec) by (destruct cvgs; [cbn in Lj; lia|eauto]).
    assert (exists x' l', moved cvgs j t = x' :: l') as (x' & l' & Em).
    { pose proof (moved_length cvgs j t Lj). destruct (moved cvgs j t); [cbn in *; lia|eauto]. }
    rewrite Em, Ec. rewrite Em, Ec in TM.
    intro E. match type of E with Ok ?X = _ => assert (X = d) as <- by congruence end. clear E.
    eexists. split; [reflexivity|]. intro k. specialize (TM k Hj).
    pose proof (p_table_NoDup s) as N1. pose proof (constants_NoDup T) as N2. pose proof (G_NoDup s r) as N3.
    assert (N4 : forall c, NoDup (keys (subs_pairs (map theta_sym (ads s)) c []))) by (intro c; apply subs_keys; constructor).
    rewrite dget_dset in TM. rewrite layers_get by auto.
    match goal with |- _ = dget (dset ?D ?a ?b) k => rewrite (dget_dset D a b k) end.
    rewrite layers_get by auto. rewrite TM.
    destruct (str_eqb k (L "theta_" ++ name)) eqn:EK; [|reflexivity].
    apply str_eqb_eq in EK. subst k. rewrite p_table_other by (intros; discriminate). reflexivity.
  Qed.

  Lemma extract_theta n : In n (ads s) -> extract s (the_symbols s) n (L "ads_cvg") = Ok (theta_sym n).
  Proof.
    intro I. change (extract s (the_symbols s) n (L "ads_cvg")) with (pick (ads s) (map theta_sym (ads s)) n).
    now apply pick_at.
  Qed.

  (** One entry. *)
  Lemma entry_ok d es F i j name e : subs_dict s y T r (Some data) (Some cvgs) = Ok d ->
    dtheta_syms s y false = Ok (map Some es) -> mapM (sev d) es = Ok F ->
    nth_error (ads s) j = Some name -> nth_error es i = Some e ->
    exists w G, sev d (sdiff (L "theta_" ++ name) e) = Ok w /\
      (forall t, exists l, steady_state_by_sym s y T r (Some data) (moved cvgs j t) = Ok l /\ nth_error l i = Some (G t)) /\
      forall c, nth_error cvgs j = Some c -> derivable_pt_lim G c w.
  Proof.
    intros Ed Es Ef Hj Hi.
    assert (Lj : j < length cvgs) by (rewrite Len; apply nth_error_Some; congruence).
    destruct (nth_error_lt cvgs j _ eq_refl Lj) as [c Hc].
    apply mapM_ok_iff in Ef. destruct (Forall2_at _ _ _ i e Ef Hi) as (v & _ & Ev).
    destruct (symbolic_inv s y data (proj1 U) SY) as [Ey _].
    destruct (the_subs s y data T r SY NL U cvgs Len) as (d0 & Ed0 & SB). rewrite <- Ey in Ed0.
    assert (d0 = d) by congruence. subst d0.
    assert (Dx : dget d (L "theta_" ++ name) = Some c).
    { rewrite (sub_theta _ _ _ _ _ _ SB name (nth_error_In _ _ Hj)). f_equal.
      pose proof (coverages_list s (proj1 U) cvgs Len) as CL. rewrite <- CL in Hc.
      rewrite (map_nth_error _ _ _ Hj) in Hc. congruence. }
    destruct (sdiff_ok d (L "theta_" ++ name) c e Dx v Ev) as (w & Ew & D).
    exists w, (fun u => sval (dset d (L "theta_" ++ name) u) e). split; [exact Ew|]. split.
    - intro t. destruct (subs_moved j name t d Hj Ed) as (d' & Ed' & K).
      assert (Len' : length (moved cvgs j t) = length (ads s)) by (rewrite moved_length; auto).
      destruct (the_subs s y data T r SY NL U (moved cvgs j t) Len') as (d1 & Ed1 & SB1). rewrite <- Ey in Ed1.
      assert (d1 = d') by congruence. subst d1.
      destruct (dtheta_value s U T r (moved cvgs j t) d' HT ER Len' PS NL SB1) as (es' & F' & A & B & C).
      rewrite <- Ey in A. assert (es' = es).
      { rewrite Es in A. injection A as A. clear - A. revert es' A. induction es; intros [|]; cbn; intros; try discriminate; auto.
        injection A as -> A. f_equal. auto. }
      subst es'. exists F'. split; [eapply (steady_by_sym_eval s y data T r (moved cvgs j t)); eauto|].
      apply mapM_ok_iff in B. destruct (Forall2_at _ _ _ i e B Hi) as (v' & Hv' & Ev').
      rewrite Hv'. f_equal. rewrite <- (sev_sval _ _ _ Ev'). symmetry. apply sval_ext. intro k. symmetry. apply K.
    - intros c' Hc'. assert (c' = c) by congruence. subst. exact D.
  Qed.

  Lemma jacobian_two : length (ads s) = 2 ->
    exists J, jacobian_by_sym s y T r (Some data) cvgs = Ok J /\ length J = 2 /\ (forall row, In row J -> length row = 2) /\
      forall i j row x, nth_error J i = Some row -> nth_error row j = Some x ->
      exists G, (forall t, exists l, steady_state_by_sym s y T r (Some data) (moved cvgs j t) = Ok l /\ nth_error l i = Some (G t)) /\
        forall c, nth_error cvgs j = Some c -> derivable_pt_lim G c x.
  Proof.
    intro L2. destruct (symbolic_inv s y data (proj1 U) SY) as [Ey _].
    destruct (the_subs s y data T r SY NL U cvgs Len) as (d & Ed & SB).
    destruct (dtheta_value s U T r cvgs d HT ER Len PS NL SB) as (es & F & A & B & C).
    rewrite <- Ey in Ed, A.
    assert (exists a b, ads s = [a; b]) as (a & b & Ea).
    { destruct (ads s) as [|a [|b [|]]]; try discriminate. eauto. }
    assert (exists e0 e1, es = [e0; e1]) as (e0 & e1 & Ee).
    { apply mapM_length in B. apply Forall2_length in C. rewrite Ea in C. destruct es as [|e0 [|e1 [|]]]; cbn in *; try lia. eauto. }
    pose proof (fun i j name e => entry_ok d es F i j name e Ed A B) as EO.
    rewrite Ea, Ee in EO.
    destruct (EO 0 0 a e0 eq_refl eq_refl) as (w00 & G00 & X00 & Y00).
    destruct (EO 0 1 b e0 eq_refl eq_refl) as (w01 & G01 & X01 & Y01).
    destruct (EO 1 0 a e1 eq_refl eq_refl) as (w10 & G10 & X10 & Y10).
    destruct (EO 1 1 b e1 eq_refl eq_refl) as (w11 & G11 & X11 & Y11).
    assert (Xa : extract s y a (L "ads_cvg") = Ok (theta_sym a)) by (rewrite Ey; apply extract_theta; rewrite Ea; now left).
    assert (Xb : extract s y b (L "ads_cvg") = Ok (theta_sym b)) by (rewrite Ey; apply extract_theta; rewrite Ea; right; now left).
    exists [[w00; w01]; [w10; w11]]. split; [|split; [reflexivity|split]].
    - unfold jacobian_by_sym. rewrite Ed. cbn [bind]. unfold jacobian_sym. rewrite A. cbn [bind].
      rewrite Ee. change (l_ads (s_lists s)) with (ads s). cbn [map length repeat jac_rows].
      change (l_ads (s_lists s)) with (ads s). rewrite Ea. cbn [jac_row]. rewrite Xa, Xb. cbn [bind].
      change (sym_name (theta_sym a)) with (L "theta_" ++ a). change (sym_name (theta_sym b)) with (L "theta_" ++ b).
      clear - X00 X01 X10 X11. revert X00 X01 X10 X11.
      generalize (sdiff (L "theta_" ++ a) e0) (sdiff (L "theta_" ++ b) e0) (sdiff (L "theta_" ++ a) e1) (sdiff (L "theta_" ++ b) e1).
      intros x00 x01 x10 x11 X00 X01 X10 X11. cbn. rewrite X00. cbn. rewrite X01. cbn. rewrite X10. cbn. rewrite X11. reflexivity.
    - intros row [<-|[<-|[]]]; reflexivity.
    - intros [|[|i]] [|[|j]] row x H1 H2; cbn in H1; try (destruct i; discriminate);
        injection H1 as <-; cbn in H2; try (destruct j; discriminate); injection H2 as <-; eauto.
  Qed.

  (** ** Any other number of adsorbates *)
  Lemma lset_ok {A} (l : list A) : forall i x, i < length l -> exists l', lset l i x = Ok l' /\ length l' = length l /\
    forall k z, nth_error l' k = Some z -> k <> i -> nth_error l k = Some z.
  Proof.
    induction l as [|a l IH]; intros [|i] x H; cbn [length] in H; try lia; cbn [lset].
    - eexists. split; [reflexivity|]. split; [reflexivity|]. intros [|k] z Hk N; [congruence|exact Hk].
    - destruct (IH i x) as (l' & E & Q & K); [lia|]. rewrite E. cbn [bind]. eexists. split; [reflexivity|].
      cbn. split; [auto|]. intros [|k] z Hk N; [exact Hk|]. apply (K k z Hk). lia.
  Qed.
  Lemma lset_rows {A} (l : list A) (Q : A -> Prop) : forall i x, i < length l -> Forall Q l -> Q x ->
    exists l', lset l i x = Ok l' /\ length l' = length l /\ Forall Q l'.
  Proof.
    induction l as [|a l IH]; intros [|i] x H F X; cbn [length] in H; try lia; cbn [lset]; inversion F; subst.
    - eexists. split; [reflexivity|]. split; [reflexivity|]. constructor; auto.
    - destruct (IH i x) as (l' & E & E' & F'); auto; [lia|]. rewrite E. cbn [bind]. eexists. split; [reflexivity|].
      split; [cbn; auto|]. constructor; auto.
  Qed.

  Lemma mset_ok {A} (m : list (list A)) n i j x : i < length m -> Forall (fun row => length row = n) m -> j < n ->
    exists m', mset m i j x = Ok m' /\ length m' = length m /\ Forall (fun row => length row = n) m'.
  Proof.
    intros Hi F Hj. unfold mset, lindex. destruct (nth_error m i) as [row|] eqn:E; [|apply nth_error_Some in Hi; congruence].
    cbn [bind]. rewrite Forall_forall in F. pose proof (F row (nth_error_In _ _ E)) as Lr.
    destruct (lset_ok row j x) as (row' & E1 & L1 & _); [lia|]. rewrite E1. cbn [bind].
    apply lset_rows; auto; [now apply Forall_forall|congruence].
  Qed.

  Lemma jac_row_ok e i n : forall names j m, (forall a, In a names -> In a (ads s)) -> i < length m ->
    Forall (fun row => length row = n) m -> j + length names <= n ->
    exists m', jac_row s (the_symbols s) e i j names m = Ok m' /\ length m' = length m /\ Forall (fun row => length row = n) m'.
  Proof.
    induction names as [|a names IH]; intros j m I Hi F H; cbn [jac_row]; [exists m; auto|].
    rewrite extract_theta by (apply I; now left). cbn [bind].
    cbn [length] in H. destruct (mset_ok m n i j (match e with None => SNum 0 | Some e => sdiff (sym_name (theta_sym a)) e end) Hi F)
      as (m1 & E1 & L1 & F1); [lia|]. rewrite E1. cbn [bind].
    destruct (IH (S j) m1) as (m2 & E2 & L2 & F2); auto; [intros; apply I; now right|lia|lia|].
    exists m2. split; auto. split; auto. congruence.
  Qed.

  Lemma jacobian_not_two : length (ads s) <> 2 -> jacobian_by_sym s y T r (Some data) cvgs = Err IndexError.
  Proof.
    intro N2. destruct (symbolic_inv s y data (proj1 U) SY) as [Ey _].
    destruct (the_subs s y data T r SY NL U cvgs Len) as (d & Ed & SB).
    destruct (dtheta_value s U T r cvgs d HT ER Len PS NL SB) as (es & F & A & B & C).
    rewrite <- Ey in Ed, A. unfold jacobian_by_sym. rewrite Ed. cbn [bind]. unfold jacobian_sym. rewrite A. cbn [bind].
    rewrite map_length.
    assert (Le : length es = length (ads s)).
    { apply mapM_length in B. apply Forall2_length in C. congruence. }
    assert (FR : forall e, sev d e = sev d e) by reflexivity.
    assert (EL : forall n, n = length es -> Forall (fun row => length row = n) [repeat (SNum 0) n; repeat (SNum 0) n]).
    { intros n _. repeat constructor; apply repeat_length. }
    destruct es as [|e0 [|e1 [|e2 es]]].
    - cbn [map jac_rows length repeat bind]. reflexivity.
    - assert (exists a, ads s = [a]) as [a Ea] by (destruct (ads s) as [|a [|]]; try discriminate; eauto).
      cbn [map jac_rows length repeat]. change (l_ads (s_lists s)) with (ads s). rewrite Ea. cbn [jac_row].
      assert (extract s y a (L "ads_cvg") = Ok (theta_sym a)) as -> by (rewrite Ey; apply extract_theta; rewrite Ea; now left).
      cbn [bind]. unfold mset, lindex. cbn [nth_error lset bind length]. cbn [eval_rows eval_row]. unfold lindex. cbn [nth_error bind].
      assert (exists w, sev d (sdiff (sym_name (theta_sym a)) e0) = Ok w) as [w ->].
      { destruct (entry_ok d [e0] F 0 0 a e0 Ed A B) as (w & G & X & _); [now rewrite Ea|reflexivity|eauto]. }
      cbn [bind]. unfold mset, lindex. cbn [nth_error lset bind repeat]. unfold lindex. reflexivity.
    - exfalso. apply N2. rewrite <- Le. reflexivity.
    - cbn [map jac_rows]. rewrite Ey. set (n := length (e0 :: e1 :: e2 :: es)) in *.
      destruct (jac_row_ok (Some e0) 0 n (l_ads (s_lists s)) 0 [repeat (SNum 0) n; repeat (SNum 0) n])
        as (m1 & E1 & L1 & F1); [auto|cbn; lia|now apply EL|change (l_ads (s_lists s)) with (ads s); lia|].
      rewrite E1. cbn [bind].
      destruct (jac_row_ok (Some e1) 1 n (l_ads (s_lists s)) 0 m1)
        as (m2 & E2 & L2 & F2); [auto|rewrite L1; cbn; lia|auto|change (l_ads (s_lists s)) with (ads s); lia|].
      rewrite E2. cbn [bind]. cbn [length] in L1.
      assert (exists a names, ads s = a :: names) as (a & names & Ea) by (destruct (ads s); [discriminate|eauto]).
      change (l_ads (s_lists s)) with (ads s). rewrite Ea. cbn [jac_row]. rewrite extract_theta by (rewrite Ea; now left). cbn [bind].
      unfold mset, lindex. assert (nth_error m2 2 = None) as -> by (apply nth_error_None; lia). reflexivity.
  Qed.
End Jac.
