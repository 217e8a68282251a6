(** Lemmas: detailed balance of the generated processes on a lattice (C108). *)
From Coq Require Import String Ascii List ZArith NArith Bool Arith QArith Reals Lra Lia.
Import ListNotations.
From Verif Require Import PyBase PyBaseFacts Kmc_Model Kmc_Spec Kmc_Proofs KmcLat_Spec.
Local Open Scope list_scope.
Local Open Scope nat_scope.

(** ** Writing *)
Lemma put_length X s e : length (put X s e) = length X.
Proof. revert s. induction X as [|x X IH]; intros [|s]; cbn; auto. Qed.

Lemma put_same X s e : s < length X -> nth_error (put X s e) s = Some e.
Proof. revert s. induction X as [|x X IH]; intros [|s] H; cbn in *; try lia; auto. apply IH. lia. Qed.

Lemma put_other X s t e : s <> t -> nth_error (put X s e) t = nth_error X t.
Proof. revert s t. induction X as [|x X IH]; intros [|s] [|t] H; cbn; auto; try congruence. Qed.

Lemma put_energy E X s x e : nth_error X s = Some x -> (energy E (put X s e) = energy E X - E x + E e)%R.
Proof.
  unfold energy. revert s. induction X as [|y X IH]; intros [|s] H; cbn -[sum] in *; try discriminate.
  - injection H as ->. unfold sum. cbn [fold_right]. lra.
  - specialize (IH s H). unfold sum in *. cbn [fold_right]. rewrite IH. lra.
Qed.

Lemma nth_error_ext_eq {A} (l m : list A) : (forall i, nth_error l i = nth_error m i) -> l = m.
Proof.
  revert m. induction l as [|x l IH]; intros [|y m] H; auto.
  - specialize (H 0). discriminate.
  - specialize (H 0). discriminate.
  - pose proof (H 0) as H0. injection H0 as ->. f_equal. apply IH. intro i. exact (H (S i)).
Qed.

Lemma write_length l X : length (fold_left write l X) = length X.
Proof.
  revert X. induction l as [|[s e] l IH]; intro X; cbn; auto. rewrite IH. unfold write. cbn.
  destruct (str_eqb e _); auto using put_length.
Qed.

Lemma write_other l X t : ~ In t (map fst l) -> nth_error (fold_left write l X) t = nth_error X t.
Proof.
  revert X. induction l as [|[s e] l IH]; intros X H; cbn in *; auto. rewrite IH by tauto. unfold write. cbn.
  destruct (str_eqb e _); auto. apply put_other. tauto.
Qed.

Lemma write_in l X t e : NoDup (map fst l) -> In (t, e) l -> t < length X ->
  nth_error (fold_left write l X) t = if str_eqb e (L "*") then nth_error X t else Some e.
Proof.
  revert X. induction l as [|[s c] l IH]; intros X N H B; cbn in *; [tauto|]. inversion N as [|? ? N1 N2]; subst.
  destruct H as [H|H].
  - injection H as -> ->. rewrite write_other by auto. unfold write. cbn. destruct (str_eqb e _); auto using put_same.
  - assert (s <> t) by (intros ->; apply N1; apply (in_map fst) in H; exact H).
    rewrite IH; auto.
    + destruct (str_eqb e _); auto. unfold write. cbn. destruct (str_eqb c _); auto using put_other.
    + unfold write. cbn. destruct (str_eqb c _); auto. now rewrite put_length.
Qed.

(** Sites with the elements before and after. *)
Definition befores (l : list (nat * (str * str))) := map (fun x => (fst x, fst (snd x))) l.
Definition afters (l : list (nat * (str * str))) := map (fun x => (fst x, snd (snd x))) l.

Lemma befores_fst l : map fst (befores l) = map fst l.
Proof. unfold befores. rewrite map_map. reflexivity. Qed.
Lemma afters_fst l : map fst (afters l) = map fst l.
Proof. unfold afters. rewrite map_map. reflexivity. Qed.

Definition wild (l : list (nat * (str * str))) : Prop :=
  Forall (fun x => fst (snd x) = L "*" <-> snd (snd x) = L "*") l.

Lemma undo l X : NoDup (map fst l) -> (forall s, In s (map fst l) -> s < length X) -> wild l ->
  forallb (fits X) (befores l) = true ->
  forallb (fits (fold_left write (afters l) X)) (afters l) = true /\
  fold_left write (befores l) (fold_left write (afters l) X) = X.
Proof.
  intros N B W F. rewrite forallb_forall in F. unfold wild in W. rewrite Forall_forall in W. split.
  - apply forallb_forall. intros [s e] H. unfold fits. cbn [fst snd].
    assert (S : s < length X). { apply B. apply (in_map fst) in H. rewrite afters_fst in H. exact H. }
    rewrite (write_in (afters l) X s e); auto; [|now rewrite afters_fst].
    destruct (str_eqb_spec e (L "*")); cbn [orb]; auto. now rewrite str_eqb_refl.
  - apply nth_error_ext_eq. intro t.
    destruct (in_dec Nat.eq_dec t (map fst l)) as [I|I].
    + apply in_map_iff in I as ((s & b & c) & E & I). cbn in E. subst s.
      assert (S : t < length X) by (apply B; apply (in_map fst) in I; exact I).
      rewrite (write_in (befores l) _ t b).
      * specialize (W _ I). cbn in W. assert (Fb := F (t, b)). unfold fits in Fb. cbn [fst snd] in Fb.
        assert (Ib : In (t, b) (befores l)) by (apply (in_map (fun x => (fst x, fst (snd x)))) in I; exact I).
        specialize (Fb Ib). destruct (str_eqb_spec b (L "*")) as [Eb|Eb]; cbn [orb] in Fb.
        -- rewrite (write_in (afters l) X t c); auto; [|now rewrite afters_fst|].
           ++ rewrite (proj1 W Eb). reflexivity.
           ++ apply (in_map (fun x => (fst x, snd (snd x)))) in I. exact I.
        -- destruct (nth_error X t) as [x|]; [|discriminate]. apply str_eqb_eq in Fb. now subst.
      * now rewrite befores_fst.
      * apply (in_map (fun x => (fst x, fst (snd x)))) in I. exact I.
      * now rewrite write_length.
    + rewrite !write_other; auto; [now rewrite afters_fst|now rewrite befores_fst].
Qed.

Lemma change l E : forall X, NoDup (map fst l) -> wild l -> forallb (fits X) (befores l) = true ->
  (energy E (fold_left write (afters l) X)
   = energy E X - energy E (named (map (fun x => fst (snd x)) l)) + energy E (named (map (fun x => snd (snd x)) l)))%R.
Proof.
  induction l as [|[s [b c]] l IH]; intros X N W F.
  - change (fold_left write (afters []) X) with X. unfold named. cbn [map filter]. lra.
  - change (afters ((s, (b, c)) :: l)) with ((s, c) :: afters l).
    change (befores ((s, (b, c)) :: l)) with ((s, b) :: befores l) in F.
    cbn [fold_left forallb map fst snd] in *. unfold named in *. cbn [filter].
    apply andb_true_iff in F as [F1 F2]. inversion N as [|? ? N1 N2]; subst.
    inversion W as [|? ? W1 W2]; subst. cbn -[L] in W1. unfold fits in F1. cbn [fst snd] in F1.
    change (write X (s, c)) with (if str_eqb c (L "*") then X else put X s c).
    destruct (str_eqb_spec c (L "*")) as [Ec|Ec]; destruct (str_eqb_spec b (L "*")) as [Eb|Eb]; cbn [negb orb] in *;
      try tauto.
    + rewrite (IH X N2 W2 F2). reflexivity.
    + destruct (nth_error X s) as [x|] eqn:Hx; [|discriminate]. apply str_eqb_eq in F1. subst x.
      rewrite IH; auto.
      * rewrite (put_energy E X s b c Hx). unfold energy, sum. cbn [map fold_right]. lra.
      * apply forallb_forall. intros [t e] H. rewrite forallb_forall in F2. specialize (F2 _ H).
        assert (s <> t). { intros ->. apply N1. apply (in_map fst) in H. rewrite befores_fst in H. exact H. }
        unfold fits in *. cbn [fst snd] in *. now rewrite put_other.
Qed.

(** ** Sums *)
Lemma sum_app l m : (sum (l ++ m) = sum l + sum m)%R.
Proof. unfold sum. induction l as [|x l IH]; cbn; [lra|]. rewrite IH. lra. Qed.
Lemma sum_scale c l : (c * sum l = sum (map (fun x => c * x) l))%R.
Proof. unfold sum. induction l as [|x l IH]; cbn; [lra|]. rewrite <- IH. lra. Qed.
Lemma sum_ext {A} (f g : A -> R) l : (forall x, In x l -> f x = g x) -> sum (map f l) = sum (map g l).
Proof. intro H. f_equal. now apply map_ext_in. Qed.
Lemma sum_plus {A} (f g : A -> R) l : (sum (map (fun x => f x + g x) l) = sum (map f l) + sum (map g l))%R.
Proof. unfold sum. induction l as [|x l IH]; cbn; [lra|]. rewrite IH. lra. Qed.

Section Lattice.
  Variable neighbour : nat -> list Q -> nat.
  Variable basis : nat -> Z.
  Variable n : nat.
  Notation event := (event neighbour basis).
  Notation leads := (leads neighbour basis).
  Notation flow := (flow neighbour basis n).

  Definition part (ps : list (kmc_process R)) (a : nat) (X Y : config) : R :=
    sum (map (fun p => if leads p a X Y then p_rate p else 0%R) ps).

  Lemma flow_app ps qs X Y : flow (ps ++ qs) X Y = (flow ps X Y + flow qs X Y)%R.
  Proof. unfold KmcLat_Spec.flow. now rewrite map_app, sum_app. Qed.

  Lemma flow_concat l X Y : flow (concat l) X Y = sum (map (fun ps => flow ps X Y) l).
  Proof.
    induction l as [|ps l IH]; [reflexivity|]. cbn [concat map]. rewrite flow_app, IH. reflexivity.
  Qed.

  Lemma texts_of v l : seq_of v (map PStr l) -> texts v = l.
  Proof.
    intros [-> | ->]; cbn; induction l as [|x l IH]; cbn; auto; now rewrite IH.
  Qed.

  Lemma combine_triples (ss : list nat) (bs cs : list str) : length bs = length ss -> length cs = length ss ->
    exists l, map fst l = ss /\ befores l = combine ss bs /\ afters l = combine ss cs /\
      map (fun x => fst (snd x)) l = bs /\ map (fun x => snd (snd x)) l = cs.
  Proof.
    revert bs cs. induction ss as [|s ss IH]; intros [|b bs] [|c cs] H1 H2; try discriminate.
    - exists []. repeat split.
    - injection H1 as H1. injection H2 as H2. destruct (IH bs cs H1 H2) as (l & A & B & C & D & F).
      exists ((s, (b, c)) :: l). cbn. unfold befores, afters in *. rewrite A, B, C, D, F. repeat split.
  Qed.

  Definition fwd d (p : pdef) cs site (rf : R) fast : kmc_process R :=
    let seq k := match dget d (L k) with Some v => v | None => PNone end in
    {| p_coordinates := cs; p_before := seq "elements_before"%string;
       p_after := seq "elements_after"%string; p_site := site; p_rate := rf;
       p_fast := fast; p_redist := false;
       p_redist_species := match dget d (L "redist_species") with Some v => v | None => PNone end |}.
  Definition bwd d (p : pdef) cs site (rr : R) fast : kmc_process R :=
    let seq k := match dget d (L k) with Some v => v | None => PNone end in
    {| p_coordinates := cs; p_before := seq "elements_after"%string;
       p_after := seq "elements_before"%string; p_site := site; p_rate := rr;
       p_fast := fast; p_redist := false; p_redist_species := PNone |}.

  (** The two processes of a pair undo each other and change the energy by the difference. *)
  Lemma pair_undo d p cs site rf rr fast a X Y E : describes d p -> well_formed p -> same_wildcards p ->
    roomy neighbour n p -> a < n -> In cs (d_group p) -> length X = n ->
    (event (fwd d p cs site rf fast) a X = Some Y ->
     event (bwd d p cs site rr fast) a Y = Some X /\
     energy E Y = (energy E X - energy E (named (d_before p)) + energy E (named (d_after p)))%R /\ length Y = n) /\
    (event (bwd d p cs site rr fast) a X = Some Y ->
     event (fwd d p cs site rf fast) a Y = Some X /\
     energy E Y = (energy E X - energy E (named (d_after p)) + energy E (named (d_before p)))%R /\ length Y = n).
  Proof.
    intros D W S Rm Ha Hc HX.
    destruct (de_before _ _ D) as (vb & Db & Sb). destruct (de_after _ _ D) as (va & Da & Sa).
    destruct (Rm a cs Ha Hc) as [ND Bd].
    pose proof (wf_before _ W cs Hc) as Lb. pose proof (wf_after _ W cs Hc) as La.
    unfold KmcLat_Spec.event, fwd, bwd. cbn [p_coordinates p_before p_after p_site]. rewrite Db, Da.
    rewrite (texts_of _ _ Sb), (texts_of _ _ Sa).
    assert (B : forall s, In s (map (neighbour a) cs) -> s < length X).
    { intros s Hs. apply in_map_iff in Hs as (c & <- & Hc'). rewrite HX. now apply Bd. }
    assert (Main : forall bs as' Y, length bs = length cs -> length as' = length cs ->
      Forall2 (fun b c => b = L "*" <-> c = L "*") bs as' ->
      forallb (fits X) (combine (map (neighbour a) cs) bs) = true ->
      fold_left write (combine (map (neighbour a) cs) as') X = Y ->
      forallb (fits Y) (combine (map (neighbour a) cs) as') = true /\
      fold_left write (combine (map (neighbour a) cs) bs) Y = X /\
      energy E Y = (energy E X - energy E (named bs) + energy E (named as'))%R /\ length Y = n).
    { clear - ND B HX. intros bs as' Y L1 L2 F2 F <-.
      destruct (combine_triples (map (neighbour a) cs) bs as') as (l & E1 & E2 & E3 & E4 & E5);
        [now rewrite map_length|now rewrite map_length|].
      assert (W : wild l).
      { clear - F2 E4 E5. unfold wild. subst bs as'. induction l as [|x l IH]; constructor; cbn in F2.
        - inversion F2; assumption.
        - apply IH. inversion F2; assumption. }
      rewrite <- E1 in ND, B. rewrite <- E2 in *. rewrite <- E3 in *.
      destruct (undo l X ND B W F) as [U1 U2]. split; [exact U1|]. split; [exact U2|].
      pose proof (change l E X ND W F) as C. rewrite E4, E5 in C. split; [exact C|]. now rewrite write_length. }
    unfold same_wildcards in S.
    assert (S' : Forall2 (fun b c => b = L "*" <-> c = L "*") (d_after p) (d_before p)).
    { clear - S. induction S; constructor; tauto. }
    split; intro Ev.
    - destruct (match number site with Some z => (z =? basis a)%Z | None => false end) eqn:Es; [|discriminate].
      destruct (forallb (fits X) (combine (map (neighbour a) cs) (d_before p))) eqn:Ef; [|discriminate].
      cbn [andb] in Ev. injection Ev as Ev.
      destruct (Main _ _ Y Lb La S Ef Ev) as (A1 & A2 & A3 & A4). rewrite A1. cbn [andb]. rewrite A2. auto.
    - destruct (match number site with Some z => (z =? basis a)%Z | None => false end) eqn:Es; [|discriminate].
      destruct (forallb (fits X) (combine (map (neighbour a) cs) (d_after p))) eqn:Ef; [|discriminate].
      cbn [andb] in Ev. injection Ev as Ev.
      destruct (Main _ _ Y La Lb S' Ef Ev) as (A1 & A2 & A3 & A4). rewrite A1. cbn [andb]. rewrite A2. auto.
  Qed.

  Lemma leads_iff p a X Y : leads p a X Y = true <-> event p a X = Some Y.
  Proof.
    unfold KmcLat_Spec.leads. destruct (event p a X) as [Z|]; [|split; discriminate].
    destruct (same_config Z Y) as [->|N]; split; auto; congruence.
  Qed.

  Lemma pair_leads d p cs site rf rr fast a X Y : describes d p -> well_formed p -> same_wildcards p ->
    roomy neighbour n p -> a < n -> In cs (d_group p) -> length X = n -> length Y = n ->
    leads (bwd d p cs site rr fast) a Y X = leads (fwd d p cs site rf fast) a X Y.
  Proof.
    intros D W S Rm Ha Hc HX HY.
    destruct (leads (fwd d p cs site rf fast) a X Y) eqn:L1.
    - apply leads_iff. apply leads_iff in L1.
      apply (proj1 (pair_undo d p cs site rf rr fast a X Y (fun _ => 0%R) D W S Rm Ha Hc HX) L1).
    - destruct (leads (bwd d p cs site rr fast) a Y X) eqn:L2; [|reflexivity].
      apply leads_iff in L2.
      assert (leads (fwd d p cs site rf fast) a X Y = true); [|congruence]. apply leads_iff.
      apply (proj2 (pair_undo d p cs site rf rr fast a Y X (fun _ => 0%R) D W S Rm Ha Hc HY) L2).
  Qed.

  Lemma pair_flow E d p cs site rf rr fast X Y : describes d p -> well_formed p -> same_wildcards p ->
    roomy neighbour n p -> In cs (d_group p) -> length X = n -> length Y = n -> balanced E p rf rr ->
    (weight E X * flow [fwd d p cs site rf fast; bwd d p cs site rr fast] X Y
     = weight E Y * flow [fwd d p cs site rf fast; bwd d p cs site rr fast] Y X)%R.
  Proof.
    intros D W S Rm Hc HX HY B. unfold KmcLat_Spec.flow. cbn [map]. unfold sum at 1. unfold sum at 3. cbn [fold_right].
    rewrite !Rplus_0_r, <- !sum_plus, !sum_scale, !map_map. apply sum_ext. intros a Ha.
    apply in_seq in Ha. assert (Ha' : a < n) by lia.
    rewrite (pair_leads d p cs site rf rr fast a X Y) by auto.
    rewrite <- (pair_leads d p cs site rf rr fast a Y X) by auto.
    cbn [p_rate fwd bwd].
    assert (K1 : leads (fwd d p cs site rf fast) a X Y = true -> (weight E X * rf = weight E Y * rr)%R).
    { intro H. apply leads_iff in H.
      destruct (proj1 (pair_undo d p cs site rf rr fast a X Y E D W S Rm Ha' Hc HX) H) as (_ & Ee & _).
      unfold balanced, weight in *. rewrite Ee.
      replace (- (energy E X - energy E (named (d_before p)) + energy E (named (d_after p))))%R
        with (- energy E X + (energy E (named (d_before p))) + (- energy E (named (d_after p))))%R by lra.
      rewrite !exp_plus.
      assert (Q : (exp (energy E (named (d_before p))) * exp (- energy E (named (d_before p))) = 1)%R).
      { rewrite <- exp_plus, <- exp_0. f_equal. lra. }
      replace (exp (- energy E X) * exp (energy E (named (d_before p))) * exp (- energy E (named (d_after p))) * rr)%R
        with (exp (- energy E X) * exp (energy E (named (d_before p))) * (rr * exp (- energy E (named (d_after p)))))%R by ring.
      rewrite <- B.
      replace (exp (- energy E X) * exp (energy E (named (d_before p))) * (rf * exp (- energy E (named (d_before p)))))%R
        with (exp (- energy E X) * rf * (exp (energy E (named (d_before p))) * exp (- energy E (named (d_before p)))))%R by ring.
      rewrite Q. ring. }
    assert (K2 : leads (bwd d p cs site rr fast) a X Y = true -> (weight E X * rr = weight E Y * rf)%R).
    { intro H. apply leads_iff in H.
      destruct (proj2 (pair_undo d p cs site rf rr fast a X Y E D W S Rm Ha' Hc HX) H) as (_ & Ee & _).
      unfold balanced, weight in *. rewrite Ee.
      replace (- (energy E X - energy E (named (d_after p)) + energy E (named (d_before p))))%R
        with (- energy E X + (energy E (named (d_after p))) + (- energy E (named (d_before p))))%R by lra.
      rewrite !exp_plus.
      assert (Q : (exp (energy E (named (d_after p))) * exp (- energy E (named (d_after p))) = 1)%R).
      { rewrite <- exp_plus, <- exp_0. f_equal. lra. }
      replace (exp (- energy E X) * exp (energy E (named (d_after p))) * exp (- energy E (named (d_before p))) * rf)%R
        with (exp (- energy E X) * exp (energy E (named (d_after p))) * (rf * exp (- energy E (named (d_before p)))))%R by ring.
      rewrite B.
      replace (exp (- energy E X) * exp (energy E (named (d_after p))) * (rr * exp (- energy E (named (d_after p)))))%R
        with (exp (- energy E X) * rr * (exp (energy E (named (d_after p))) * exp (- energy E (named (d_after p)))))%R by ring.
      rewrite Q. ring. }
    destruct (leads (fwd d p cs site rf fast) a X Y) eqn:L1;
      destruct (leads (bwd d p cs site rr fast) a X Y) eqn:L2;
      try (specialize (K1 eq_refl)); try (specialize (K2 eq_refl)); lra.
  Qed.

  Lemma sum_concat (l : list (list R)) : sum (concat l) = sum (map sum l).
  Proof. induction l as [|x l IH]; cbn [concat map]; [reflexivity|]. rewrite sum_app, IH. reflexivity. Qed.

  Lemma map_flat_map' {A B C} (f : B -> C) (g : A -> list B) l :
    map f (flat_map g l) = flat_map (fun x => map f (g x)) l.
  Proof. induction l as [|x l IH]; cbn; auto. now rewrite map_app, IH. Qed.

  Lemma labelled_pairs d p rf rr fast :
    map fst (labelled d p rf rr fast false)
    = flat_map (fun site => flat_map (fun cs => [fwd d p cs site rf fast; bwd d p cs site rr fast]) (d_group p)) (d_sites p).
  Proof.
    unfold labelled. rewrite map_flat_map'. apply flat_map_ext. intro site. rewrite map_flat_map'.
    apply flat_map_ext. reflexivity.
  Qed.

  Lemma flow_flat_map {A} (E : str -> R) (f : A -> list (kmc_process R)) l X Y :
    (forall x, In x l -> (weight E X * flow (f x) X Y = weight E Y * flow (f x) Y X)%R) ->
    (weight E X * flow (flat_map f l) X Y = weight E Y * flow (flat_map f l) Y X)%R.
  Proof.
    induction l as [|x l IH]; intro H; cbn [flat_map].
    - unfold KmcLat_Spec.flow. cbn. lra.
    - rewrite !flow_app, !Rmult_plus_distr_l, IH, (H x); [reflexivity|left; reflexivity|].
      intros y Hy. apply H. now right.
  Qed.

  Definition fit (d : dict pv) : Prop :=
    flag d "redist" false /\ forall p, describes d p -> same_wildcards p /\ roomy neighbour n p.

  Lemma flag_unique d k b c : flag d k b -> flag d k c -> b = c.
  Proof.
    unfold flag. destruct (dget d (L k)) as [v|]; [|congruence].
    destruct b, c; intros H1 H2; auto.
    - apply H1. apply H2. reflexivity.
    - symmetry. apply H2. apply H1. reflexivity.
  Qed.

  Lemma accepted_flow E (o : owner R) d l X Y : accepted o d l -> fit d -> length X = n -> length Y = n ->
    (forall p rf rr, describes d p -> rate_pair o (d_reaction p) rf rr -> balanced E p rf rr) ->
    (weight E X * flow (map fst l) X Y = weight E Y * flow (map fst l) Y X)%R.
  Proof.
    intros (p & rf & rr & fast & redist & D & W & _ & _ & _ & Rp & _ & Fr & ->) [F0 F] HX HY B.
    rewrite (flag_unique _ _ _ _ Fr F0). destruct (F p D) as [Sw Rm]. rewrite labelled_pairs.
    apply flow_flat_map. intros site _. apply flow_flat_map. intros cs Hc.
    apply pair_flow; auto.
  Qed.

  Lemma detailed_balance_flow E (o : owner R) mapping ds ps m X Y : get_processes o mapping ds = (Ok ps, m) ->
    (forall d, In d ds -> fit d) -> length X = n -> length Y = n ->
    (forall d p rf rr, In d ds -> describes d p -> rate_pair o (d_reaction p) rf rr -> balanced E p rf rr) ->
    (weight E X * flow ps X Y = weight E Y * flow ps Y X)%R.
  Proof.
    intros H F HX HY B. destruct (get_processes_inv _ _ _ _ _ H) as (ls & A & ->). clear H.
    induction A as [|d l ds ls A1 A2 IH].
    - unfold KmcLat_Spec.flow. cbn. lra.
    - cbn [concat]. rewrite map_app, !flow_app, !Rmult_plus_distr_l, IH.
      + f_equal. apply (accepted_flow E o d l); auto; [apply F; now left|].
        intros p rf rr D Rp. apply (B d); auto. now left.
      + intros d' H. apply F. now right.
      + intros d' p rf rr H. apply B. now right.
  Qed.

  Lemma stationary_flow E (o : owner R) mapping ds ps m Y Xs : get_processes o mapping ds = (Ok ps, m) ->
    (forall d, In d ds -> fit d) -> length Y = n -> (forall X, In X Xs -> length X = n) ->
    (forall d p rf rr, In d ds -> describes d p -> rate_pair o (d_reaction p) rf rr -> balanced E p rf rr) ->
    sum (map (fun X => weight E X * flow ps X Y)%R Xs) = (weight E Y * sum (map (fun X => flow ps Y X) Xs))%R.
  Proof.
    intros H F HY HX B. rewrite sum_scale, map_map. apply sum_ext. intros X HI.
    apply (detailed_balance_flow E o mapping ds ps m); auto.
  Qed.

  Lemma reversible (o : owner R) mapping ds ps m p a X Y : get_processes o mapping ds = (Ok ps, m) ->
    (forall d, In d ds -> fit d) -> In p ps -> a < n -> length X = n -> event p a X = Some Y ->
    length Y = n /\ exists q, In q ps /\ event q a Y = Some X /\ p_coordinates q = p_coordinates p /\ p_site q = p_site p.
  Proof.
    intros H F Hp Ha HX Ev. destruct (get_processes_inv _ _ _ _ _ H) as (ls & A & ->). clear H.
    apply in_map_iff in Hp as ((p' & lab) & E1 & Hp). cbn in E1. subst p'.
    apply in_concat in Hp as (l & Hl & Hp).
    assert (exists d, In d ds /\ accepted o d l) as (d & Hd & Acc).
    { clear - A Hl. induction A as [|d l' ds ls A1 A2 IH]; [destruct Hl|].
      destruct Hl as [->|Hl]; [exists d; split; [now left|assumption]|].
      destruct (IH Hl) as (d' & ? & ?). exists d'. split; [now right|assumption]. }
    destruct Acc as (pd & rf & rr & fast & redist & D & W & _ & _ & _ & Rp & _ & Fr & El).
    destruct (F d Hd) as [F0 F1]. rewrite (flag_unique _ _ _ _ Fr F0) in El. destruct (F1 pd D) as [Sw Rm].
    apply (in_map fst) in Hp. cbn [fst] in Hp.
    assert (Hin : forall q, In q (map fst l) -> In q (map fst (concat ls))).
    { intros q Hq. apply in_map_iff in Hq as (y & Ey & Hy). apply in_map_iff. exists y. split; auto.
      apply in_concat. exists l. auto. }
    rewrite El, labelled_pairs in Hp. apply in_flat_map in Hp as (site & Hs & Hp).
    apply in_flat_map in Hp as (cs & Hc & Hp).
    assert (Hback : forall q, In q [fwd d pd cs site rf fast; bwd d pd cs site rr fast] -> In q (map fst (concat ls))).
    { intros q Hq. apply Hin. rewrite El, labelled_pairs. apply in_flat_map. exists site. split; auto.
      apply in_flat_map. exists cs. auto. }
    destruct (pair_undo d pd cs site rf rr fast a X Y (fun _ => 0%R) D W Sw Rm Ha Hc HX) as [U1 U2].
    destruct Hp as [<-|[<-|[]]].
    - destruct (U1 Ev) as (V1 & _ & V2). split; auto. exists (bwd d pd cs site rr fast).
      split; [apply Hback; right; left; reflexivity|]. repeat split; auto.
    - destruct (U2 Ev) as (V1 & _ & V2). split; auto. exists (fwd d pd cs site rf fast).
      split; [apply Hback; left; reflexivity|]. repeat split; auto.
  Qed.
End Lattice.
