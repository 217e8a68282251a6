(** Lemmas: what any simulation with the generated processes keeps (C109). *)
From Coq Require Import String Ascii List ZArith NArith Bool Arith QArith Reals Lra Lia.
Import ListNotations.
From Verif Require Import PyBase PyBaseFacts Kmc_Model Kmc_Spec Kmc_Proofs Kmc_Witness KmcLat_Spec KmcLat_Proofs
  KmcLat_Witness.
From Verif Require KCov_Model KCov_Spec KCov_Proofs.
Local Open Scope list_scope.
Local Open Scope nat_scope.

Lemma put_in X s e x : In x (put X s e) -> x = e \/ In x X.
Proof.
  revert s. induction X as [|y X IH]; intros [|s] H; cbn in *; auto.
  - destruct H as [<-|H]; auto.
  - destruct H as [<-|H]; auto. destruct (IH s H); auto.
Qed.

Lemma write_all_in l X x : In x (fold_left write l X) -> In x X \/ (In x (map snd l) /\ x <> L "*").
Proof.
  revert X. induction l as [|[s e] l IH]; intros X H; cbn [fold_left map snd] in *; auto.
  destruct (IH _ H) as [H1|[H1 H2]]; [|right; split; [now right|assumption]].
  unfold write in H1. cbn [fst snd] in H1. destruct (str_eqb_spec e (L "*")); [now left|].
  destruct (put_in _ _ _ _ H1) as [->|H2]; auto. right. split; [now left|assumption].
Qed.

Lemma combine_snd_in {A B} (a : list A) (b : list B) x : In x (map snd (combine a b)) -> In x b.
Proof.
  revert b. induction a as [|y a IH]; intros [|z b] H; cbn in *; auto; try tauto. destruct H as [<-|H]; auto.
Qed.

Lemma process_cases (o : owner R) mapping ds ps m p : get_processes o mapping ds = (Ok ps, m) -> In p ps ->
  exists d pd cs site, In d ds /\ describes d pd /\ well_formed pd /\ known_elements o pd /\
    In cs (d_group pd) /\ In site (d_sites pd) /\ p_coordinates p = cs /\ p_site p = site /\
    ((texts (p_before p) = d_before pd /\ texts (p_after p) = d_after pd) \/
     (texts (p_before p) = d_after pd /\ texts (p_after p) = d_before pd)).
Proof.
  intros H Hp. destruct (get_processes_inv _ _ _ _ _ H) as (ls & A & ->). clear H.
  apply in_map_iff in Hp as ((p' & lab) & E1 & Hp). cbn in E1. subst p'.
  apply in_concat in Hp as (l & Hl & Hp).
  assert (exists d, In d ds /\ accepted o d l) as (d & Hd & Acc).
  { clear - A Hl. induction A as [|d l' ds ls A1 A2 IH]; [destruct Hl|].
    destruct Hl as [->|Hl]; [exists d; split; [now left|assumption]|].
    destruct (IH Hl) as (d' & ? & ?). exists d'. split; [now right|assumption]. }
  destruct Acc as (pd & rf & rr & fast & redist & D & W & _ & _ & Kn & _ & _ & _ & ->).
  unfold labelled in Hp. apply in_flat_map in Hp as (site & Hs & Hp). apply in_flat_map in Hp as (cs & Hc & Hp).
  destruct (de_before _ _ D) as (vb & Db & Sb). destruct (de_after _ _ D) as (va & Da & Sa).
  exists d, pd, cs, site. rewrite Db, Da in Hp.
  destruct Hp as [Hp|Hp].
  - injection Hp as <- _. cbn [p_coordinates p_site p_before p_after].
    rewrite (texts_of _ _ Sb), (texts_of _ _ Sa). 
    refine (conj Hd (conj D (conj W (conj Kn (conj Hc (conj Hs (conj eq_refl (conj eq_refl _)))))))); auto.
  - destruct redist; [destruct Hp|]. destruct Hp as [Hp|[]].
    injection Hp as <- _. cbn [p_coordinates p_site p_before p_after].
    rewrite (texts_of _ _ Sb), (texts_of _ _ Sa). 
    refine (conj Hd (conj D (conj W (conj Kn (conj Hc (conj Hs (conj eq_refl (conj eq_refl _)))))))); auto.
Qed.

Lemma event_inv neighbour basis p a X Y : event neighbour basis p a X = Some Y ->
  forallb (fits X) (combine (map (neighbour a) (p_coordinates p)) (texts (p_before p))) = true /\
  Y = fold_left write (combine (map (neighbour a) (p_coordinates p)) (texts (p_after p))) X.
Proof.
  unfold event. destruct (match number (p_site p) with Some z => (z =? basis a)%Z | None => false end); [|discriminate].
  cbn [andb]. destruct (forallb _ _); [|discriminate]. intro H. injection H as <-. auto.
Qed.

Lemma reaches_declared neighbour basis n (o : owner R) mapping ds ps m X Y :
  get_processes o mapping ds = (Ok ps, m) -> reaches neighbour basis n ps X Y ->
  (forall x, In x X -> In x (possible_element_types o)) ->
  length Y = length X /\ forall y, In y Y -> In y (possible_element_types o).
Proof.
  intros H Re HX. induction Re as [X|X Y Z p a Re IH Hp Ha Ev]; [auto|].
  destruct (IH HX) as [IL IH']. clear IH.
  destruct (process_cases _ _ _ _ _ _ H Hp) as (d & pd & cs & site & _ & _ & _ & Kn & _ & _ & _ & _ & T).
  destruct (event_inv _ _ _ _ _ _ Ev) as [_ ->]. split; [now rewrite write_length|].
  intros y Hy. destruct (write_all_in _ _ _ Hy) as [Hy'|[Hy' Ns]]; [now apply IH'|].
  apply combine_snd_in in Hy'. destruct (Kn y) as [E|E]; [|congruence|assumption].
  destruct T as [[_ T]|[_ T]]; rewrite T in Hy'; auto.
Qed.

Lemma reaches_recorded neighbour basis n (o : owner R) mapping ds ps m X Y empty ratios :
  get_processes o mapping ds = (Ok ps, m) -> reaches neighbour basis n ps X Y ->
  (forall x, In x X -> In x (possible_element_types o)) ->
  NoDup (possible_element_types o) -> In empty (possible_element_types o) ->
  KCov_Spec.whole_cells ratios X -> (KCov_Spec.total ratios == 1)%Q ->
  exists v, KCov_Model.step_coverages (possible_element_types o) empty ratios Y = Ok v /\
    Forall2 (fun t c => (c == KCov_Spec.fraction ratios Y t)%Q) (possible_element_types o) v.
Proof.
  intros H Re HX N He W T. destruct (reaches_declared _ _ _ _ _ _ _ _ _ _ H Re HX) as [Le D].
  apply KCov_Proofs.step_fractions; auto.
  destruct W as (W1 & W2 & k & W3). split; [|split; [exact W2|exists k; congruence]].
  intro E. apply W1. destruct X; [reflexivity|]. rewrite E in Le. discriminate.
Qed.

Lemma reaches_conserved neighbour basis n (o : owner R) mapping ds ps m X Y q :
  get_processes o mapping ds = (Ok ps, m) ->
  (forall d p, In d ds -> describes d p -> same_wildcards p /\ roomy neighbour n p /\
     energy q (named (d_before p)) = energy q (named (d_after p))) ->
  length X = n -> reaches neighbour basis n ps X Y -> energy q Y = energy q X.
Proof.
  intros H F HX Re.
  assert (length Y = n /\ energy q Y = energy q X); [|tauto].
  induction Re as [X|X Y Z p a Re IH Hp Ha Ev]; [auto|]. destruct (IH HX) as [IL IE]. clear IH. rewrite <- IE.
  destruct (process_cases _ _ _ _ _ _ H Hp) as (d & pd & cs & site & Hd & D & W & _ & Hc & _ & Ec & _ & T).
  destruct (F d pd Hd D) as (Sw & Rm & Sq). destruct (event_inv _ _ _ _ _ _ Ev) as [Fi ->]. rewrite Ec in *.
  split; [now rewrite write_length|].
  destruct (Rm a cs Ha Hc) as [ND _].
  pose proof (wf_before _ W cs Hc) as Lb. pose proof (wf_after _ W cs Hc) as La.
  assert (Sw' : Forall2 (fun b c => b = L "*" <-> c = L "*") (d_after pd) (d_before pd)).
  { clear - Sw. unfold same_wildcards in Sw. induction Sw; constructor; tauto. }
  assert (Main : forall bs as', length bs = length cs -> length as' = length cs ->
    Forall2 (fun b c => b = L "*" <-> c = L "*") bs as' -> energy q (named bs) = energy q (named as') ->
    forallb (fits Y) (combine (map (neighbour a) cs) bs) = true ->
    energy q (fold_left write (combine (map (neighbour a) cs) as') Y) = energy q Y).
  { clear - ND. intros bs as' L1 L2 F2 Eq Fi.
    destruct (combine_triples (map (neighbour a) cs) bs as') as (l & E1 & E2 & E3 & E4 & E5);
      [now rewrite map_length|now rewrite map_length|].
    assert (Wl : wild l).
    { clear - F2 E4 E5. unfold wild. subst bs as'. induction l as [|x l IH]; constructor; cbn in F2.
      - inversion F2; assumption.
      - apply IH. inversion F2; assumption. }
    rewrite <- E1 in ND. rewrite <- E2 in Fi. rewrite <- E3.
    rewrite (change l q Y ND Wl Fi), E4, E5. lra. }
  destruct T as [[Tb Ta]|[Tb Ta]]; rewrite Tb in Fi; rewrite Ta.
  - exact (Main _ _ Lb La Sw Sq Fi).
  - exact (Main _ _ La Lb Sw' (eq_sym Sq) Fi).
Qed.

(** ** A reaction that moves CO, defined as if it made CO. *)
Definition m_rxn : str := L "CO_t + *_b -> *_t + CO_b".
Definition m_def : dict pv :=
  [(L "reaction", PStr m_rxn);
   (L "coordinates_group", PList [PList (map (fun c => PList (map PFloat c)) w_coords)]);
   (L "elements_before", PList [PStr (L "CO"); PStr (L "V")]);
   (L "elements_after", PList [PStr (L "CO"); PStr (L "CO")]);
   (L "basis_sites", PList [PInt 0; PInt 1])].
Definition m_owner : owner R :=
  {| rxn_expressions := [m_rxn]; possible_element_types := [L "V"; L "CO"];
     rate_algo := L "TST"; rates_CT := fun _ => Ok (3%R, 10%R); rates_TST := fun _ => Ok (10%R, 3%R) |}.

Definition ones (e : str) : R := if str_eqb e (L "CO") then 1%R else 0%R.

Lemma m_reaches : exists ps m, get_processes m_owner [] [m_def] = (Ok ps, m) /\
  reaches l_neighbour l_basis 2 ps [L "CO"; L "V"] [L "CO"; L "CO"].
Proof.
  eexists. eexists. split; [vm_compute; reflexivity|].
  eapply (reaches_more _ _ _ _ _ _ _ _ 0); [constructor|left; reflexivity|lia|vm_compute; reflexivity].
Qed.

Lemma m_created : exists o ds ps m X Y,
  rxn_expressions o = [L "CO_t + *_b -> *_t + CO_b"] /\ get_processes o [] ds = (Ok ps, m) /\
  (forall d p, In d ds -> describes d p -> same_wildcards p /\ roomy l_neighbour 2 p) /\
  length X = 2 /\ reaches l_neighbour l_basis 2 ps X Y /\
  count_occ (list_eq_dec ascii_dec) X (L "CO") = 1 /\ count_occ (list_eq_dec ascii_dec) Y (L "CO") = 2.
Proof.
  destruct m_reaches as (ps & m & H & Re). do 6 eexists. split; [|split; [exact H|]]; [reflexivity|].
  split; [|split; [|split; [exact Re|split; reflexivity]]]; [|reflexivity].
  intros d p [<-|[]] D. destruct (de_before _ _ D) as (v1 & E1 & S1). destruct (de_after _ _ D) as (v2 & E2 & S2).
  destruct (de_group _ _ D) as (v3 & E3 & S3). cbn in E1, E2, E3. injection E1 as <-. injection E2 as <-.
  destruct S1 as [S1|S1]; [|discriminate]. destruct S2 as [S2|S2]; [|discriminate].
  injection S1 as S1. injection S2 as S2.
  assert (Eb : d_before p = [L "CO"; L "V"]) by (symmetry; apply map_PStr_inj; exact S1).
  assert (Ea : d_after p = [L "CO"; L "CO"]) by (symmetry; apply map_PStr_inj; exact S2).
  split; [unfold same_wildcards; rewrite Eb, Ea; repeat constructor; intro Hc; discriminate Hc|].
  apply l_roomy. injection E3 as <-. destruct S3 as [H3|H3]; [|discriminate]. injection H3 as H3.
  destruct (d_group p) as [|cs [|cs' g]]; try discriminate. f_equal. injection H3 as H3. unfold w_coords.
  destruct cs as [|c0 [|c1 [|c2 cs]]]; try discriminate. cbn in H3. injection H3 as H0 H1.
  rewrite (map_floats_inj c0 [0; 0; 0]%Q), (map_floats_inj c1 [1 # 2; 0; 0]%Q); auto.
Qed.

(** Diffusion, which conserves CO. *)
Definition h_def : dict pv :=
  [(L "reaction", PStr m_rxn);
   (L "coordinates_group", PList [PList (map (fun c => PList (map PFloat c)) w_coords)]);
   (L "elements_before", PList [PStr (L "CO"); PStr (L "V")]);
   (L "elements_after", PList [PStr (L "V"); PStr (L "CO")]);
   (L "basis_sites", PList [PInt 0; PInt 1])].

Lemma h_conserves : exists ps m, get_processes m_owner [] [h_def] = (Ok ps, m) /\
  reaches l_neighbour l_basis 2 ps [L "CO"; L "V"] [L "V"; L "CO"] /\
  (forall d p, In d [h_def] -> describes d p -> same_wildcards p /\ roomy l_neighbour 2 p /\
     energy ones (named (d_before p)) = energy ones (named (d_after p))) /\
  (forall x, In x [L "CO"; L "V"] -> In x (possible_element_types m_owner)).
Proof.
  eexists. eexists. split; [vm_compute; reflexivity|]. split; [|split].
  - eapply (reaches_more _ _ _ _ _ _ _ _ 0); [constructor|left; reflexivity|lia|vm_compute; reflexivity].
  - intros d p [<-|[]] D. destruct (de_before _ _ D) as (v1 & E1 & S1). destruct (de_after _ _ D) as (v2 & E2 & S2).
    destruct (de_group _ _ D) as (v3 & E3 & S3). cbn in E1, E2, E3. injection E1 as <-. injection E2 as <-.
    destruct S1 as [S1|S1]; [|discriminate]. destruct S2 as [S2|S2]; [|discriminate].
    injection S1 as S1. injection S2 as S2.
    assert (Eb : d_before p = [L "CO"; L "V"]) by (symmetry; apply map_PStr_inj; exact S1).
    assert (Ea : d_after p = [L "V"; L "CO"]) by (symmetry; apply map_PStr_inj; exact S2).
    split; [unfold same_wildcards; rewrite Eb, Ea; repeat constructor; intro Hc; discriminate Hc|]. split.
    + apply l_roomy. injection E3 as <-. destruct S3 as [H3|H3]; [|discriminate]. injection H3 as H3.
      destruct (d_group p) as [|cs [|cs' g]]; try discriminate. f_equal. injection H3 as H3. unfold w_coords.
      destruct cs as [|c0 [|c1 [|c2 cs]]]; try discriminate. cbn in H3. injection H3 as H0 H1.
      rewrite (map_floats_inj c0 [0; 0; 0]%Q), (map_floats_inj c1 [1 # 2; 0; 0]%Q); auto.
    + rewrite Eb, Ea. unfold energy, sum, ones. cbn. lra.
  - intros x [<-|[<-|[]]]; cbn; auto.
Qed.
