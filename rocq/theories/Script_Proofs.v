(** Proofs about the run scripts. *)
From Coq Require Import String Ascii List ZArith QArith Bool Sorted Lia.
Import ListNotations.
From Verif Require Import PyBase PyBaseFacts PyBase_Spec PyBase_Sound SS_Model Fmt_Model Fmt_Proofs Run_Model
  Script_Model Script_Spec.
Local Open Scope list_scope.

Lemma is_prefix_iff p s : is_prefix p s = true <-> exists t, s = p ++ t.
Proof.
  revert s. induction p as [|x p IH]; intros [|y s]; cbn.
  - split; eauto.
  - split; eauto.
  - split; [discriminate|intros (t & E); discriminate].
  - rewrite andb_true_iff, IH, Ascii.eqb_eq. split.
    + intros (-> & t & ->). eauto.
    + intros (t & E). injection E as -> ->. eauto.
Qed.
Lemma is_prefix_false p s : is_prefix p s = false <-> forall t, s <> p ++ t.
Proof.
  rewrite <- not_true_iff_false, is_prefix_iff. split.
  - intros H t E. apply H. eauto.
  - intros H (t & E). exact (H t E).
Qed.

Lemma rm_rf_iff files n : In n (rm_rf files) <-> remaining files n.
Proof.
  unfold rm_rf, remaining, old_output. rewrite filter_In, negb_true_iff, orb_false_iff, is_prefix_false.
  split; intros (A & B & D); repeat split; auto.
  - intros ->. discriminate.
  - destruct (str_eqb n (L "out.log")) eqn:E; auto. apply str_eqb_eq in E. contradiction.
Qed.

Lemma setups_iff files n : In n (setups files) <-> In n files /\ setup_file n.
Proof.
  unfold setups, setup_file, ends_in. rewrite filter_In, andb_true_iff, is_prefix_iff.
  assert (A : (exists t, rev n = rev (L ".mkm") ++ t) <-> exists base, n = base ++ L ".mkm").
  { split.
    - intros (t & E). exists (rev t). rewrite <- (rev_involutive n), E, rev_app_distr, rev_involutive. reflexivity.
    - intros (b & ->). exists (rev b). apply rev_app_distr. }
  rewrite A. clear A. split.
  - intros (I & (b & ->) & V). split; auto. split; eauto. intros t E. rewrite E in V. discriminate V.
  - intros (I & (b & ->) & V). split; auto. split; eauto. destruct b as [|c b]; [now specialize (V (L "mkm"))|].
    cbn. rewrite negb_true_iff. apply Ascii.eqb_neq. intros ->. exact (V _ eq_refl).
Qed.

Lemma listable_iff n : n <> [] -> (listable n = true <-> ordinary n).
Proof.
  intro N. unfold listable, ordinary, has_char. rewrite andb_true_iff, negb_true_iff. destruct n as [|c n]; [easy|].
  rewrite negb_true_iff, <- not_true_iff_false, existsb_exists, Ascii.eqb_neq. split.
  - intros (A & B). split.
    + intro I. apply A. exists (ascii_of_nat 10). auto using Ascii.eqb_refl.
    + intros t E. injection E as -> _. now apply B.
  - intros (A & B). split.
    + intros (x & I & E). apply Ascii.eqb_eq in E. subst x. contradiction.
    + intros ->. exact (B n eq_refl).
Qed.

Lemma setup_file_nonempty n : setup_file n -> n <> [].
Proof. intros ((b & ->) & _) E. now destruct b. Qed.

Lemma sorted_last_greatest (l : list str) x : StronglySorted before (l ++ [x]) -> forall m, In m l -> before m x.
Proof.
  induction l as [|y l IH]; cbn; [easy|]. intros S m [->|I].
  - apply StronglySorted_inv in S. destruct S as (_ & F). rewrite Forall_forall in F. apply F, in_or_app. cbn. auto.
  - apply StronglySorted_inv in S. now apply IH.
Qed.

Lemma before_irrefl a : ~ before a a.
Proof.
  intros [(c & t & E)|(p & x & y & s & t & E & E' & H)].
  - apply (f_equal (@length ascii)) in E. rewrite app_length in E. cbn in E. lia.
  - rewrite E in E'. apply app_inv_head in E'. injection E' as -> _. lia.
Qed.
Lemma before_trans a b c : before a b -> before b c -> before a c.
Proof. rewrite <- !str_lt_before. apply str_lt_trans. Qed.

Lemma last_setup_taken files n :
  (forall m, In m files -> setup_file m -> ordinary m) ->
  taken (fun m => In m files) n -> last_setup files = Ok (0%Z, n).
Proof.
  intros O [H|(N & ->)]; unfold last_setup.
  - destruct H as (I & S & M).
    assert (J : In n (setups files)) by now apply setups_iff.
    assert (F : forallb listable (setups files) = true).
    { apply forallb_forall. intros m J'. apply setups_iff in J'. apply listable_iff; [|now apply O].
      now apply setup_file_nonempty. }
    assert (T : llast (sorted_set (setups files)) = Ok n).
    { destruct (proj1 (sorted_set_iff (setups files) _) eq_refl) as (SS & E).
      destruct (sorted_set (setups files)) as [|q r] using rev_ind.
      - apply E in J. destruct J.
      - rewrite llast_app. f_equal. assert (Q : In q (setups files)) by (apply E, in_or_app; cbn; auto).
        apply setups_iff in Q. destruct (M q (proj1 Q) (proj2 Q)) as [->|B]; auto.
        exfalso. apply E in J. apply in_app_or in J. destruct J as [J|[->|[]]]; [|now apply before_irrefl in B].
        apply (sorted_last_greatest _ _ SS) in J. exact (before_irrefl n (before_trans _ _ _ J B)). }
    destruct (setups files); [destruct J|]. now rewrite F, T.
  - destruct (setups files) as [|m t] eqn:E; [reflexivity|].
    exfalso. apply (N m); apply (setups_iff files m); rewrite E; cbn; auto.
Qed.

Section Scripts.
  Context {C G X : Type}.
  Implicit Type o : outside C G X.

  Lemma performed_det o h p h1 r1 h2 r2 : performed o h p h1 r1 -> performed o h p h2 r2 -> h1 = h2 /\ r1 = r2.
  Proof.
    intro P. revert h2 r2. induction P; intros h2 r2 Q; inversion Q; subst; auto; try congruence.
    - split; congruence.
  Qed.

  Lemma performed_cons o h a p h' r : performed o h (a :: p) h' r ->
    match answer o h a with
    | Ok _ => performed o (h ++ [a]) p h' r
    | Err e => h' = h ++ [a] /\ r = Err e
    end.
  Proof. intro P. inversion P; subst; match goal with H : answer _ _ _ = _ |- _ => rewrite H end; auto. Qed.
  Lemma performed_nil o h h' r : performed o h [] h' r -> h' = h /\ r = Ok tt.
  Proof. intro P. now inversion P. Qed.

  Lemma mkm_body_performed o c n g h0 h r :
    (forall x g', o_ode o (h0 ++ [Build n; ParseData None; GetData]) (OdeInterval c) (OdeEnd c) (OdeOutput c)
       = Ok (x, g') -> g' = g) ->
    performed o h0 (mkm_plan c n g) h r -> mkm_body o c n h0 = (r, h).
  Proof.
    intros U P. unfold mkm_plan in P. unfold mkm_body.
    apply performed_cons in P. cbn [answer] in P. destruct (o_build o h0 n) as [[]|e]; [|now destruct P as (-> & ->)].
    apply performed_cons in P. cbn [answer] in P.
    destruct (o_parse o (h0 ++ [Build n]) None) as [[]|e]; [|now destruct P as (-> & ->)].
    apply performed_cons in P. cbn [answer] in P.
    destruct (o_get_data o ((h0 ++ [Build n]) ++ [ParseData None])) as [[]|e]; [|now destruct P as (-> & ->)].
    apply performed_cons in P. cbn [answer] in P. rewrite <- !app_assoc in *. cbn [app] in *.
    destruct (o_ode o (h0 ++ [Build n; ParseData None; GetData]) (OdeInterval c) (OdeEnd c) (OdeOutput c)) as [(x & g')|e] eqn:E;
      cbn [bind] in P; [|destruct P as (-> & ->); rewrite <- ?app_assoc; reflexivity].
    rewrite (U x g' eq_refl) in *. clear U. rewrite <- !app_assoc in *. cbn [app] in *.
    apply performed_cons in P. cbn [answer] in P. fold (@mkm_keywords C G X c g).
    destruct (o_run_mkm o _ (mkm_keywords c g)) as [[]|e].
    - apply performed_nil in P. destruct P as (-> & ->). now rewrite <- ?app_assoc.
    - destruct P as (-> & ->). now rewrite <- ?app_assoc.
  Qed.

  Lemma time_used_ok o t : (0 <= t)%Q -> reports o t (time_used o t).
  Proof.
    intro H. pose proof (convert_time_ok t H) as K. unfold reports, time_used.
    destruct (convert_time t) as ((h & m) & s). exists h, m, s. tauto.
  Qed.

  Lemma mkm_script_ok o c master files n g h r :
    (forall m, remaining files m -> setup_file m -> ordinary m) ->
    taken (remaining files) n ->
    (forall x g', o_ode o [Clock; Build n; ParseData None; GetData] (OdeInterval c) (OdeEnd c) (OdeOutput c)
       = Ok (x, g') -> g' = g) ->
    performed o [Clock] (mkm_plan c n g) h r ->
    exists said files',
      mkm_script o c master files = Ok (ending r, h ++ said, files') /\
      (forall m, In m files' <-> remaining files m) /\
      match r with
      | Ok _ => exists text,
          said = Clock :: (if master then [Say (L "INFO") text] else []) /\
          ((o_time o [] <= o_time o h)%Q -> reports o (o_time o h - o_time o []) text)
      | Err e => said = if master then [Say (L "ERROR") (o_name_of o e ++ L " exception is catched.")] else []
      end.
  Proof.
    intros O T U P. unfold mkm_script.
    assert (E : last_setup (rm_rf files) = Ok (0%Z, n)).
    { apply last_setup_taken.
      - intros m I. apply O. now apply rm_rf_iff.
      - destruct T as [(A & B & D)|(A & B)]; [left|right].
        + split; [now apply rm_rf_iff|split; auto]. intros m I. apply D. now apply rm_rf_iff.
        + split; auto. intros m I. apply A. now apply rm_rf_iff. }
    rewrite E. cbn [bind]. change (negb (0 =? 0)%Z) with false. cbn iota.
    rewrite (mkm_body_performed o c n g [Clock] h r U P).
    destruct r as [[]|e].
    - eexists (Clock :: (if master then [Say (L "INFO") _] else [])), (rm_rf files). split; [|split].
      + cbn [ending]. f_equal. f_equal. f_equal. destruct master; [now rewrite <- app_assoc|reflexivity].
      + apply rm_rf_iff.
      + eexists. split; [reflexivity|]. intro H. apply time_used_ok.
        unfold Qminus. rewrite <- Qle_minus_iff. exact H.
    - eexists (if master then [Say (L "ERROR") _] else []), (rm_rf files). split; [|split; [apply rm_rf_iff|reflexivity]].
      cbn [ending]. f_equal. f_equal. f_equal. destruct master; [reflexivity|now rewrite app_nil_r].
  Qed.

  Lemma mkm_exit o c master files out h files' s :
    mkm_script o c master files = Ok (out, h, files') -> out <> Exited s.
  Proof.
    unfold mkm_script, last_setup. intros H ->.
    destruct (setups (rm_rf files)) as [|x l] eqn:E.
    - cbn in H. destruct (mkm_body _ _ _ _) as ([[]|e] & k); discriminate.
    - rewrite <- E in H. clear E. destruct (forallb listable (setups (rm_rf files))); [|discriminate].
      destruct (llast _) as [n|e]; [|discriminate]. cbn in H.
      destruct (mkm_body _ _ _ _) as ([[]|e] & k); discriminate.
  Qed.

  Lemma kmc_script_ok o (master : bool) files n h r :
    (forall m, In m files -> setup_file m -> ordinary m) ->
    taken (fun m => In m files) n ->
    performed o [] [Build n; ParseData (Some (L "rel_energy.py"))] h r ->
    match r with
    | Err e => kmc_script o Python2 master files = Ok (Raised e, h, files)
    | Ok _ =>
        let h1 := if master then h ++ [Clock] else h in
        exists said,
          kmc_script o Python2 master files = Ok (ending (o_run_kmc o h1), h1 ++ RunKmc :: said, files) /\
          match o_run_kmc o h1 with
          | Err e => said = if master then [Say (L "ERROR") (o_name_of o e ++ L " exception is catched.")] else []
          | Ok _ =>
              if master then
                exists text, said = [Clock; Say (L "INFO") text] /\
                  ((o_time o h <= o_time o (h1 ++ [RunKmc]))%Q ->
                   reports o (o_time o (h1 ++ [RunKmc]) - o_time o h) text)
              else said = []
          end
    end.
  Proof.
    intros O T P. assert (E : last_setup files = Ok (0%Z, n)) by now apply last_setup_taken.
    unfold kmc_script, rm_rm. rewrite E. cbn [bind]. change (negb (0 =? 0)%Z) with false. cbn iota.
    apply performed_cons in P. cbn [answer] in P. destruct (o_build o [] n) as [[]|e]; [|now destruct P as (-> & ->)].
    apply performed_cons in P. cbn [answer] in P. cbn [app] in P.
    destruct (o_parse o [Build n] (Some (L "rel_energy.py"))) as [[]|e]; [|now destruct P as (-> & ->)].
    apply performed_nil in P. destruct P as (-> & ->). cbn [app].
    cbv zeta. destruct master.
    - destruct (o_run_kmc o _) as [[]|e].
      + eexists [Clock; Say (L "INFO") (time_used o _)]. split.
        * cbn [ending]. now rewrite <- ?app_assoc.
        * eexists. split; [reflexivity|]. intro H. apply time_used_ok. unfold Qminus. rewrite <- Qle_minus_iff. exact H.
      + exists [Say (L "ERROR") (catched o e)]. split; [|reflexivity]. cbn [ending]. now rewrite <- ?app_assoc.
    - destruct (o_run_kmc o _) as [[]|e]; exists []; (split; [reflexivity|reflexivity]).
  Qed.

  (** ** Keywords *)
  Lemma dget_entry {V} (d : dict V) k v : NoDup (map fst d) -> In (k, v) d -> dget d k = Some v.
  Proof.
    induction d as [|(k' & w) t IH]; [easy|]. cbn. intros N [E|I].
    - injection E as -> ->. now rewrite str_eqb_refl.
    - inversion N; subst. destruct (str_eqb k k') eqn:E; [|auto].
      apply str_eqb_eq in E. subst k'. exfalso. apply (in_map fst) in I. contradiction.
  Qed.
  Lemma dget_None_In {V} (d : dict V) k : dget d k = None <-> ~ In k (map fst d).
  Proof.
    induction d as [|(k' & w) t IH]; cbn; [tauto|]. destruct (str_eqb k k') eqn:E.
    - apply str_eqb_eq in E. subst. split; [discriminate|tauto].
    - rewrite IH. assert (k' <> k) by (intros ->; now rewrite str_eqb_refl in E). tauto.
  Qed.

  Lemma dget_filter_other (kw : dict (kwval C G X)) key k : k <> key ->
    dget (filter (fun p => negb (str_eqb (fst p) key)) kw) k = dget kw k.
  Proof.
    intro N. induction kw as [|(k' & v) t IH]; auto. cbn. destruct (str_eqb k' key) eqn:E; cbn.
    - apply str_eqb_eq in E. subst k'. rewrite IH. destruct (str_eqb k key) eqn:E; auto. now apply str_eqb_eq in E.
    - now rewrite IH.
  Qed.

  Lemma keyword_iff {A} (kw : dict (kwval C G X)) key (f : A -> kwval C G X) d x :
    NoDup (map fst kw) ->
    (keyword kw key f d x <-> match dget kw key with Some v => v = f x | None => x = d end).
  Proof.
    intro N. unfold keyword. destruct (dget kw key) as [v|] eqn:E.
    - split.
      + intros [I|(I & _)].
        * apply (dget_entry kw key (f x) N) in I. congruence.
        * exfalso. apply I. apply dget_In in E. now apply (in_map fst) in E.
      + intros ->. left. now apply dget_In.
    - assert (H : ~ In key (map fst kw)) by (now apply dget_None_In in E).
      split; [|auto]. intros [I|(_ & ->)]; auto. now apply (in_map fst) in I.
  Qed.

  Definition rest_of (kw : dict (kwval C G X)) (key : str) : dict (kwval C G X) :=
    filter (fun p => negb (str_eqb (fst p) key)) kw.
  Lemma rest_names kw key : map fst (rest_of kw key) = filter (fun n => negb (str_eqb n key)) (map fst kw).
  Proof. unfold rest_of. induction kw as [|(k & v) t IH]; auto. cbn. destruct (str_eqb k key); cbn; congruence. Qed.

  Lemma keywords_iff (kw : dict (kwval C G X)) a rest : NoDup (map fst kw) ->
    (keywords kw = Ok (a, rest) <->
     keyword kw (L "init_cvgs") KGuess NoGuess (a_init a) /\
     keyword kw (L "relative_energies") KEnergies None (a_energies a) /\
     keyword kw (L "fsolve") KBool false (a_fsolve a) /\
     keyword kw (L "coarse_guess") KBool true (a_coarse a) /\
     keyword kw (L "XRC") KBool false (a_xrc a) /\
     ((exists x, In (L "epsilon", KNumber x) kw /\ a_epsilon a = Some x) \/
      (~ In (L "epsilon") (map fst kw) /\ a_epsilon a = None)) /\
     ((exists s, In (L "product_name", KText s) kw /\ a_product a = Some s) \/
      (~ In (L "product_name") (map fst kw) /\ a_product a = None)) /\
     rest = filter (fun n => negb (str_mem n known_keywords)) (map fst kw)).
  Proof.
    intro N. rewrite !keyword_iff by auto. unfold keywords, pop.
    fold (rest_of kw (L "init_cvgs")).
    fold (rest_of (rest_of kw (L "init_cvgs")) (L "relative_energies")).
    fold (rest_of (rest_of (rest_of kw (L "init_cvgs")) (L "relative_energies")) (L "fsolve")).
    fold (rest_of (rest_of (rest_of (rest_of kw (L "init_cvgs")) (L "relative_energies")) (L "fsolve")) (L "coarse_guess")).
    fold (rest_of (rest_of (rest_of (rest_of (rest_of kw (L "init_cvgs")) (L "relative_energies")) (L "fsolve")) (L "coarse_guess")) (L "XRC")).
    fold (rest_of (rest_of (rest_of (rest_of (rest_of (rest_of kw (L "init_cvgs")) (L "relative_energies")) (L "fsolve")) (L "coarse_guess")) (L "XRC")) (L "epsilon")).
    fold (rest_of (rest_of (rest_of (rest_of (rest_of (rest_of (rest_of kw (L "init_cvgs")) (L "relative_energies")) (L "fsolve")) (L "coarse_guess")) (L "XRC")) (L "epsilon")) (L "product_name")).
    assert (R : forall k key, k <> key -> forall d, dget (rest_of d key) k = dget d k)
      by (intros; now apply dget_filter_other).
    rewrite !R by discriminate. rewrite !rest_names. clear R.
    assert (F : filter (fun n => negb (str_eqb n (L "product_name")))
                 (filter (fun n => negb (str_eqb n (L "epsilon")))
                   (filter (fun n => negb (str_eqb n (L "XRC")))
                     (filter (fun n => negb (str_eqb n (L "coarse_guess")))
                       (filter (fun n => negb (str_eqb n (L "fsolve")))
                         (filter (fun n => negb (str_eqb n (L "relative_energies")))
                           (filter (fun n => negb (str_eqb n (L "init_cvgs"))) (map fst kw)))))))
               = filter (fun n => negb (str_mem n known_keywords)) (map fst kw)).
    { generalize (map fst kw). intro l. induction l as [|n l IH]; [reflexivity|]. cbn [filter].
      unfold str_mem at 1. unfold known_keywords at 1. cbn [map existsb].
      destruct (str_eqb n (L "init_cvgs")); cbn [negb orb filter]; [exact IH|].
      destruct (str_eqb n (L "relative_energies")); cbn [negb orb filter]; [exact IH|].
      destruct (str_eqb n (L "fsolve")); cbn [negb orb filter]; [exact IH|].
      destruct (str_eqb n (L "coarse_guess")); cbn [negb orb filter]; [exact IH|].
      destruct (str_eqb n (L "XRC")); cbn [negb orb filter]; [exact IH|].
      destruct (str_eqb n (L "epsilon")); cbn [negb orb filter]; [exact IH|].
      destruct (str_eqb n (L "product_name")); cbn [negb orb filter]; [exact IH|]. now rewrite IH. }
    rewrite F. clear F.
    assert (E1 : ((exists x, In (L "epsilon", KNumber x) kw /\ a_epsilon a = Some x) \/
      (~ In (L "epsilon") (map fst kw) /\ a_epsilon a = None)) <->
      match dget kw (L "epsilon") with Some v => exists x, v = KNumber x /\ a_epsilon a = Some x | None => a_epsilon a = None end).
    { destruct (dget kw (L "epsilon")) as [v|] eqn:E.
      - split.
        + intros [(x & I & E')|(I & _)].
          * apply (dget_entry kw _ _ N) in I. exists x. split; congruence.
          * exfalso. apply I. apply dget_In in E. now apply (in_map fst) in E.
        + intros (x & -> & E'). left. exists x. split; auto. now apply dget_In.
      - apply dget_None_In in E. split; [|auto]. intros [(x & I & _)|(_ & H)]; auto. now apply (in_map fst) in I. }
    assert (E2 : ((exists s, In (L "product_name", KText s) kw /\ a_product a = Some s) \/
      (~ In (L "product_name") (map fst kw) /\ a_product a = None)) <->
      match dget kw (L "product_name") with Some v => exists x, v = KText x /\ a_product a = Some x | None => a_product a = None end).
    { destruct (dget kw (L "product_name")) as [v|] eqn:E.
      - split.
        + intros [(x & I & E')|(I & _)].
          * apply (dget_entry kw _ _ N) in I. exists x. split; congruence.
          * exfalso. apply I. apply dget_In in E. now apply (in_map fst) in E.
        + intros (x & -> & E'). left. exists x. split; auto. now apply dget_In.
      - apply dget_None_In in E. split; [|auto]. intros [(x & I & _)|(_ & H)]; auto. now apply (in_map fst) in I. }
    rewrite E1, E2. clear E1 E2. destruct a as [i e f c x d p].
    cbn [a_init a_energies a_fsolve a_coarse a_xrc a_epsilon a_product].
    generalize (filter (fun n => negb (str_mem n known_keywords)) (map fst kw)). intro rs.
    destruct (dget kw (L "init_cvgs")) as [[]|]; cbn [bind];
      try (split; [discriminate|intros (H & _); discriminate]);
    destruct (dget kw (L "relative_energies")) as [[]|]; cbn [bind];
      try (split; [discriminate|intros (_ & H & _); discriminate]);
    destruct (dget kw (L "fsolve")) as [[]|]; cbn [bind];
      try (split; [discriminate|intros (_ & _ & H & _); discriminate]);
    destruct (dget kw (L "coarse_guess")) as [[]|]; cbn [bind];
      try (split; [discriminate|intros (_ & _ & _ & H & _); discriminate]);
    destruct (dget kw (L "XRC")) as [[]|]; cbn [bind];
      try (split; [discriminate|intros (_ & _ & _ & _ & H & _); discriminate]);
    destruct (dget kw (L "epsilon")) as [[]|]; cbn [bind];
      try (split; [discriminate|intros (_ & _ & _ & _ & _ & (? & H & _) & _); discriminate]);
    destruct (dget kw (L "product_name")) as [[]|]; cbn [bind];
      try (split; [discriminate|intros (_ & _ & _ & _ & _ & _ & (? & H & _) & _); discriminate]);
    (split;
      [intro H; injection H as <- <- <- <- <- <- <- <-; repeat split; eauto
      |intros (A1 & A2 & A3 & A4 & A5 & A6 & A7 & ->);
       repeat match goal with H : exists _, _ /\ _ |- _ => destruct H as (? & ? & ?) end;
       repeat match goal with H : ?A = ?B |- _ => first [injection H as <-|injection H as ->|subst] end; congruence]).
  Qed.

  Lemma mkm_keywords_read c g :
    keywords (@mkm_keywords C G X c g) =
      Ok ({| a_init := Seq g; a_energies := None; a_fsolve := false; a_coarse := false; a_xrc := CalcXRC c;
             a_epsilon := None; a_product := Some (ProductionName c) |}, [L "solve_ode"]).
  Proof. reflexivity. Qed.
End Scripts.

Lemma mkm_search {W C G D X} (v : solver W C G D X) c g w a rest :
  v_len v g = v_nads v -> v_nads v <> 0%nat -> keywords (@mkm_keywords C G X c g) = Ok (a, rest) ->
  solve v a w = v_search v (Some g) None w.
Proof.
  intros H N E. rewrite mkm_keywords_read in E. injection E as <- <-.
  unfold solve, first_guess. cbn. rewrite H. destruct (Nat.eqb_spec (v_nads v) 0); [easy|]. cbn.
  now rewrite Nat.eqb_refl.
Qed.
