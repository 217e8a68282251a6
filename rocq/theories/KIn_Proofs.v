From Coq Require Import String Ascii List ZArith Bool Arith Lia.
Import ListNotations.
From Verif Require Import PyBase PyBaseFacts Kmc_Model KIn_Model KIn_Spec.
Local Open Scope list_scope.
Local Open Scope nat_scope.

Lemma fold_mul l : forall a, fold_left Z.mul l a = (a * product l)%Z.
Proof. induction l as [|x t IH]; intro a; cbn; [lia|]. rewrite IH. lia. Qed.

Lemma number_ok o : k_repetitions o <> [] -> number_of_sites o = Ok (sites o).
Proof.
  unfold number_of_sites, sites. destruct (k_repetitions o) as [|x t]; [congruence|].
  intros _. cbn. now rewrite fold_mul.
Qed.
Lemma number_no o : k_repetitions o = [] -> number_of_sites o = Err TypeError.
Proof. unfold number_of_sites. now intros ->. Qed.

Lemma default_ok o : default_site_types o (sites o) = default_site o.
Proof. unfold default_site_types, default_site, filled, times. destruct (k_site_types o); reflexivity. Qed.

Lemma empty_ok o : empty_types o = default_types o.
Proof.
  unfold empty_types, default_types.
  destruct (k_repetitions o) eqn:Er; [now rewrite number_no|].
  rewrite number_ok by congruence. reflexivity.
Qed.

Lemma len_unsized v : unsized v -> py_len v = Err TypeError.
Proof. destruct v; cbn; easy. Qed.
Lemma len_sized v : ~ unsized v -> py_len v = Ok (size v).
Proof. destruct v; cbn; tauto. Qed.
Lemma unsized_dec v : unsized v \/ ~ unsized v.
Proof. destruct v; cbn; auto. Qed.

Lemma in_names_iff v names : in_names v names = true <-> exists s, v = PStr s /\ In s names.
Proof.
  destruct v; cbn; try (split; [discriminate|intros (?&?&?); discriminate]).
  rewrite str_mem_In. split; [eauto|]. intros (?&[= <-]&?); auto.
Qed.

Lemma all_names l names :
  forallb (fun t => in_names t names) l = true <->
  exists ss, l = map PStr ss /\ forall t, In t ss -> In t names.
Proof.
  induction l as [|v t IH]; cbn.
  - split; [exists []; cbn; easy|auto].
  - rewrite andb_true_iff, in_names_iff, IH. split.
    + intros ((s&->&Hs)&ss&->&Hss). exists (s :: ss). split; [reflexivity|].
      intros t [<-|H]; auto.
    + intros (ss&E&H). destruct ss as [|s ss]; [discriminate|]. injection E as -> ->.
      split; [exists s|exists ss]; split; auto; [apply H; now left|]. intros; apply H; now right.
Qed.

Lemma check_types_iff o v : ~ unsized v ->
  (check_site_types o v = Ok tt <->
   exists l, name_sequence v l /\ forall t, In t l -> In t (k_site_types o)).
Proof.
  intro Hu. unfold check_site_types.
  destruct (forallb _ (py_iter v)) eqn:E.
  - split; [intros _|reflexivity]. apply all_names in E. destruct E as (ss&E&H).
    destruct v; cbn in E, Hu; try tauto.
    + exists ss. split; auto. replace ss with (map (fun c : ascii => [c]) s); [constructor|].
      revert ss E H. induction s as [|c s IH]; intros [|x ss] E H; cbn in *; try discriminate; auto.
      injection E as <- E. f_equal. apply IH; auto.
    + subst. exists ss; split; auto; constructor.
    + subst. exists ss; split; auto; constructor.
  - split; [discriminate|]. intros (l&Hl&H). exfalso.
    assert (py_iter v = map PStr l) as Ei.
    { inversion Hl; subst; cbn; auto. now rewrite map_map. }
    rewrite Ei in E. enough (forallb (fun t => in_names t (k_site_types o)) (map PStr l) = true) by congruence.
    apply all_names. eauto.
Qed.

Lemma sequence_sized v l : name_sequence v l -> ~ unsized v.
Proof. destruct 1; cbn; tauto. Qed.

Section P.
  Context {E PD La Cf Sm : Type}.
  Notation world := (world E PD La Cf Sm).
  Notation model := (model E PD Cf Sm).

  Lemma chosen_iff (f : option (res (locs PD))) field dflt (r : res pv) :
    (match f with
     | None => dflt
     | Some x => do l <- x; match field l with None => dflt | Some v => Ok v end
     end = r) <-> chosen f field dflt r.
  Proof.
    split.
    - intros <-. destruct f as [[l|e]|]; cbn.
      + destruct (field l) eqn:El; [eapply ch_file; eauto|]. apply ch_default. right; eauto.
      + now constructor.
      + apply ch_default; auto.
    - destruct 1 as [l v -> El|e ->|[->|(l&->&El)]]; cbn; try rewrite El; auto.
  Qed.

  Lemma sites_iff (w : world) o g r : construct_sitesmap w o g = r <-> sites_end w o g r.
  Proof.
    set (src := fun r0 => chosen (read w g "kmc_sites.py") f_site_types (default_site o) r0).
    assert (forall r0, (match w_exec w (file_name g "kmc_sites.py") with
                | None => default_site_types o (sites o)
                | Some r => do l <- r;
                            match f_site_types l with
                            | None => default_site_types o (sites o)
                            | Some v => Ok v
                            end
                end = r0) <-> src r0) as Hsrc.
    { intro r0. rewrite default_ok. unfold src, read, file_name. rewrite <- chosen_iff. reflexivity. }
    split.
    - intros <-. unfold construct_sitesmap.
      destruct (k_repetitions o) as [|x t] eqn:Er.
      { rewrite number_no by auto. now apply se_norep. }
      assert (k_repetitions o <> []) as Hr by congruence.
      rewrite number_ok by auto. cbn [bind].
      pose proof (proj1 (Hsrc _) eq_refl) as Ex; clear Hsrc.
      match goal with |- sites_end _ _ _ (bind ?X _) => destruct X as [v|e] end;
        cbn [bind]; [|now apply se_source].
      destruct (unsized_dec v) as [Hu|Hu].
      { rewrite len_unsized by auto. eapply se_unsized; eauto. }
      rewrite len_sized by auto. cbn [bind].
      destruct (Z.eqb_spec (Z.of_nat (size v)) (sites o)) as [Hn|Hn]; cbn [negb];
        [|eapply se_length; eauto].
      destruct (check_site_types o v) as [[]|e] eqn:Ec; cbn [bind].
      + apply check_types_iff in Ec; auto. destruct Ec as (l&Hl&Hin). eapply se_library; eauto.
      + assert (e = SetupError) as ->.
        { unfold check_site_types in Ec. destruct (forallb _ _); congruence. }
        eapply se_unknown; eauto. rewrite <- check_types_iff by auto. congruence.
    - unfold construct_sitesmap. intro H.
      destruct H as [Hr|e Hr H|v Hr H Hu|v Hr H Hu Hn|v Hr H Hu Hn Hx|v l r Hr H Hn Hl Hin ->];
        [now rewrite number_no| | | | |]; rewrite number_ok by auto; cbn [bind];
        apply Hsrc in H; rewrite H; cbn [bind]; auto.
      + now rewrite len_unsized.
      + rewrite len_sized by auto. cbn [bind]. apply Z.eqb_neq in Hn. now rewrite Hn.
      + rewrite len_sized by auto. cbn [bind]. apply Z.eqb_eq in Hn. rewrite Hn. cbn [negb].
        rewrite <- check_types_iff in Hx by auto. unfold check_site_types in *.
        destruct (forallb _ _); [congruence|reflexivity].
      + pose proof (sequence_sized _ _ Hl) as Hu.
        rewrite len_sized by auto. cbn [bind]. apply Z.eqb_eq in Hn. rewrite Hn. cbn [negb].
        assert (check_site_types o v = Ok tt) as -> by (apply check_types_iff; eauto). reflexivity.
  Qed.

  Lemma check_empty o :
    check_string (PStr (k_empty o)) (k_element_types o)
    = if str_mem (k_empty o) (k_element_types o) then Ok (k_empty o) else Err SetupError.
  Proof. reflexivity. Qed.

  Lemma configuration_iff (w : world) o g r :
    parse_configuration w o g = r <-> configuration_end w o g r.
  Proof.
    assert (forall r0, (match w_exec w (file_name g "kmc_configuration.py") with
                | Some r => do l <- r;
                            match f_types l with
                            | Some v => Ok v
                            | None => empty_types o
                            end
                | None => empty_types o
                end = r0) <-> chosen (read w g "kmc_configuration.py") f_types (default_types o) r0) as Hsrc.
    { intro r0. rewrite empty_ok. unfold read, file_name. rewrite <- chosen_iff.
      destruct (w_exec _ _) as [[l|e]|]; cbn; try reflexivity. }
    unfold parse_configuration. rewrite check_empty.
    split.
    - intros <-. destruct (str_mem _ _) eqn:Em; cbn [bind].
      2: { apply ce_empty. rewrite <- str_mem_In. congruence. }
      apply str_mem_In in Em.
      pose proof (proj1 (Hsrc _) eq_refl) as Ex; clear Hsrc.
      match goal with |- configuration_end _ _ _ (bind ?X _) => destruct X as [v|e] end;
        cbn [bind]; [|now apply ce_source].
      eapply ce_library; eauto.
    - intro H. destruct H as [Hn|e Hin H|v r Hin H ->].
      + destruct (str_mem _ _) eqn:Em; [apply str_mem_In in Em; tauto|reflexivity].
      + apply str_mem_In in Hin. rewrite Hin. cbn [bind]. apply Hsrc in H. now rewrite H.
      + apply str_mem_In in Hin. rewrite Hin. cbn [bind]. apply Hsrc in H. now rewrite H.
  Qed.

  Lemma processes_iff (w : world) o g r : parse_processes w o g = r <-> processes_end w o g r.
  Proof.
    unfold parse_processes. change (w_exec w (file_name g "kmc_processes.py")) with (read w g "kmc_processes.py").
    split.
    - intros <-. destruct (read w g _) as [[l|e]|] eqn:Ef; cbn [bind].
      + destruct (f_processes l) as [p|] eqn:Ep; [|eapply pe_missing; eauto].
        destruct (k_log o) eqn:El.
        * destruct (w_len w p) as [n|e] eqn:En; cbn [bind].
          -- eapply pe_ok; eauto.
          -- eapply pe_uncounted; eauto.
        * eapply pe_ok; eauto. congruence.
      + now apply pe_broken.
      + now apply pe_none.
    - intro H. destruct H as [->|e ->|l -> Ep|l p e -> Ep El En|l p -> Ep Hn]; cbn [bind];
        try rewrite Ep; try rewrite El; try rewrite En; auto.
      destruct (k_log o); auto. destruct Hn as (n&->); auto.
  Qed.

  Lemma inputs_iff (w : world) o pf cf sf r :
    (do p <- parse_processes w o pf;
     do c <- parse_configuration w o cf;
     do s <- construct_sitesmap w o sf;
     Ok (p, c, s)) = r <-> inputs_end w o pf cf sf r.
  Proof.
    split.
    - intros <-.
      destruct (parse_processes w o pf) as [p|e] eqn:Ep; apply processes_iff in Ep; cbn [bind];
        [|now constructor].
      destruct (parse_configuration w o cf) as [c|e] eqn:Ec; apply configuration_iff in Ec; cbn [bind];
        [|eapply ie_configuration; eauto].
      destruct (construct_sitesmap w o sf) as [s|e] eqn:Es; apply sites_iff in Es; cbn [bind];
        [|eapply ie_sites; eauto]. now constructor.
    - destruct 1 as [e H|p e H H1|p c e H H1 H2|p c s H H1 H2];
        apply processes_iff in H; rewrite H; cbn [bind]; auto;
        apply configuration_iff in H1; rewrite H1; cbn [bind]; auto;
        apply sites_iff in H2; rewrite H2; auto.
  Qed.

  Lemma mangle_inj c c' n n' :
    mangled_name c n = mangled_name c' n' -> (n = n' -> c = c').
  Proof.
    intros H ->. unfold mangled_name in H. injection H as H.
    now apply app_inv_tail in H.
  Qed.

  Lemma last_diff (c c' n n' : str) a b : a <> b ->
    mangled_name c (n ++ [a]) <> mangled_name c' (n' ++ [b]).
  Proof.
    intros Hab H. apply Hab. unfold mangled_name in H. rewrite !app_assoc in H.
    now apply app_inj_tail in H.
  Qed.

  Lemma m_pc c c' : mangled_name c (L "process_dicts") <> mangled_name c' (L "configuration").
  Proof. apply (last_diff c c' (L "process_dict") (L "configuratio") "s" "n"). discriminate. Qed.
  Lemma m_ps c c' : mangled_name c (L "process_dicts") <> mangled_name c' (L "sitesmap").
  Proof. apply (last_diff c c' (L "process_dict") (L "sitesma") "s" "p"). discriminate. Qed.
  Lemma m_cs c c' : mangled_name c (L "configuration") <> mangled_name c' (L "sitesmap").
  Proof. apply (last_diff c c' (L "configuratio") (L "sitesma") "n" "p"). discriminate. Qed.

  Lemma str_eqb_neq (a b : str) : a <> b -> str_eqb a b = false.
  Proof. intro H. destruct (str_eqb a b) eqn:Eq; auto. apply str_eqb_eq in Eq. contradiction. Qed.

  Lemma energies_fail (w : world) o pf cf sf m en e :
    w_energies w (m_energies m) = (en, Err e) ->
    let '(m', r) := parse_data w o pf cf sf m in
    r = Err e /\ m_energies m' = en /\ m_attrs m' = m_attrs m.
  Proof. intro H. unfold parse_data. rewrite H. cbn. auto. Qed.

  Lemma inputs_fail (w : world) o pf cf sf m en e :
    w_energies w (m_energies m) = (en, Ok tt) -> inputs_end w o pf cf sf (Err e) ->
    let '(m', r) := parse_data w o pf cf sf m in
    r = Err e /\ m_energies m' = en /\ m_attrs m' = m_attrs m.
  Proof.
    intros H Hi. unfold parse_data. rewrite H. apply inputs_iff in Hi. rewrite Hi. cbn. auto.
  Qed.

  Lemma stored (w : world) o pf cf sf m en p c s :
    w_energies w (m_energies m) = (en, Ok tt) -> inputs_end w o pf cf sf (Ok (p, c, s)) ->
    k_class o = L "KMCModel" ->
    let '(m', r) := parse_data w o pf cf sf m in
    r = Ok tt /\ m_energies m' = en /\
    shows m' (Ok (AProcesses p)) (Ok (AConfiguration c)) (Ok (ASitesmap s)).
  Proof.
    intros H Hi Hc. unfold parse_data. rewrite H. apply inputs_iff in Hi. rewrite Hi.
    split; [reflexivity|]. split; [reflexivity|].
    unfold shows, process_dicts, configuration, sitesmap, get_attr. cbn [m_attrs]. rewrite Hc.
    rewrite !dget_dset.
    rewrite !str_eqb_refl. cbn. auto.
  Qed.

  Lemma not_seen (w : world) o pf cf sf m :
    k_class o <> L "KMCModel" ->
    let '(m', r) := parse_data w o pf cf sf m in
    shows m' (process_dicts m) (configuration m) (sitesmap m).
  Proof.
    intros Hc. unfold parse_data. destruct (w_energies w (m_energies m)) as [en [u|e]];
      [|repeat split; reflexivity].
    destruct (do p <- _; _) as [[[p c] s]|e]; [|repeat split; reflexivity].
    assert (forall n, mangled_name (k_class o) n <> mangled_name (L "KMCModel") n) as Hn.
    { intros n Hm. exact (Hc (mangle_inj _ _ _ _ Hm eq_refl)). }
    unfold shows, process_dicts, configuration, sitesmap, get_attr. cbn [m_attrs].
    rewrite !dget_dset.
    rewrite ?(str_eqb_neq _ _ (Hn (L "process_dicts"))), ?(str_eqb_neq _ _ (Hn (L "configuration"))), ?(str_eqb_neq _ _ (Hn (L "sitesmap"))),
      ?(str_eqb_neq _ _ (not_eq_sym (Hn (L "process_dicts")))), ?(str_eqb_neq _ _ (not_eq_sym (Hn (L "configuration")))), ?(str_eqb_neq _ _ (not_eq_sym (Hn (L "sitesmap")))),
      ?(str_eqb_neq _ _ (m_pc _ _)), ?(str_eqb_neq _ _ (m_ps _ _)), ?(str_eqb_neq _ _ (m_cs _ _)),
      ?(str_eqb_neq _ _ (not_eq_sym (m_pc _ _))), ?(str_eqb_neq _ _ (not_eq_sym (m_ps _ _))),
      ?(str_eqb_neq _ _ (not_eq_sym (m_cs _ _))). auto.
  Qed.

  Lemma product_pos l : Forall (fun x => (0 < x)%Z) l -> (0 < product l)%Z.
  Proof. induction 1; cbn; nia. Qed.

  Lemma default_accepted (w : world) o g t rest :
    k_repetitions o <> [] -> Forall (fun x => (0 < x)%Z) (k_repetitions o) ->
    k_site_types o = t :: rest -> read w g "kmc_sites.py" = None ->
    construct_sitesmap w o g =
    (do la <- w_lattice w; w_sitesmap w la (PList (map PStr (repeat t (Z.to_nat (sites o))))) (t :: rest)).
  Proof.
    intros Hr Hp Ht Hf. apply sites_iff.
    assert (0 <= sites o)%Z as Hs by (unfold sites; pose proof (product_pos _ Hp); nia).
    eapply se_library with (l := repeat t (Z.to_nat (sites o))); auto.
    - replace (Ok (PList (map PStr (repeat t (Z.to_nat (sites o)))))) with (default_site o).
      + apply ch_default; auto.
      + unfold default_site, filled. rewrite Ht. do 2 f_equal.
        induction (Z.to_nat (sites o)); cbn; congruence.
    - cbn. rewrite map_length, repeat_length. lia.
    - constructor.
    - intros x Hx. apply repeat_spec in Hx. subst. rewrite Ht. now left.
    - now rewrite Ht.
  Qed.
End P.

Lemma check_string_iff v range r : check_string v range = r <->
  (exists s, v = PStr s /\ In s range /\ r = Ok s) \/
  ((forall s, v = PStr s -> ~ In s range) /\ r = Err SetupError).
Proof.
  unfold check_string. split.
  - intros <-. destruct v; try (right; split; [intros ? ?; discriminate|reflexivity]).
    destruct (str_mem s range) eqn:E.
    + left. exists s. apply str_mem_In in E. auto.
    + right. apply str_mem_not_In in E. split; [intros t H; injection H as <-; exact E|reflexivity].
  - intros [(s & -> & H & ->)|[H ->]].
    + apply str_mem_In in H. now rewrite H.
    + destruct v; try reflexivity. specialize (H s eq_refl). apply str_mem_not_In in H. now rewrite H.
Qed.
