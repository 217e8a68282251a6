From Coq Require Import String Ascii List ZArith NArith Bool Arith QArith Qabs Lia.
Import ListNotations.
From Verif Require Import PyBase PyBaseFacts Kmc_Model Kmc_Spec.
Local Open Scope list_scope.
Local Open Scope nat_scope.

(** ** Outcomes: every rejection by the checks is a SetupError *)
Definition setup_only {A} (r : res A) : Prop := (exists a, r = Ok a) \/ r = Err SetupError.

Lemma setup_bind {A B} (r : res A) (f : A -> res B) :
  setup_only r -> (forall a, r = Ok a -> setup_only (f a)) -> setup_only (bind r f).
Proof. intros [[a ->] | ->] H; [apply H; reflexivity|right; reflexivity]. Qed.

Lemma setup_mapM {A B} (f : A -> res B) l : (forall x, setup_only (f x)) -> setup_only (mapM f l).
Proof.
  intro H. induction l as [|x l IH]; [left; eexists; reflexivity|]. cbn [mapM].
  apply setup_bind; [apply H|]. intros y _. apply setup_bind; [exact IH|].
  intros ys _. left. eexists. reflexivity.
Qed.

Lemma setup_ok {A} (a : A) : setup_only (Ok a).
Proof. left. eexists. reflexivity. Qed.

Lemma setup_err {A} : setup_only (@Err A SetupError).
Proof. right. reflexivity. Qed.

Lemma check_sequence_outcome v t : setup_only (check_sequence v t).
Proof.
  unfold check_sequence. destruct (items v) as [l|]; [|apply setup_err].
  destruct (forallb _ l); [apply setup_ok|apply setup_err].
Qed.

Lemma check_coords_outcome v : setup_only (check_coords v).
Proof.
  unfold check_coords. apply setup_bind; [apply check_sequence_outcome|]. intros l _.
  apply setup_bind.
  - apply setup_mapM. intro c. apply setup_bind; [apply check_sequence_outcome|]. intros es _.
    destruct (length es =? 3); [apply setup_ok|apply setup_err].
  - intros cs _. apply setup_bind; [|intros; apply setup_ok].
    unfold check_process_coordinates. destruct (existsb _ _); [apply setup_err|apply setup_ok].
Qed.

Lemma check_outcome d : setup_only (check_process_dict d).
Proof.
  unfold check_process_dict. destruct (negb _); [apply setup_err|].
  destruct (get_key d "reaction"); try apply setup_err.
  apply setup_bind; [apply check_sequence_outcome|]. intros g _.
  apply setup_bind; [apply setup_mapM, check_coords_outcome|]. intros cg _.
  apply setup_bind.
  - apply setup_mapM. intro k. apply setup_bind; [apply check_sequence_outcome|]. intros es _.
    apply setup_mapM. intro cs. destruct (_ =? _); [apply setup_ok|apply setup_err].
  - intros _ _. apply setup_bind; [apply check_sequence_outcome|]. intros; apply setup_ok.
Qed.

(** ** Sequences *)
Lemma items_seq v l : items v = Some l <-> seq_of v l.
Proof.
  unfold seq_of. destruct v; cbn; split; intro H; try discriminate;
    try (destruct H; discriminate).
  - injection H as <-. auto.
  - destruct H as [H|H]; congruence.
  - injection H as <-. auto.
  - destruct H as [H|H]; congruence.
Qed.

Lemma check_sequence_ok v t l : check_sequence v t = Ok l <->
  seq_of v l /\ Forall (fun e => isinstance e t = true) l.
Proof.
  unfold check_sequence. rewrite <- items_seq. destruct (items v) as [l0|]; [|split; [discriminate|intros [H _]; discriminate]].
  destruct (forallb (fun e => isinstance e t) l0) eqn:E; split.
  - intro H. injection H as <-. split; [reflexivity|]. apply Forall_forall. intros x Hx.
    rewrite forallb_forall in E. auto.
  - intros [H _]. congruence.
  - discriminate.
  - intros [H F]. injection H as ->. exfalso.
    rewrite Forall_forall in F. assert (forallb (fun e => isinstance e t) l = true) by (apply forallb_forall; auto).
    congruence.
Qed.

Lemma texts_iff l : Forall (fun e => isinstance e TStr = true) l <-> exists ss, l = map PStr ss.
Proof.
  split.
  - induction 1 as [|e l He HF IH]; [exists []; reflexivity|]. destruct IH as [ss ->].
    destruct e; try discriminate. exists (s :: ss). reflexivity.
  - intros [ss ->]. apply Forall_forall. intros e He. apply in_map_iff in He as (s & <- & _). reflexivity.
Qed.

Lemma floats_iff l : Forall (fun e => isinstance e TFloat = true) l <-> exists qs, l = map PFloat qs.
Proof.
  split.
  - induction 1 as [|e l He HF IH]; [exists []; reflexivity|]. destruct IH as [ss ->].
    destruct e; try discriminate. exists (q :: ss). reflexivity.
  - intros [ss ->]. apply Forall_forall. intros e He. apply in_map_iff in He as (s & <- & _). reflexivity.
Qed.

Lemma ints_iff l : Forall (fun e => isinstance e TInt = true) l <-> (forall s, In s l -> is_int s).
Proof.
  rewrite Forall_forall. split; intros H e He; specialize (H e He).
  - destruct e; try discriminate; [left|right]; eexists; reflexivity.
  - destruct H as [[z ->]|[b ->]]; reflexivity.
Qed.

Lemma map_float_of qs : map float_of (map PFloat qs) = qs.
Proof. rewrite map_map. cbn. apply map_id. Qed.

(** ** Coordinates *)
Lemma coord_equal_false tol a b : coord_equal tol a b = false <->
  exists i x y, nth_error a i = Some x /\ nth_error b i = Some y /\ (tol < Qabs (x - y))%Q.
Proof.
  revert b. induction a as [|x a IH]; intros [|y b]; cbn [coord_equal];
    try (split; [discriminate|intros ([|i] & ? & ? & ? & ? & _); discriminate]).
  destruct (Qle_bool (Qabs (x - y)) tol) eqn:E; cbn [negb].
  - rewrite IH. split.
    + intros (i & u & v & H). exists (S i), u, v. exact H.
    + intros ([|i] & u & v & H1 & H2 & H3).
      * cbn in H1, H2. injection H1 as <-. injection H2 as <-. apply Qle_bool_iff in E.
        exfalso. apply (Qlt_not_le _ _ H3). exact E.
      * exists i, u, v. auto.
  - split; [|reflexivity]. intros _. exists 0, x, y. repeat split.
    apply Qnot_le_lt. intro H. apply Qle_bool_iff in H. congruence.
Qed.

Lemma pairs_of_In {A} (l : list A) a b : In (a, b) (pairs_of l) <->
  exists i j, i < j /\ nth_error l i = Some a /\ nth_error l j = Some b.
Proof.
  induction l as [|x l IH]; cbn [pairs_of].
  - split; [intros []|]. intros ([|i] & j & _ & H & _); discriminate.
  - rewrite in_app_iff, in_map_iff, IH. split.
    + intros [(y & E & Hy)|(i & j & H1 & H2 & H3)].
      * injection E as <- <-. apply In_nth_error in Hy as [j Hj]. exists 0, (S j). repeat split; [lia|exact Hj].
      * exists (S i), (S j). repeat split; [lia| |]; assumption.
    + intros ([|i] & [|j] & H1 & H2 & H3); try lia.
      * left. cbn in H2. injection H2 as <-. exists b. split; [reflexivity|]. eapply nth_error_In. exact H3.
      * right. exists i, j. repeat split; [lia| |]; assumption.
Qed.

Lemma coordinates_ok cs : check_process_coordinates cs = Ok tt <->
  (forall i j a b, i < j -> nth_error cs i = Some a -> nth_error cs j = Some b -> apart a b).
Proof.
  unfold check_process_coordinates.
  destruct (existsb (fun p => coord_equal coord_tol (fst p) (snd p)) (pairs_of cs)) eqn:E; split; intro H.
  - discriminate.
  - apply existsb_exists in E as ([a b] & Hin & Heq). apply pairs_of_In in Hin as (i & j & H1 & H2 & H3).
    specialize (H i j a b H1 H2 H3). apply (coord_equal_false coord_tol) in H. cbn in Heq. congruence.
  - intros i j a b H1 H2 H3. apply (coord_equal_false coord_tol).
    assert (Hin : In (a, b) (pairs_of cs)) by (apply pairs_of_In; eauto).
    destruct (coord_equal coord_tol a b) eqn:E'; [|reflexivity].
    assert (existsb (fun p => coord_equal coord_tol (fst p) (snd p)) (pairs_of cs) = true).
    { apply existsb_exists. exists (a, b). auto. }
    congruence.
  - reflexivity.
Qed.

Lemma mapM_ok_Forall2 {A B} (f : A -> res B) l ys :
  mapM f l = Ok ys <-> Forall2 (fun x y => f x = Ok y) l ys.
Proof.
  revert ys. induction l as [|x l IH]; intro ys; cbn [mapM].
  - split; [intro H; injection H as <-; constructor|]. intro H. inversion H. reflexivity.
  - split.
    + destruct (f x) as [y|] eqn:E; [|discriminate]. cbn [bind].
      destruct (mapM f l) as [ys'|]; [|discriminate]. cbn [bind]. intro H. injection H as <-.
      constructor; [exact E|]. apply IH. reflexivity.
    + intro H. inversion H as [|? y ? ys' Hy HF]; subst. rewrite Hy. cbn [bind].
      rewrite (proj2 (IH ys') HF). reflexivity.
Qed.

Definition coords_value (cs : list (list Q)) : pv := PList (map (fun c => PList (map PFloat c)) cs).

Lemma coord_entry c q : isinstance c TList = true ->
  ((do es <- check_sequence c TFloat;
    if (length es =? 3)%nat then Ok (map float_of es) else Err SetupError) = Ok q <->
   c = PList (map PFloat q) /\ length q = 3).
Proof.
  intro Hc. destruct c as [| | | | |l|]; try discriminate. split.
  - destruct (check_sequence (PList l) TFloat) as [es|] eqn:E; [|discriminate]. cbn [bind].
    apply check_sequence_ok in E as [[E|E] F]; [|discriminate]. injection E as ->.
    apply floats_iff in F as [qs ->].
    destruct (Nat.eqb_spec (length (map PFloat qs)) 3) as [HL|]; [|discriminate].
    rewrite map_float_of. intro H. injection H as <-. rewrite map_length in HL. auto.
  - intros [E HL]. injection E as ->.
    rewrite (proj2 (check_sequence_ok (PList (map PFloat q)) TFloat (map PFloat q))).
    + cbn [bind]. rewrite map_length, HL. cbn. now rewrite map_float_of.
    + split; [left; reflexivity|]. apply floats_iff. eexists. reflexivity.
Qed.

Lemma check_coords_ok v cs : isinstance v TList = true ->
  (check_coords v = Ok cs <->
   v = coords_value cs /\ (forall c, In c cs -> length c = 3) /\
   (forall i j a b, i < j -> nth_error cs i = Some a -> nth_error cs j = Some b -> apart a b)).
Proof.
  intro Hv. destruct v as [| | | | |l|]; try discriminate. unfold check_coords. split.
  - destruct (check_sequence (PList l) TList) as [l0|] eqn:E; [|discriminate]. cbn [bind].
    apply check_sequence_ok in E as [[E|E] F]; [|discriminate]. injection E as <-.
    destruct (mapM _ l) as [cs0|] eqn:Em; [|discriminate]. cbn [bind].
    destruct (check_process_coordinates cs0) as [[]|] eqn:Ec; [|discriminate]. cbn [bind].
    intro H. injection H as ->. pose proof (proj1 (coordinates_ok _) Ec) as Ec2. clear Ec. rename Ec2 into Ec. apply mapM_ok_Forall2 in Em.
    assert (l = map (fun c => PList (map PFloat c)) cs /\ (forall c, In c cs -> length c = 3)) as [-> HL].
    { clear Ec Hv. induction Em as [|x y l ys Hxy HF IH]; [split; [reflexivity|intros ? H0; destruct H0]|].
      inversion F; subst. apply coord_entry in Hxy as [-> Hy]; [|assumption].
      destruct IH as [-> HL]; [assumption|]. split; [reflexivity|].
      intros c [<-|Hc]; auto. }
    split; [reflexivity|]. split; assumption.
  - intros (E & HL & HA). unfold coords_value in E. injection E as ->.
    rewrite (proj2 (check_sequence_ok _ TList (map (fun c => PList (map PFloat c)) cs))).
    2:{ split; [left; reflexivity|]. apply Forall_forall. intros x Hx. apply in_map_iff in Hx as (c & <- & _). reflexivity. }
    cbn [bind].
    assert (Em : mapM (fun c => do es <- check_sequence c TFloat;
                if (length es =? 3)%nat then Ok (map float_of es) else Err SetupError)
              (map (fun c => PList (map PFloat c)) cs) = Ok cs).
    { apply mapM_ok_Forall2. clear HA Hv. induction cs as [|c cs IH]; [constructor|]. cbn [map].
      constructor; [|apply IH; intros; apply HL; right; assumption].
      apply coord_entry; [reflexivity|]. split; [reflexivity|]. apply HL. left. reflexivity. }
    rewrite Em. cbn [bind]. rewrite (proj2 (coordinates_ok cs) HA). reflexivity.
Qed.

Lemma check_group_ok g cg : Forall (fun e => isinstance e TList = true) g ->
  (mapM check_coords g = Ok cg <->
   g = map coords_value cg /\
   (forall cs c, In cs cg -> In c cs -> length c = 3) /\
   (forall cs i j a b, In cs cg -> i < j -> nth_error cs i = Some a -> nth_error cs j = Some b -> apart a b)).
Proof.
  intro F. rewrite mapM_ok_Forall2. split.
  - intro H. induction H as [|v cs g cg Hv HF IH]; [repeat split; intros ? **; contradiction|].
    inversion F; subst. apply check_coords_ok in Hv as (-> & H3 & HA); [|assumption].
    destruct IH as (-> & I3 & IA); [assumption|]. split; [reflexivity|]. split.
    + intros cs' c [<-|Hin] Hc; eauto.
    + intros cs' i j a b [<-|Hin]; eauto.
  - intros (-> & H3 & HA). clear F. induction cg as [|cs cg IH]; [constructor|]. cbn [map]. constructor.
    + apply check_coords_ok; [reflexivity|]. split; [reflexivity|]. split.
      * intros c Hc. apply (H3 cs); [left; reflexivity|assumption].
      * intros i j a b. apply HA. left. reflexivity.
    + apply IH.
      * intros cs' c Hin. apply H3. right. exact Hin.
      * intros cs' i j a b Hin. apply HA. right. exact Hin.
Qed.

Lemma lengths_ok (es : list pv) (cg : list (list (list Q))) :
  (exists us, mapM (fun cs => if (length es =? length (A:=list Q) cs)%nat then Ok tt else Err SetupError) cg = Ok us) <->
  (forall cs, In cs cg -> length es = length cs).
Proof.
  split.
  - intros [us H]. apply mapM_ok_Forall2 in H. intros cs Hin. induction H as [|x u cg us Hx HF IH]; [contradiction|].
    destruct Hin as [->|Hin]; [|auto]. destruct (Nat.eqb_spec (length es) (length cs)); [assumption|discriminate].
  - intro H. exists (map (fun _ => tt) cg). apply mapM_ok_Forall2. induction cg as [|cs cg IH]; [constructor|].
    cbn [map]. constructor; [|apply IH; intros; apply H; right; assumption].
    rewrite (H cs) by (left; reflexivity). now rewrite Nat.eqb_refl.
Qed.

(** ** The whole check *)
Definition checked_of (d : dict pv) (p : pdef) : checked :=
  {| c_reaction := d_reaction p; c_group := d_group p;
     c_before := get_key d "elements_before"; c_after := get_key d "elements_after";
     c_sites := d_sites p |}.

Lemma dmem_key d k : dmem d (L k) = true -> dget d (L k) = Some (get_key d k).
Proof. unfold dmem, get_key. destruct (dget d (L k)); [reflexivity|discriminate]. Qed.

Lemma get_key_some d k v : dget d (L k) = Some v -> get_key d k = v.
Proof. unfold get_key. intros ->. reflexivity. Qed.

Lemma check_sound d c : check_process_dict d = Ok c ->
  exists p, describes d p /\ well_formed p /\ c = checked_of d p.
Proof.
  unfold check_process_dict. destruct (forallb (fun k => dmem d k) essential_keys) eqn:Ek; [|discriminate].
  cbn [negb]. cbn [forallb essential_keys] in Ek. rewrite !andb_true_iff in Ek.
  destruct Ek as (K1 & K2 & K3 & K4 & K5 & _).
  apply dmem_key in K1, K2, K3, K4, K5.
  destruct (get_key d "reaction") as [rxn| | | | | |] eqn:Er; try discriminate.
  destruct (check_sequence (get_key d "coordinates_group") TList) as [g|] eqn:Eg; [|discriminate]. cbn [bind].
  apply check_sequence_ok in Eg as [Sg Fg].
  destruct (mapM check_coords g) as [cg|] eqn:Ec; [|discriminate]. cbn [bind].
  apply (check_group_ok g cg Fg) in Ec as (-> & H3 & HA).
  cbn [mapM].
  destruct (check_sequence (get_key d "elements_before") TStr) as [eb|] eqn:Eb; [|discriminate]. cbn [bind].
  apply check_sequence_ok in Eb as [Sb Fb]. apply texts_iff in Fb as [bs ->].
  destruct (mapM _ cg) as [us|] eqn:E1; [|discriminate]. cbn [bind].
  destruct (check_sequence (get_key d "elements_after") TStr) as [ea|] eqn:Ea; [|discriminate]. cbn [bind].
  apply check_sequence_ok in Ea as [Sa Fa]. apply texts_iff in Fa as [as_ ->].
  destruct (mapM (fun cs => if (length (map PStr as_) =? _)%nat then _ else _) cg) as [us2|] eqn:E2; [|discriminate]. cbn [bind].
  destruct (check_sequence (get_key d "basis_sites") TInt) as [ss|] eqn:Es; [|discriminate]. cbn [bind].
  apply check_sequence_ok in Es as [Ss Fs].
  intro H. injection H as <-.
  exists {| d_reaction := rxn; d_group := cg; d_before := bs; d_after := as_; d_sites := ss |}.
  split; [|split].
  - constructor; cbn; eauto.
  - pose proof (proj1 (lengths_ok _ _) (ex_intro _ _ E1)) as L1.
    pose proof (proj1 (lengths_ok _ _) (ex_intro _ _ E2)) as L2.
    constructor; cbn.
    + exact H3.
    + exact HA.
    + intros cs Hin. rewrite <- (map_length PStr). auto.
    + intros cs Hin. rewrite <- (map_length PStr). auto.
    + apply ints_iff. exact Fs.
  - reflexivity.
Qed.

Lemma check_complete d p : describes d p -> well_formed p ->
  check_process_dict d = Ok (checked_of d p).
Proof.
  intros [D1 (vg & D2 & S2) (vb & D3 & S3) (va & D4 & S4) (vs & D5 & S5)] [W1 W2 W3 W4 W5].
  unfold check_process_dict.
  assert (forallb (fun k => dmem d k) essential_keys = true) as ->.
  { cbn [forallb essential_keys]. unfold dmem. rewrite D1, D2, D3, D4, D5. reflexivity. }
  cbn [negb]. rewrite (get_key_some _ _ _ D1), (get_key_some _ _ _ D2).
  assert (check_sequence vg TList = Ok (map coords_value (d_group p))) as ->.
  { apply check_sequence_ok. split; [exact S2|]. apply Forall_forall. intros x Hx.
    apply in_map_iff in Hx as (? & <- & _). reflexivity. }
  cbn [bind].
  assert (Eg : mapM check_coords (map coords_value (d_group p)) = Ok (d_group p)).
  { apply check_group_ok.
    - apply Forall_forall; intros x Hx; apply in_map_iff in Hx as (? & <- & _); reflexivity.
    - auto. }
  rewrite Eg. cbn [bind mapM].
  rewrite (get_key_some _ _ _ D3), (get_key_some _ _ _ D4), (get_key_some _ _ _ D5).
  rewrite (proj2 (check_sequence_ok vb TStr _) (conj S3 (proj2 (texts_iff _) (ex_intro _ _ eq_refl)))). cbn [bind].
  destruct (proj2 (lengths_ok (map PStr (d_before p)) (d_group p))) as [us ->].
  { intros cs Hin. rewrite map_length. auto. }
  cbn [bind].
  rewrite (proj2 (check_sequence_ok va TStr _) (conj S4 (proj2 (texts_iff _) (ex_intro _ _ eq_refl)))). cbn [bind].
  destruct (proj2 (lengths_ok (map PStr (d_after p)) (d_group p))) as [us' ->].
  { intros cs Hin. rewrite map_length. auto. }
  cbn [bind].
  rewrite (proj2 (check_sequence_ok vs TInt _) (conj S5 (proj2 (ints_iff _) W5))). cbn [bind].
  unfold checked_of. now rewrite (get_key_some _ _ _ D3), (get_key_some _ _ _ D4).
Qed.

Lemma check_iff d : (exists c, check_process_dict d = Ok c) <-> (exists p, describes d p /\ well_formed p).
Proof.
  split.
  - intros [c H]. apply check_sound in H as (p & H1 & H2 & _). eauto.
  - intros (p & H1 & H2). eexists. apply check_complete; eassumption.
Qed.

(** ** Generation *)
Section Gen.
  Context {K : Type}.
  Implicit Types (o : owner K) (d : dict pv).

  Lemma flat_map_concat {A B C} (f : A -> list B) (g : B -> list C) l :
    flat_map g (flat_map f l) = flat_map (fun x => flat_map g (f x)) l.
  Proof. induction l as [|x l IH]; [reflexivity|]. cbn. now rewrite flat_map_app, IH. Qed.

  Lemma concat_map_flat {A B} (f : A -> list B) l : concat (map f l) = flat_map f l.
  Proof. symmetry. apply flat_map_concat_map. Qed.

  Lemma flat_map_map {A B C} (f : A -> B) (g : B -> list C) l :
    flat_map g (map f l) = flat_map (fun x => g (f x)) l.
  Proof. induction l as [|x l IH]; [reflexivity|]. cbn. now rewrite IH. Qed.

  Lemma flat_map_ext' {A B} (f g : A -> list B) l : (forall x, f x = g x) -> flat_map f l = flat_map g l.
  Proof. intro H. induction l as [|x l IH]; [reflexivity|]. cbn. now rewrite H, IH. Qed.

  Lemma map_flat_map {A B C} (f : B -> C) (g : A -> list B) l :
    map f (flat_map g l) = flat_map (fun x => map f (g x)) l.
  Proof. induction l as [|x l IH]; [reflexivity|]. cbn. now rewrite map_app, IH. Qed.

  Lemma filter_flat_map {A B} (f : B -> bool) (g : A -> list B) l :
    filter f (flat_map g l) = flat_map (fun x => filter f (g x)) l.
  Proof. induction l as [|x l IH]; [reflexivity|]. cbn. now rewrite filter_app, IH. Qed.

  Lemma truthy_falsy v : truthy v = false <-> falsy v.
  Proof.
    unfold falsy. split.
    - destruct v as [s|z|q|b| |l|l]; cbn; intro H.
      + destruct s; [auto 8|discriminate].
      + apply negb_false_iff, Z.eqb_eq in H. subst. auto.
      + apply negb_false_iff, Qeq_bool_iff in H. right; right; right; left. eauto.
      + subst. auto.
      + auto.
      + destruct l; [auto 8|discriminate].
      + destruct l; [auto 8|discriminate].
    - intros [-> | [-> | [-> | [(q & -> & H) | [-> | [-> | ->]]]]]]; try reflexivity.
      cbn. apply negb_false_iff, Qeq_bool_iff. exact H.
  Qed.

  Lemma flag_value d k b : flag d k b ->
    (match dget d (L k) with Some v => truthy v | None => false end) = b.
  Proof.
    unfold flag. destruct (dget d (L k)) as [v|]; [|auto]. rewrite <- truthy_falsy.
    destruct b, (truthy v); intuition congruence.
  Qed.

  Lemma flag_total d k : exists b, flag d k b.
  Proof.
    unfold flag. destruct (dget d (L k)) as [v|]; [|eauto]. exists (truthy v). apply truthy_falsy.
  Qed.

  Lemma rates_iff o rxn rf rr : rates o rxn = Ok (rf, rr) <-> rate_pair o rxn rf rr.
  Proof.
    unfold rates, rate_pair.
    destruct (str_eqb (rate_algo o) (L "CT")) eqn:E1.
    - apply str_eqb_eq in E1. rewrite E1. split; [auto|]. intros [[_ H]|[H _]]; [exact H|discriminate].
    - assert (N1 : rate_algo o <> L "CT") by (intro H; rewrite H, str_eqb_refl in E1; discriminate).
      destruct (str_eqb (rate_algo o) (L "TST")) eqn:E2.
      + apply str_eqb_eq in E2. split; [auto|]. intros [[H _]|[_ H]]; [contradiction|exact H].
      + split; [discriminate|]. intros [[H _]|[H _]]; [contradiction|].
        rewrite H, str_eqb_refl in E2. discriminate.
  Qed.

  Lemma elements_ok o d p :
    describes d p -> same_kind d ->
    exists l, py_concat (get_key d "elements_before") (get_key d "elements_after") = Ok l /\
      l = map PStr (d_before p ++ d_after p).
  Proof.
    intros [_ _ (vb & D3 & S3) (va & D4 & S4) _] K2.
    rewrite (get_key_some _ _ _ D3), (get_key_some _ _ _ D4).
    destruct K2 as [(a & b & E1 & E2)|(a & b & E1 & E2)]; rewrite D3 in E1; rewrite D4 in E2;
      injection E1 as ->; injection E2 as ->;
      destruct S3 as [S3|S3]; try discriminate; injection S3 as ->;
      destruct S4 as [S4|S4]; try discriminate; injection S4 as ->;
      (eexists; split; [reflexivity|]); now rewrite map_app.
  Qed.

  Lemma check_elements_ok o ss :
    check_elements o (map PStr ss) = Ok tt <->
    (forall e, In e ss -> e = L "*" \/ In e (possible_element_types o)).
  Proof.
    unfold check_elements. set (b := forallb _ _).
    assert (Hb : b = true <-> forall e, In e ss -> e = L "*" \/ In e (possible_element_types o)).
    { unfold b. rewrite forallb_forall. split.
      - intros H e He. specialize (H (PStr e) (in_map _ _ _ He)). cbn in H.
        apply orb_true_iff in H as [H|H]; [left; apply str_eqb_eq; exact H|right; apply str_mem_In; exact H].
      - intros H x Hx. apply in_map_iff in Hx as (e & <- & He). apply orb_true_iff.
        destruct (H e He) as [->|Hin]; [left; apply str_eqb_refl|right; apply str_mem_In; exact Hin]. }
    destruct b; split; intro H; try discriminate; try reflexivity.
    - apply Hb. reflexivity.
    - apply Hb in H. discriminate.
  Qed.

  Lemma check_elements_err o l : check_elements o l <> Ok tt -> check_elements o l = Err SetupError.
  Proof. unfold check_elements. destruct (forallb _ l); [congruence|reflexivity]. Qed.

  Lemma labelled_fst d p rf rr fast redist species :
    species = (match dget d (L "redist_species") with Some v => v | None => PNone end) ->
    concat (map fst (orientations (checked_of d p) rf rr fast redist species)) =
    map fst (labelled (K:=K) d p rf rr fast redist).
  Proof.
    intros ->. unfold orientations, labelled. rewrite concat_map_flat, map_flat_map.
    rewrite flat_map_concat. cbn [c_sites c_group checked_of].
    apply flat_map_ext'. intro site. rewrite flat_map_map, map_flat_map. apply flat_map_ext'. intro cs.
    cbn [one_orientation fst map c_before c_after c_reaction checked_of]. destruct redist; reflexivity.
  Qed.

  Lemma labelled_snd d p rf rr (fast redist : bool) species :
    (fast = false -> redist = true -> False) ->
    concat (map snd (orientations (checked_of d p) rf rr fast redist species)) =
    map snd (filter slow (labelled (K:=K) d p rf rr fast redist)).
  Proof.
    intro H. unfold orientations, labelled. rewrite concat_map_flat, filter_flat_map, map_flat_map.
    rewrite flat_map_concat. cbn [c_sites c_group checked_of].
    apply flat_map_ext'. intro site. rewrite flat_map_map, filter_flat_map, map_flat_map. apply flat_map_ext'. intro cs.
    cbn [one_orientation snd c_before c_after c_reaction checked_of].
    destruct fast, redist; try reflexivity. exfalso. auto.
  Qed.

  Lemma single_ok o d l : accepted o d l ->
    exists ms, get_single_process o d = Ok (map fst l, ms) /\
      (~ slow_redistribution d -> ms = map snd (filter slow l)).
  Proof.
    intros (p & rf & rr & fast & redist & D & W & SK & Hr & He & Hrt & Ff & Fr & ->).
    unfold get_single_process. rewrite (check_complete _ _ D W). cbn [bind].
    cbn [c_reaction checked_of]. rewrite (proj2 (str_mem_In _ _) Hr). cbn [negb].
    cbn [c_before c_after checked_of].
    destruct (elements_ok o d p D SK) as (le & -> & ->). cbn [bind].
    rewrite (proj2 (check_elements_ok o _)); [|intros e Hin; apply He; apply in_app_iff; exact Hin].
    cbn [bind]. rewrite (proj2 (rates_iff _ _ _ _) Hrt). cbn [bind].
    rewrite (flag_value _ _ _ Ff), (flag_value _ _ _ Fr).
    eexists. split.
    - f_equal. f_equal. apply labelled_fst. reflexivity.
    - intro NS. apply labelled_snd. intros -> ->. apply NS. split; assumption.
  Qed.

  Lemma single_ok_inv o d ps ms : get_single_process o d = Ok (ps, ms) ->
    exists l, accepted o d l /\ ps = map fst l.
  Proof.
    unfold get_single_process. destruct (check_process_dict d) as [c|] eqn:Ec; [|discriminate]. cbn [bind].
    apply check_sound in Ec as (p & D & W & ->). cbn [c_reaction checked_of].
    destruct (str_mem (d_reaction p) (rxn_expressions o)) eqn:Em; [|discriminate]. cbn [negb].
    apply str_mem_In in Em. cbn [c_before c_after checked_of].
    destruct (py_concat _ _) as [le|] eqn:Ep; [|discriminate]. cbn [bind].
    assert (SK : same_kind d).
    { destruct D as [_ _ (vb & D3 & S3) (va & D4 & S4) _].
      rewrite (get_key_some _ _ _ D3), (get_key_some _ _ _ D4) in Ep.
      destruct S3 as [-> | ->], S4 as [-> | ->]; try discriminate Ep; [left|right]; eauto. }
    destruct (elements_ok o d p D SK) as (le' & E' & ->). rewrite E' in Ep. injection Ep as <-.
    destruct (check_elements o _) as [[]|] eqn:Ece; [|discriminate]. cbn [bind].
    pose proof (proj1 (check_elements_ok _ _) Ece) as Ece2.
    destruct (rates o (d_reaction p)) as [[rf rr]|] eqn:Er; [|discriminate]. cbn [bind].
    apply rates_iff in Er.
    destruct (flag_total d "fast") as [fast Ff]. destruct (flag_total d "redist") as [redist Fr].
    rewrite (flag_value _ _ _ Ff), (flag_value _ _ _ Fr).
    intro H. injection H as H1 H2. exists (labelled d p rf rr fast redist). split.
    - exists p, rf, rr, fast, redist. repeat split; auto; try apply D; try apply W.
      intros e He. apply Ece2. apply in_app_iff. exact He.
    - rewrite <- H1. apply labelled_fst. reflexivity.
  Qed.

  (** All definitions accepted. *)
  Lemma get_processes_ok o ds ls mapping :
    Forall2 (accepted o) ds ls ->
    exists m, get_processes o mapping ds = (Ok (map fst (concat ls)), m) /\
      (Forall (fun d => ~ slow_redistribution d) ds ->
       m = mapping ++ map snd (filter slow (concat ls))).
  Proof.
    intro H. revert mapping. induction H as [|d l ds ls Hd HF IH]; intro mapping.
    - exists mapping. split; [reflexivity|]. intros _. now rewrite app_nil_r.
    - destruct (single_ok o d l Hd) as (ms & E & Hms). cbn [get_processes concat]. rewrite E.
      destruct (IH (mapping ++ ms)) as (m & Em & Hm). rewrite Em. exists m. split.
      + now rewrite map_app.
      + intro F. inversion F as [|? ? F1 F2]; subst. rewrite (Hm F2), (Hms F1).
        rewrite filter_app, map_app. now rewrite app_assoc.
  Qed.

  Lemma get_processes_inv o ds mapping ps m :
    get_processes o mapping ds = (Ok ps, m) ->
    exists ls, Forall2 (accepted o) ds ls /\ ps = map fst (concat ls).
  Proof.
    revert mapping ps m. induction ds as [|d ds IH]; intros mapping ps m H; cbn [get_processes] in H.
    - injection H as <- <-. exists []. split; [constructor|reflexivity].
    - destruct (get_single_process o d) as [[p1 m1]|] eqn:E; [|discriminate].
      destruct (get_processes o (mapping ++ m1) ds) as [[rest|] m'] eqn:E'; [|discriminate].
      injection H as <- <-. destruct (single_ok_inv _ _ _ _ E) as (l & A & ->).
      destruct (IH _ _ _ E') as (ls & F & ->). exists (l :: ls). split; [constructor; assumption|].
      cbn [concat]. now rewrite map_app.
  Qed.
  (** *** Rejections *)
  Lemma single_bad o d : check_process_dict d = Err SetupError ->
    get_single_process o d = Err SetupError.
  Proof. unfold get_single_process. now intros ->. Qed.

  Lemma not_described o d : (forall p, describes d p -> well_formed p -> False) ->
    get_single_process o d = Err SetupError.
  Proof.
    intro H. apply single_bad. destruct (check_outcome d) as [[c E]|E]; [|exact E].
    apply check_sound in E as (p & D & W & _). exfalso. eapply H; eassumption.
  Qed.

  Lemma unknown_reaction o d p : describes d p -> well_formed p ->
    ~ In (d_reaction p) (rxn_expressions o) -> get_single_process o d = Err SetupError.
  Proof.
    intros D W N. unfold get_single_process. rewrite (check_complete _ _ D W). cbn [bind].
    cbn [c_reaction checked_of]. destruct (str_mem (d_reaction p) (rxn_expressions o)) eqn:E; [|reflexivity].
    apply str_mem_In in E. contradiction.
  Qed.

  Lemma mixed_kinds o d p : describes d p -> well_formed p ->
    In (d_reaction p) (rxn_expressions o) -> ~ same_kind d -> get_single_process o d = Err TypeError.
  Proof.
    intros D W Hr N. unfold get_single_process. rewrite (check_complete _ _ D W). cbn [bind].
    cbn [c_reaction checked_of]. rewrite (proj2 (str_mem_In _ _) Hr). cbn [negb].
    cbn [c_before c_after checked_of].
    destruct D as [_ _ (vb & D3 & S3) (va & D4 & S4) _].
    rewrite (get_key_some _ _ _ D3), (get_key_some _ _ _ D4).
    destruct S3 as [-> | ->], S4 as [-> | ->]; try reflexivity; exfalso; apply N; [left|right]; eauto.
  Qed.

  Lemma unknown_element o d p : describes d p -> well_formed p ->
    In (d_reaction p) (rxn_expressions o) -> same_kind d -> ~ known_elements o p ->
    get_single_process o d = Err SetupError.
  Proof.
    intros D W Hr SK N. unfold get_single_process. rewrite (check_complete _ _ D W). cbn [bind].
    cbn [c_reaction checked_of]. rewrite (proj2 (str_mem_In _ _) Hr). cbn [negb].
    cbn [c_before c_after checked_of].
    destruct (elements_ok o d p D SK) as (le & -> & ->). cbn [bind].
    rewrite check_elements_err; [reflexivity|]. intro H.
    pose proof (proj1 (check_elements_ok _ _) H) as H'. apply N. intros e He. apply H'.
    apply in_app_iff. exact He.
  Qed.

  Lemma unknown_algo o d p : describes d p -> well_formed p ->
    In (d_reaction p) (rxn_expressions o) -> same_kind d -> known_elements o p ->
    rate_algo o <> L "CT" -> rate_algo o <> L "TST" ->
    get_single_process o d = Err UnboundLocalError.
  Proof.
    intros D W Hr SK He N1 N2. unfold get_single_process. rewrite (check_complete _ _ D W). cbn [bind].
    cbn [c_reaction checked_of]. rewrite (proj2 (str_mem_In _ _) Hr). cbn [negb].
    cbn [c_before c_after checked_of].
    destruct (elements_ok o d p D SK) as (le & -> & ->). cbn [bind].
    rewrite (proj2 (check_elements_ok o _)); [|intros e Hin; apply He; apply in_app_iff; exact Hin].
    cbn [bind]. unfold rates.
    destruct (str_eqb (rate_algo o) (L "CT")) eqn:E1; [apply str_eqb_eq in E1; contradiction|].
    destruct (str_eqb (rate_algo o) (L "TST")) eqn:E2; [apply str_eqb_eq in E2; contradiction|].
    reflexivity.
  Qed.

  (** The first definition that is not accepted decides. *)
  Lemma get_processes_first_bad o ds ls d rest e mapping :
    Forall2 (accepted o) ds ls -> get_single_process o d = Err e ->
    exists m, get_processes o mapping (ds ++ d :: rest) = (Err e, m).
  Proof.
    intros H E. revert mapping. induction H as [|d0 l ds ls Hd HF IH]; intro mapping; cbn [app get_processes].
    - rewrite E. eauto.
    - destruct (single_ok o d0 l Hd) as (ms & E0 & _). rewrite E0.
      destruct (IH (mapping ++ ms)) as (m & ->). eauto.
  Qed.

  Lemma get_processes_first_bad_map o ds ls d rest e mapping :
    Forall2 (accepted o) ds ls -> Forall (fun d => ~ slow_redistribution d) ds ->
    get_single_process o d = Err e ->
    get_processes o mapping (ds ++ d :: rest) =
      (Err e, mapping ++ map snd (filter slow (concat ls))).
  Proof.
    intros H F E. revert mapping. induction H as [|d0 l ds ls Hd HF IH]; intro mapping; cbn [app get_processes concat].
    - rewrite E. now rewrite app_nil_r.
    - destruct (single_ok o d0 l Hd) as (ms & E0 & Hms). rewrite E0.
      inversion F as [|? ? F1 F2]; subst. rewrite (IH F2 (mapping ++ ms)), (Hms F1).
      now rewrite filter_app, map_app, app_assoc.
  Qed.

  (** *** Counting *)
  Lemma flat_map_const {A B} (f : A -> list B) l n :
    (forall x, length (f x) = n) -> length (flat_map f l) = length l * n.
  Proof.
    intro H. induction l as [|x l IH]; [reflexivity|]. cbn. now rewrite app_length, H, IH.
  Qed.

  Lemma labelled_length d p rf rr fast (redist : bool) :
    length (labelled (K:=K) d p rf rr fast redist) =
    length (d_sites p) * (length (d_group p) * (if redist then 1 else 2)).
  Proof.
    unfold labelled. apply flat_map_const. intro s. apply flat_map_const. intro c.
    destruct redist; reflexivity.
  Qed.

  (** *** The cached property *)
  Lemma processes_new o ds ls :
    Forall2 (accepted o) ds ls -> Forall (fun d => ~ slow_redistribution d) ds ->
    processes o ds new_solver =
      (Ok (map fst (concat ls)),
       {| process_mapping := map snd (filter slow (concat ls));
          cached := Some (map fst (concat ls)) |}).
  Proof.
    intros H F. unfold processes, new_solver. cbn [cached process_mapping].
    destruct (get_processes_ok o ds ls [] H) as (m & E & Hm). rewrite E, (Hm F). reflexivity.
  Qed.

  Lemma processes_cached o ds s ps : cached s = Some ps -> processes o ds s = (Ok ps, s).
  Proof. unfold processes. now intros ->. Qed.

  Lemma processes_retry o ds ls d rest e s :
    cached s = None ->
    Forall2 (accepted o) ds ls -> Forall (fun d => ~ slow_redistribution d) ds ->
    get_single_process o d = Err e ->
    processes o (ds ++ d :: rest) s =
      (Err e, {| process_mapping := process_mapping s ++ map snd (filter slow (concat ls));
                 cached := None |}).
  Proof.
    intros C H F E. unfold processes. rewrite C.
    rewrite (get_processes_first_bad_map o ds ls d rest e _ H F E). reflexivity.
  Qed.
End Gen.
