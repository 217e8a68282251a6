From Coq Require Import String Ascii List ZArith Bool Arith QArith Permutation Sorted Lia Lqa.
Import ListNotations.
From Verif Require Import PyBase PyBaseFacts PyBase_Spec PyBase_Sound Collect_Model Collect_Spec.
Local Open Scope list_scope.

Lemma bindok {A B} (r : res A) (f : A -> res B) y : bind r f = Ok y <-> exists x, r = Ok x /\ f x = Ok y.
Proof. destruct r; cbn [bind]; split; [eauto|intros (x & H & X); now injection H as ->|discriminate|intros (x & H & _); discriminate]. Qed.

(** ** Merged coverages *)
Lemma starts_iff c s : starts c s = true <-> begins c s.
Proof.
  unfold begins. destruct s as [|x s]; cbn [starts]; [split; [discriminate|intros [t H]; discriminate]|].
  rewrite Ascii.eqb_eq. split; [intros ->; eauto|intros [t H]; congruence].
Qed.
Lemma starts_false c s : starts c s = false <-> ~ begins c s.
Proof. rewrite <- starts_iff. destruct (starts c s); split; congruence. Qed.

Lemma add_array_ok a b n : length a = n -> fits n b ->
  exists a', add_array a b = Ok a' /\ length a' = n /\
    forall j, (j < n)%nat -> nth j a' 0%Q = (nth j a 0 + entry n b j)%Q.
Proof.
  intros Ha Hb. unfold add_array, entry. rewrite Ha, (Nat.eqb_sym n). destruct (length b =? n)%nat eqn:E.
  - apply Nat.eqb_eq in E. eexists. split; [reflexivity|]. split.
    + rewrite map_length, combine_length. lia.
    + intros j Hj. set (f := fun xy : Q * Q => (fst xy + snd xy)%Q).
      rewrite (nth_indep _ 0%Q (f (0%Q, 0%Q))) by (rewrite map_length, combine_length; lia).
      rewrite map_nth, combine_nth by lia. reflexivity.
  - apply Nat.eqb_neq in E. destruct Hb as [Hb|Hb]; [contradiction|].
    destruct b as [|y [|z b]]; try discriminate. eexists. split; [reflexivity|]. split; [now rewrite map_length|].
    intros j Hj. rewrite (nth_indep _ 0%Q (0 + y)%Q) by (rewrite map_length; lia).
    rewrite (map_nth (fun x => (x + y)%Q)). reflexivity.
Qed.

Lemma add_array_fits a b n a' : length a = n -> add_array a b = Ok a' -> fits n b.
Proof.
  intros Ha. unfold add_array, fits. rewrite Ha. destruct (n =? length b)%nat eqn:E.
  - apply Nat.eqb_eq in E. auto.
  - destruct b as [|y [|z b]]; try discriminate. auto.
Qed.

Lemma begins_diff c c' s : begins c s -> begins c' s -> c = c'.
Proof. intros [t ->] [t' H]. congruence. Qed.

(** What the loop adds to one of the three arrays. *)
Definition grown (c : ascii) (n : nat) (l : list (str * list Q)) (a a' : list Q) : Prop :=
  length a' = n /\ forall j, (j < n)%nat -> exists s, sums c n l j s /\ nth j a' 0%Q == nth j a 0 + s.

Lemma grown_nil c n a : length a = n -> grown c n [] a a.
Proof. intro H. split; [assumption|]. intros j _. exists 0%Q. split; [constructor|]. ring. Qed.
Lemma grown_in c n sp b l a a1 a2 : begins c sp ->
  (forall j, (j < n)%nat -> nth j a1 0%Q = (nth j a 0 + entry n b j)%Q) ->
  grown c n l a1 a2 -> grown c n ((sp, b) :: l) a a2.
Proof.
  intros HB H1 [HL H2]. split; [assumption|]. intros j Hj. destruct (H2 j Hj) as (s & HS & E).
  exists (entry n b j + s)%Q. split; [now constructor|]. rewrite E, H1 by assumption. ring.
Qed.
Lemma grown_out c n sp b l a a2 : ~ begins c sp -> grown c n l a a2 -> grown c n ((sp, b) :: l) a a2.
Proof.
  intros HB [HL H2]. split; [assumption|]. intros j Hj. destruct (H2 j Hj) as (s & HS & E).
  exists s. split; [now constructor|assumption].
Qed.

Lemma merge_all_ok n l : used l n -> forall m, length (m_O m) = n -> length (m_CO m) = n -> length (m_Vac m) = n ->
  exists m', merge_all m l = Ok m' /\ grown "O" n l (m_O m) (m_O m') /\ grown "C" n l (m_CO m) (m_CO m') /\
    grown "V" n l (m_Vac m) (m_Vac m').
Proof.
  induction l as [|[sp b] l IH]; intros HU m H1 H2 H3; cbn [merge_all].
  - exists m. repeat split; auto; intros j _; exists 0%Q; (split; [constructor|ring]).
  - assert (used l n) as HU' by (intros s q HI; apply HU; now right).
    pose proof (fun K => HU sp b (or_introl eq_refl) K) as HF.
    unfold merge_one. destruct (starts "O" sp) eqn:EO.
    { apply starts_iff in EO. destruct (add_array_ok (m_O m) b n H1) as (a & EA & LA & VA); [apply HF; now left|].
      rewrite EA. cbn [bind].
      destruct (IH HU' {| m_O := a; m_CO := m_CO m; m_Vac := m_Vac m |} LA H2 H3) as (m' & EM & G1 & G2 & G3).
      exists m'. split; [assumption|]. cbn in G1, G2, G3. split; [eapply grown_in; eassumption|].
      split; apply grown_out; auto; intro X; pose proof (begins_diff _ _ _ EO X); discriminate. }
    apply starts_false in EO. destruct (starts "C" sp) eqn:EC.
    { apply starts_iff in EC. destruct (add_array_ok (m_CO m) b n H2) as (a & EA & LA & VA); [apply HF; right; now left|].
      rewrite EA. cbn [bind].
      destruct (IH HU' {| m_O := m_O m; m_CO := a; m_Vac := m_Vac m |} H1 LA H3) as (m' & EM & G1 & G2 & G3).
      exists m'. split; [assumption|]. cbn in G1, G2, G3. split; [now apply grown_out|].
      split; [eapply grown_in; eassumption|]. apply grown_out; auto; intro X; pose proof (begins_diff _ _ _ EC X); discriminate. }
    apply starts_false in EC. destruct (starts "V" sp) eqn:EV.
    { apply starts_iff in EV. destruct (add_array_ok (m_Vac m) b n H3) as (a & EA & LA & VA); [apply HF; right; now right|].
      rewrite EA. cbn [bind].
      destruct (IH HU' {| m_O := m_O m; m_CO := m_CO m; m_Vac := a |} H1 H2 LA) as (m' & EM & G1 & G2 & G3).
      exists m'. split; [assumption|]. cbn in G1, G2, G3. split; [now apply grown_out|]. split; [now apply grown_out|].
      eapply grown_in; eassumption. }
    apply starts_false in EV. cbn [bind]. destruct (IH HU' m H1 H2 H3) as (m' & EM & G1 & G2 & G3).
    exists m'. split; [assumption|]. split; [now apply grown_out|]. split; now apply grown_out.
Qed.

Lemma merge_all_used n l m m' : length (m_O m) = n -> length (m_CO m) = n -> length (m_Vac m) = n ->
  merge_all m l = Ok m' -> used l n.
Proof.
  revert m. induction l as [|[sp b] l IH]; intros m H1 H2 H3 H; [intros s q []|].
  cbn [merge_all] in H. unfold merge_one in H.
  assert (forall a, length a = n -> forall a', add_array a b = Ok a' -> length a' = n /\ fits n b) as X.
  { intros a La a' E. pose proof (add_array_fits _ _ _ _ La E) as F.
    destruct (add_array_ok a b n La F) as (a2 & E2 & L2 & _). split; [congruence|assumption]. }
  assert (used l n /\ (known_type sp -> fits n b)) as [A B].
  2: { intros s q [E|HI] K; [injection E as <- <-; auto|eapply A; eassumption]. }
  destruct (starts "O" sp) eqn:EO.
  { apply bindok in H as (m1 & E1 & H). apply bindok in E1 as (a & EA & E1). injection E1 as <-.
    destruct (X _ H1 _ EA) as [La F]. split; [exact (IH {| m_O := a; m_CO := m_CO m; m_Vac := m_Vac m |} La H2 H3 H)|auto]. }
  apply starts_false in EO. destruct (starts "C" sp) eqn:EC.
  { apply bindok in H as (m1 & E1 & H). apply bindok in E1 as (a & EA & E1). injection E1 as <-.
    destruct (X _ H2 _ EA) as [La F]. split; [exact (IH {| m_O := m_O m; m_CO := a; m_Vac := m_Vac m |} H1 La H3 H)|auto]. }
  apply starts_false in EC. destruct (starts "V" sp) eqn:EV.
  { apply bindok in H as (m1 & E1 & H). apply bindok in E1 as (a & EA & E1). injection E1 as <-.
    destruct (X _ H3 _ EA) as [La F]. split; [exact (IH {| m_O := m_O m; m_CO := m_CO m; m_Vac := a |} H1 H2 La H)|auto]. }
  apply starts_false in EV. cbn [bind] in H. split; [exact (IH m H1 H2 H3 H)|].
  intros [K|[K|K]]; contradiction.
Qed.

Lemma merge_all_error m l e : merge_all m l = Err e -> e = ValueError.
Proof.
  revert m. induction l as [|[sp b] l IH]; intros m H; [discriminate|]. cbn [merge_all] in H. unfold merge_one in H.
  assert (forall a e, add_array a b = Err e -> e = ValueError) as X.
  { intros a e'. unfold add_array. destruct (length a =? length b)%nat; [discriminate|].
    destruct b as [|y [|z b]]; congruence. }
  destruct (starts "O" sp); [destruct (add_array (m_O m) b) eqn:E|
  destruct (starts "C" sp); [destruct (add_array (m_CO m) b) eqn:E|
  destruct (starts "V" sp); [destruct (add_array (m_Vac m) b) eqn:E|]]]; cbn [bind] in H;
    try (eapply IH; eassumption); injection H as <-; eapply X; eassumption.
Qed.

Lemma nth_zeros n j : nth j (repeat 0%Q n) 0%Q = 0%Q.
Proof. revert j. induction n as [|n IH]; intros [|j]; cbn; auto. Qed.

Lemma merge_iff n f : (exists m, merge n f = Ok m) <-> used (combine (c_types f) (c_coverages f)) n.
Proof.
  unfold merge. split.
  - intros [m H]. eapply merge_all_used; [| | |exact H]; apply repeat_length.
  - intro H. destruct (merge_all_ok n _ H {| m_O := repeat 0%Q n; m_CO := repeat 0%Q n; m_Vac := repeat 0%Q n |})
      as (m & E & _); try apply repeat_length. exists m. exact E.
Qed.

Lemma grown_zero c n l a : grown c n l (repeat 0%Q n) a -> is_sum c n l a.
Proof.
  intros [HL H]. split; [assumption|]. intros j Hj. destruct (H j Hj) as (s & HS & E). exists s.
  split; [assumption|]. rewrite E, nth_zeros. ring.
Qed.

Lemma merge_value n f m : merge n f = Ok m ->
  is_sum "O" n (combine (c_types f) (c_coverages f)) (m_O m) /\
  is_sum "C" n (combine (c_types f) (c_coverages f)) (m_CO m) /\
  is_sum "V" n (combine (c_types f) (c_coverages f)) (m_Vac m).
Proof.
  intro H. assert (used (combine (c_types f) (c_coverages f)) n) as HU by (apply merge_iff; eauto).
  destruct (merge_all_ok n _ HU {| m_O := repeat 0%Q n; m_CO := repeat 0%Q n; m_Vac := repeat 0%Q n |})
    as (m' & E & G1 & G2 & G3); try apply repeat_length.
  unfold merge in H. rewrite E in H. injection H as <-. cbn in G1, G2, G3.
  split; [now apply grown_zero|]. split; now apply grown_zero.
Qed.

Lemma merge_error n f e : merge n f = Err e -> e = ValueError.
Proof. apply merge_all_error. Qed.

Lemma sums_total n l : (forall sp b, In (sp, b) l -> known_type sp /\ length b = n) ->
  forall j o c v, sums "O" n l j o -> sums "C" n l j c -> sums "V" n l j v ->
  o + c + v == sum_at j (map snd l).
Proof.
  induction l as [|[sp b] l IH]; intros H j o c v HO HC HV.
  - inversion HO; inversion HC; inversion HV; subst. reflexivity.
  - destruct (H sp b (or_introl eq_refl)) as [K Lb].
    assert (entry n b j = nth j b 0%Q) as EN by (unfold entry; rewrite Lb, Nat.eqb_refl; reflexivity).
    assert (forall sp b, In (sp, b) l -> known_type sp /\ length b = n) as H' by (intros; apply H; now right).
    cbn [map snd sum_at].
    inversion HO; subst; inversion HC; subst; inversion HV; subst;
      try (match goal with A : begins ?x sp, B : begins ?y sp |- _ => pose proof (begins_diff _ _ _ A B); discriminate end).
    + match goal with A : sums "O" _ l j ?s, B : sums "C" _ l j ?s1, C : sums "V" _ l j ?s2 |- _ =>
        rewrite EN, <- (IH H' j s s1 s2 A B C) end. ring.
    + match goal with A : sums "O" _ l j ?s, B : sums "C" _ l j ?s1, C : sums "V" _ l j ?s2 |- _ =>
        rewrite EN, <- (IH H' j s s1 s2 A B C) end. ring.
    + match goal with A : sums "O" _ l j ?s, B : sums "C" _ l j ?s1, C : sums "V" _ l j ?s2 |- _ =>
        rewrite EN, <- (IH H' j s s1 s2 A B C) end. ring.
    + exfalso. destruct K as [K|[K|K]]; contradiction.
Qed.

Lemma combine_snd {A B} (a : list A) (b : list B) : length a = length b -> map snd (combine a b) = b.
Proof.
  revert b. induction a as [|x a IH]; intros [|y b] H; try discriminate; [reflexivity|].
  cbn. f_equal. apply IH. now injection H.
Qed.

Lemma merge_total n f m j : merge n f = Ok m -> length (c_types f) = length (c_coverages f) ->
  (forall sp, In sp (c_types f) -> known_type sp) -> (forall b, In b (c_coverages f) -> length b = n) ->
  (j < n)%nat -> nth j (m_O m) 0 + nth j (m_CO m) 0 + nth j (m_Vac m) 0 == sum_at j (c_coverages f).
Proof.
  intros H HL HK HB Hj. apply merge_value in H as ([_ HO] & [_ HC] & [_ HV]).
  destruct (HO j Hj) as (o & SO & EO). destruct (HC j Hj) as (c & SC & EC). destruct (HV j Hj) as (v & SV & EV).
  rewrite EO, EC, EV. rewrite <- (combine_snd (c_types f) (c_coverages f) HL) at 1.
  eapply sums_total; [|eassumption|eassumption|eassumption].
  intros sp b HI. split; [apply HK; eapply in_combine_l; eassumption|apply HB; eapply in_combine_r; eassumption].
Qed.

(** ** Collected coverages *)
Lemma at_index_iff {A} (l : list A) i x : at_index l i = Ok x <-> nth_error l i = Some x.
Proof. unfold at_index. destruct (nth_error l i); split; congruence. Qed.

Lemma last_coverage_iff f n x : last_coverage f n = Ok x <-> last_of_type f n x.
Proof.
  unfold last_coverage, last_of_type. split.
  - destruct (index_of n (c_types f)) as [i|] eqn:E; [|discriminate]. intro H. apply bindok in H as (l & A & B).
    apply at_index_iff in A. apply (proj1 (llast_iff l)) in B as [a ->].
    exists i, a. split; [now apply index_of_iff|assumption].
  - intros (i & l & A & B). apply index_of_iff in A. rewrite A. apply bindok. exists (l ++ [x]).
    split; [now apply at_index_iff|apply llast_app].
Qed.

Lemma sum_coverages_iff f names acc s : sum_coverages f names acc = Ok s <->
  exists xs, Forall2 (last_of_type f) names xs /\ s = fold_left Qplus xs acc.
Proof.
  revert acc. induction names as [|n names IH]; intro acc; cbn [sum_coverages].
  - split; [intro H; injection H as <-; exists []; auto|intros (xs & H & ->); inversion H; reflexivity].
  - rewrite bindok. split.
    + intros (x & A & B). apply last_coverage_iff in A. apply IH in B as (xs & F & ->). exists (x :: xs). auto.
    + intros (xs & F & ->). inversion F as [|? x ? xs' A B]; subst. exists x. split; [now apply last_coverage_iff|].
      apply IH. eauto.
Qed.
Lemma covers_iff f names s : sum_coverages f names 0%Q = Ok s <-> covers f names s.
Proof. apply sum_coverages_iff. Qed.

Lemma to_float_iff number s x : to_float number s = Ok x <-> number s = Some x.
Proof. unfold to_float. destruct (number s); split; congruence. Qed.

Lemma extract_cvgs_iff number dirs l : extract_cvgs number dirs = Ok l <->
  Forall2 (cvg_row number CO_names O_names) (present dirs) l.
Proof.
  revert l. induction dirs as [|[d [f|]] dirs IH]; intro l; cbn [extract_cvgs present].
  - split; [intro H; injection H as <-; constructor|inversion 1; reflexivity].
  - rewrite bindok. split.
    + intros (o & A & H). apply bindok in H as (co & B & H). apply bindok in H as (p & C & H).
      apply bindok in H as (rest & D & H). injection H as <-. constructor; [|now apply IH].
      split; [now apply to_float_iff in C|]. split; now apply covers_iff.
    + inversion 1 as [|? [[p co] o] ? rest (A & B & C) F]; subst. cbn [fst snd] in *.
      exists o. split; [now apply covers_iff|]. apply bindok. exists co. split; [now apply covers_iff|].
      apply bindok. exists p. split; [now apply to_float_iff|]. apply bindok. exists rest. split; [now apply IH|reflexivity].
  - apply IH.
Qed.

Lemma missing_type number dirs d f n : In (d, Some f) dirs -> In n (O_names ++ CO_names) -> ~ In n (c_types f) ->
  forall l, extract_cvgs number dirs <> Ok l.
Proof.
  intros HI HN HT l H. apply extract_cvgs_iff in H.
  assert (In (d, f) (present dirs)) as HP.
  { clear -HI. induction dirs as [|[d' [f'|]] dirs IH]; cbn [present]; [destruct HI| |].
    - destruct HI as [E|HI]; [left; congruence|right; auto].
    - destruct HI as [E|HI]; [discriminate|auto]. }
  assert (exists r, cvg_row number CO_names O_names (d, f) r) as [r (_ & A & B)].
  { clear -H HP. induction H as [|x y l l' R _ IH]; [destruct HP|]. destruct HP as [->|HP]; eauto. }
  assert (forall names s, covers f names s -> forall m, In m names -> In m (c_types f)) as X.
  { intros names s (xs & F & _) m Hm. clear -F Hm. induction F as [|a b x y R _ IH]; [destruct Hm|].
    destruct Hm as [->|Hm]; [|auto]. destruct R as (i & l & (u & v & E & _) & _). rewrite E.
    apply in_or_app. right. now left. }
  apply in_app_or in HN as [HN|HN]; apply HT; [exact (X _ _ B n HN)|exact (X _ _ A n HN)].
Qed.

(** ** Sorting *)
Lemma insert_Q_perm x l : Permutation (x :: l) (insert_Q x l).
Proof.
  induction l as [|y l IH]; cbn [insert_Q]; [reflexivity|]. destruct (Qle_bool x y); [reflexivity|].
  rewrite perm_swap. now constructor.
Qed.
Lemma sort_Q_perm l : Permutation l (sort_Q l).
Proof.
  induction l as [|x l IH]; [constructor|]. cbn [sort_Q fold_right]. fold (sort_Q l).
  rewrite <- insert_Q_perm. now constructor.
Qed.
Lemma insert_Q_sorted x l : StronglySorted Qle l -> StronglySorted Qle (insert_Q x l).
Proof.
  induction 1 as [|y l HS IH HF]; cbn [insert_Q]; [constructor; constructor|].
  destruct (Qle_bool x y) eqn:E.
  - apply Qle_bool_iff in E. constructor; [now constructor|]. constructor; [assumption|].
    rewrite Forall_forall in *. intros z Hz. eapply Qle_trans; [exact E|auto].
  - constructor; [assumption|]. rewrite Forall_forall in *. intros z Hz.
    apply (Permutation_in _ (Permutation_sym (insert_Q_perm x l))) in Hz as [<-|Hz]; [|auto].
    apply Qlt_le_weak. apply Qnot_le_lt. intro X. apply Qle_bool_iff in X. congruence.
Qed.
Lemma sort_Q_sorted l : StronglySorted Qle (sort_Q l).
Proof. induction l as [|x l IH]; [constructor|]. now apply insert_Q_sorted. Qed.

Lemma sorted_head x l y l' : StronglySorted Qle (x :: l) -> StronglySorted Qle (y :: l') ->
  Permutation (x :: l) (y :: l') -> x == y.
Proof.
  intros H H' P. inversion H as [|? ? _ F]; inversion H' as [|? ? _ F']; subst. rewrite Forall_forall in *.
  apply Qle_antisym.
  - assert (In y (x :: l)) as [->|HI] by (apply (Permutation_in _ (Permutation_sym P)); now left); [apply Qle_refl|auto].
  - assert (In x (y :: l')) as [->|HI] by (apply (Permutation_in _ P); now left); [apply Qle_refl|auto].
Qed.

(** Two sorted lists with the same elements agree up to equality of numbers; for the induction the
    elements are counted by value. *)
Definition count_le (q : Q) (l : list Q) : nat := length (filter (fun x => Qle_bool x q) l).
Lemma count_perm q l l' : Permutation l l' -> count_le q l = count_le q l'.
Proof.
  unfold count_le. induction 1; cbn [filter]; auto.
  - destruct (Qle_bool x q); cbn [length]; congruence.
  - destruct (Qle_bool x q), (Qle_bool y q); reflexivity.
  - congruence.
Qed.
Lemma sorted_unique l : forall l', StronglySorted Qle l -> StronglySorted Qle l' -> length l = length l' ->
  (forall q, count_le q l = count_le q l') -> Forall2 Qeq l l'.
Proof.
  induction l as [|x l IH]; intros [|y l'] H H' HL HC; try discriminate; [constructor|].
  inversion H as [|? ? HS F]; inversion H' as [|? ? HS' F']; subst. rewrite Forall_forall in *.
  assert (x == y) as E.
  { apply Qle_antisym.
    - assert (1 <= count_le y (x :: l))%nat as X.
      { rewrite HC. unfold count_le. cbn [filter]. rewrite (proj2 (Qle_bool_iff y y) (Qle_refl y)). cbn [length]. lia. }
      unfold count_le in X. destruct (filter (fun z => Qle_bool z y) (x :: l)) as [|z t] eqn:EF; [cbn in X; lia|].
      assert (In z (filter (fun z => Qle_bool z y) (x :: l))) as HZ by (rewrite EF; now left).
      apply filter_In in HZ as [HZ HQ]. apply Qle_bool_iff in HQ. destruct HZ as [->|HZ]; [assumption|].
      eapply Qle_trans; [apply F; exact HZ|assumption].
    - assert (1 <= count_le x (y :: l'))%nat as X.
      { rewrite <- HC. unfold count_le. cbn [filter]. rewrite (proj2 (Qle_bool_iff x x) (Qle_refl x)). cbn [length]. lia. }
      unfold count_le in X. destruct (filter (fun z => Qle_bool z x) (y :: l')) as [|z t] eqn:EF; [cbn in X; lia|].
      assert (In z (filter (fun z => Qle_bool z x) (y :: l'))) as HZ by (rewrite EF; now left).
      apply filter_In in HZ as [HZ HQ]. apply Qle_bool_iff in HQ. destruct HZ as [->|HZ]; [assumption|].
      eapply Qle_trans; [apply F'; exact HZ|assumption]. }
  constructor; [assumption|]. apply IH; auto. intro q. specialize (HC q). unfold count_le in *. cbn [filter] in HC.
  assert (Qle_bool x q = Qle_bool y q) as EB.
  { destruct (Qle_bool x q) eqn:A, (Qle_bool y q) eqn:B; auto.
    - apply Qle_bool_iff in A. rewrite E in A. apply Qle_bool_iff in A. congruence.
    - apply Qle_bool_iff in B. rewrite <- E in B. apply Qle_bool_iff in B. congruence. }
  rewrite EB in HC. destruct (Qle_bool y q); cbn [length] in HC; [now injection HC|assumption].
Qed.

Lemma map_nth_seq {A} (l : list A) d : map (fun i => nth i l d) (seq 0 (length l)) = l.
Proof.
  induction l as [|x l IH]; [reflexivity|]. cbn [length seq map nth]. f_equal.
  rewrite <- seq_shift, map_map. exact IH.
Qed.

Lemma sort_by_index p idx : orders p idx -> Forall2 Qeq (sort_Q p) (map (fun i => nth i p 0%Q) idx).
Proof.
  intros [HP HS].
  assert (Permutation (sort_Q p) (map (fun i => nth i p 0%Q) idx)) as P.
  { transitivity p; [symmetry; apply sort_Q_perm|]. rewrite <- (map_nth_seq p 0%Q) at 1. symmetry.
    now apply Permutation_map. }
  apply sorted_unique; [apply sort_Q_sorted|assumption|now apply Permutation_length|].
  intro q. now apply count_perm.
Qed.

Lemma in_order_ok argsort p values : orders p (argsort p) -> length values = length p ->
  in_order argsort p values = Ok (map (fun i => nth i values 0%Q) (argsort p)).
Proof.
  intros [HP _] HL. unfold in_order.
  assert (forall i, In i (argsort p) -> (i < length values)%nat) as HI.
  { intros i Hi. apply (Permutation_in _ HP) in Hi. apply in_seq in Hi. lia. }
  induction (argsort p) as [|i idx IH] in HI |- *; [reflexivity|]. cbn [mapM map].
  assert (at_index values i = Ok (nth i values 0%Q)) as ->.
  { apply at_index_iff. apply nth_error_nth'. apply HI. now left. }
  rewrite IH by (intros; apply HI; now right). reflexivity.
Qed.

Lemma sorted_cvgs_ok argsort l : (forall p, orders p (argsort p)) ->
  exists p co o idx, sorted_cvgs argsort l = Ok (p, co, o) /\
    Permutation idx (seq 0 (length l)) /\ StronglySorted Qle p /\
    Forall2 Qeq p (map (fun i => fst (fst (nth i l (0, 0, 0)%Q))) idx) /\
    co = map (fun i => snd (fst (nth i l (0, 0, 0)%Q))) idx /\
    o = map (fun i => snd (nth i l (0, 0, 0)%Q)) idx.
Proof.
  intro HA. set (p0 := map (fun x : Q * Q * Q => fst (fst x)) l).
  assert (length p0 = length l) as HL by apply map_length. pose proof (HA p0) as HO.
  exists (sort_Q p0), (map (fun i => nth i (map (fun x => snd (fst x)) l) 0%Q) (argsort p0)),
    (map (fun i => nth i (map snd l) 0%Q) (argsort p0)), (argsort p0).
  split; [|split; [|split; [|split; [|split]]]].
  - unfold sorted_cvgs. fold p0. rewrite !(in_order_ok argsort p0) by (assumption || now rewrite map_length). reflexivity.
  - rewrite <- HL. apply HO.
  - apply sort_Q_sorted.
  - pose proof (sort_by_index p0 _ HO) as X. erewrite map_ext in X; [exact X|].
    intro i. apply (map_nth (fun x : Q * Q * Q => fst (fst x)) l (0, 0, 0)%Q i).
  - apply map_ext. intro i. apply (map_nth (fun x : Q * Q * Q => snd (fst x)) l (0, 0, 0)%Q i).
  - apply map_ext. intro i. apply (map_nth (@snd (Q * Q) Q) l (0, 0, 0)%Q i).
Qed.

Lemma sorted_tofs_ok argsort l : (forall p, orders p (argsort p)) ->
  exists p t idx, sorted_tofs argsort l = Ok (p, t) /\
    Permutation idx (seq 0 (length l)) /\ StronglySorted Qle p /\
    Forall2 Qeq p (map (fun i => fst (nth i l (0, 0)%Q)) idx) /\
    t = map (fun i => snd (nth i l (0, 0)%Q)) idx.
Proof.
  intro HA. set (p0 := map (@fst Q Q) l).
  assert (length p0 = length l) as HL by apply map_length. pose proof (HA p0) as HO.
  exists (sort_Q p0), (map (fun i => nth i (map snd l) 0%Q) (argsort p0)), (argsort p0).
  split; [|split; [|split; [|split]]].
  - unfold sorted_tofs. fold p0. rewrite !(in_order_ok argsort p0) by (assumption || now rewrite map_length). reflexivity.
  - rewrite <- HL. apply HO.
  - apply sort_Q_sorted.
  - pose proof (sort_by_index p0 _ HO) as X. erewrite map_ext in X; [exact X|].
    intro i. apply (map_nth (@fst Q Q) l (0, 0)%Q i).
  - apply map_ext. intro i. apply (map_nth (@snd Q Q) l (0, 0)%Q i).
Qed.
