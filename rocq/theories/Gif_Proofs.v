From Coq Require Import String Ascii List ZArith Bool Arith QArith Lia Sorted.
Import ListNotations.
From Verif Require Import PyBase Gif_Model Gif_Spec.
Local Open Scope list_scope.

(** ** Sums of bytes *)
Lemma sumZ_nonneg l : Forall (fun z => 0 <= z)%Z l -> (0 <= sumZ l)%Z.
Proof. induction 1 as [|z l Hz _ IH]; cbn [sumZ fold_right]; [lia|]. fold (sumZ l). lia. Qed.

Lemma sumZ_zero l : Forall (fun z => 0 <= z)%Z l -> sumZ l = 0%Z <-> Forall (fun z => z = 0%Z) l.
Proof.
  induction 1 as [|z l Hz Hl IH]; [split; [constructor|reflexivity]|].
  cbn [sumZ fold_right]. fold (sumZ l). pose proof (sumZ_nonneg _ Hl). split.
  - intros E. constructor; [lia|]. apply IH. lia.
  - intros E. inversion E; subst. apply IH in H3. lia.
Qed.

Lemma map2_cons {A B C} (f : A -> B -> C) a l b m : map2 f (a :: l) (b :: m) = f a b :: map2 f l m.
Proof. reflexivity. Qed.

Lemma byte_diff a b : (0 <= a < 256)%Z -> (0 <= b < 256)%Z -> ((a - b) mod 256 = 0)%Z <-> a = b.
Proof.
  intros Ha Hb. split; [|intros ->; now rewrite Z.sub_diag].
  intros E. apply Z.mod_divide in E; [|lia]. destruct E as [k E]. assert (k = 0)%Z by lia. lia.
Qed.

Lemma pixel_diff_nonneg a b : (0 <= pixel_diff a b)%Z.
Proof.
  apply sumZ_nonneg. unfold map2. apply Forall_map, Forall_forall. intros [x y] _. cbn [fst snd].
  apply Z.mod_pos_bound. lia.
Qed.

Lemma pixel_diff_zero (a : pixel) : forall b, length a = length b ->
  Forall (fun z => (0 <= z < 256)%Z) a -> Forall (fun z => (0 <= z < 256)%Z) b -> pixel_diff a b = 0%Z <-> a = b.
Proof.
  induction a as [|x a IH]; intros [|y b] Hl Ha Hb; try discriminate Hl; [now split|].
  inversion Ha; subst. inversion Hb; subst. injection Hl as Hl. specialize (IH b Hl H2 H4).
  unfold pixel_diff in *. rewrite map2_cons. cbn [sumZ fold_right]. fold (sumZ (map2 (fun x y => ((x - y) mod 256)%Z) a b)).
  pose proof (pixel_diff_nonneg a b) as Hn. unfold pixel_diff in Hn.
  pose proof (Z.mod_pos_bound (x - y) 256 ltac:(lia)). pose proof (byte_diff x y H1 H3) as E.
  split.
  - intros S. f_equal; [apply E; lia|apply IH; lia].
  - intros [= -> ->]. rewrite (proj2 E eq_refl), (proj2 IH eq_refl). reflexivity.
Qed.

(** ** Positions *)
Lemma nth_error_map2 {A B C} (f : A -> B -> C) l : forall m i,
  nth_error (map2 f l m) i =
  match nth_error l i, nth_error m i with Some a, Some b => Some (f a b) | _, _ => None end.
Proof.
  induction l as [|a l IH]; intros [|b m] [|i]; cbn; try reflexivity.
  - now destruct (nth_error l i).
  - apply IH.
Qed.

Lemma map2_length {A B C} (f : A -> B -> C) l m : length l = length m -> length (map2 f l m) = length l.
Proof. intros E. unfold map2. rewrite map_length, combine_length. lia. Qed.

Lemma argwhere_from l : forall k i,
  In i (map fst (filter (fun iz : nat * Z => negb (snd iz =? 0)%Z) (combine (seq k (length l)) l))) <->
  exists j z, i = (k + j)%nat /\ nth_error l j = Some z /\ z <> 0%Z.
Proof.
  induction l as [|z l IH]; intros k i; cbn [length seq combine filter].
  - split; [now intros []|]. intros (j & z & _ & E & _). now destruct j.
  - cbn [snd]. destruct (z =? 0)%Z eqn:Ez; cbn [negb map fst In].
    + rewrite IH. apply Z.eqb_eq in Ez. split.
      * intros (j & z' & -> & E & N). exists (S j), z'. repeat split; [lia|exact E|exact N].
      * intros ([|j] & z' & -> & E & N); [cbn in E; congruence|]. exists j, z'. repeat split; [lia|exact E|exact N].
    + rewrite IH. apply Z.eqb_neq in Ez. split.
      * intros [<-|(j & z' & -> & E & N)].
        -- exists 0%nat, z. repeat split; [lia|exact Ez].
        -- exists (S j), z'. repeat split; [lia|exact E|exact N].
      * intros ([|j] & z' & -> & E & N); [left; lia|]. right. exists j, z'. repeat split; [lia|exact E|exact N].
Qed.

Lemma argwhere_in l i : In i (argwhere l) <-> exists z, nth_error l i = Some z /\ z <> 0%Z.
Proof.
  unfold argwhere. rewrite argwhere_from. split.
  - intros (j & z & -> & E & N). exists z. now split.
  - intros (z & E & N). exists i, z. now repeat split.
Qed.

Lemma argwhere_sorted_from l : forall k,
  StronglySorted lt (map fst (filter (fun iz : nat * Z => negb (snd iz =? 0)%Z) (combine (seq k (length l)) l))).
Proof.
  induction l as [|z l IH]; intros k; cbn [length seq combine filter]; [constructor|].
  cbn [snd]. destruct (z =? 0)%Z; cbn [negb map fst]; [apply IH|].
  constructor; [apply IH|]. apply Forall_forall. intros i Hi. apply argwhere_from in Hi.
  destruct Hi as (j & _ & -> & _). lia.
Qed.

Lemma last_max l : forall x, StronglySorted lt (x :: l) ->
  In (last l x) (x :: l) /\ forall i, In i (x :: l) -> (i <= last l x)%nat.
Proof.
  induction l as [|y l IH]; intros x Hs.
  - split; [now left|]. intros i [<-|[]]. apply le_n.
  - inversion Hs as [|? ? Hs' Hx]; subst. destruct (IH y Hs') as [I M].
    assert (E : last (y :: l) x = last l y).
    { clear. destruct l as [|z l]; [reflexivity|]. change (last (z :: l) x = last (z :: l) y).
      revert z. induction l as [|a l IH]; intros z; [reflexivity|]. exact (IH a). }
    rewrite E. split; [now right|]. intros i [<-|Hi]; [|exact (M i Hi)].
    inversion Hx; subst. specialize (M y (or_introl eq_refl)). lia.
Qed.

Lemma argwhere_ends l x xs : argwhere l = x :: xs ->
  In x (argwhere l) /\ In (last xs x) (argwhere l) /\ forall i, In i (argwhere l) -> (x <= i < S (last xs x))%nat.
Proof.
  intros E. pose proof (argwhere_sorted_from l 0) as Hs. fold (argwhere l) in Hs. rewrite E in *.
  destruct (last_max _ _ Hs) as [I M]. repeat split; [now left|exact I| |].
  - destruct H as [<-|H]; [apply le_n|]. inversion Hs as [|? ? _ Hx]; subst.
    rewrite Forall_forall in Hx. specialize (Hx _ H). lia.
  - specialize (M i H). lia.
Qed.

(** ** Pictures of the same shape *)
Section Shape.
Variables (w h c : nat) (im prev : image).
Hypothesis Him : picture w h c im.
Hypothesis Hprev : picture w h c prev.

Lemma picture_row v y row : picture w h c v -> nth_error v y = Some row ->
  length row = w /\ Forall (fun p : pixel => length p = c /\ Forall (fun z => (0 <= z < 256)%Z) p) row.
Proof.
  intros [_ F] E. rewrite Forall_forall in F. apply F. exact (nth_error_In _ _ E).
Qed.

Lemma picture_at v x y : picture w h c v ->
  (x < w /\ y < h /\ exists p, pixel_at v x y = Some p /\ length p = c /\ Forall (fun z => (0 <= z < 256)%Z) p)%nat \/
  (~ (x < w /\ y < h)%nat /\ pixel_at v x y = None).
Proof.
  intros Hv. pose proof Hv as [Hl _]. unfold pixel_at. destruct (nth_error v y) as [row|] eqn:E.
  - pose proof (picture_row v y row Hv E) as [Hw F].
    assert (y < h)%nat by (rewrite <- Hl; apply nth_error_Some; congruence).
    destruct (nth_error row x) as [p|] eqn:E'.
    + left. rewrite Forall_forall in F. specialize (F p (nth_error_In _ _ E')).
      split; [rewrite <- Hw; apply nth_error_Some; congruence|]. split; [assumption|]. exists p. tauto.
    + right. split; [|reflexivity]. apply nth_error_None in E'. lia.
  - right. split; [|reflexivity]. apply nth_error_None in E. lia.
Qed.

Lemma diff_length : length (diff im prev) = h.
Proof. unfold diff. destruct Him as [E1 _], Hprev as [E2 _]. rewrite map2_length; congruence. Qed.

(** An entry of the difference: zero exactly where the pictures agree. *)
Definition entry (y x : nat) : Z := nth x (nth y (diff im prev) []) 0%Z.

Lemma diff_row y : (y < h)%nat ->
  exists row, nth_error (diff im prev) y = Some row /\ length row = w /\
    forall x, (x < w)%nat -> exists z, nth_error row x = Some z /\ (0 <= z)%Z /\
      (z = 0%Z <-> pixel_at im x y = pixel_at prev x y).
Proof.
  intros Hy. pose proof Him as [E1 _]. pose proof Hprev as [E2 _].
  unfold diff. rewrite nth_error_map2.
  destruct (nth_error im y) as [r1|] eqn:R1; [|apply nth_error_None in R1; lia].
  destruct (nth_error prev y) as [r2|] eqn:R2; [|apply nth_error_None in R2; lia].
  pose proof (picture_row im y r1 Him R1) as [W1 F1]. pose proof (picture_row prev y r2 Hprev R2) as [W2 F2].
  exists (map2 pixel_diff r1 r2). split; [reflexivity|]. split; [rewrite map2_length; congruence|].
  intros x Hx. rewrite nth_error_map2. unfold pixel_at. rewrite R1, R2.
  destruct (nth_error r1 x) as [p|] eqn:P; [|apply nth_error_None in P; lia].
  destruct (nth_error r2 x) as [q|] eqn:Q; [|apply nth_error_None in Q; lia].
  rewrite Forall_forall in F1, F2. destruct (F1 p (nth_error_In _ _ P)) as [L1 B1].
  destruct (F2 q (nth_error_In _ _ Q)) as [L2 B2].
  exists (pixel_diff p q). split; [reflexivity|]. split; [apply pixel_diff_nonneg|].
  rewrite pixel_diff_zero by (assumption || congruence). split; [now intros ->|now intros [= ->]].
Qed.

Lemma differs_in x y : pixel_at im x y <> pixel_at prev x y -> (x < w /\ y < h)%nat.
Proof.
  intros N. destruct (picture_at im x y Him) as [(? & ? & _)|[O1 E1]]; [lia|].
  destruct (picture_at prev x y Hprev) as [(? & ? & _)|[O2 E2]]; [lia|]. congruence.
Qed.

Lemma width_diff : (0 < h)%nat -> width (diff im prev) = w.
Proof.
  intros Hh. destruct (diff_row 0 Hh) as (row & E & L & _). unfold width.
  destruct (diff im prev) as [|r t]; [discriminate E|]. cbn in E. congruence.
Qed.

Lemma rows_in y : In y (argwhere (row_sums (diff im prev))) <-> exists x, pixel_at im x y <> pixel_at prev x y.
Proof.
  rewrite argwhere_in. unfold row_sums. rewrite nth_error_map. destruct (Nat.lt_ge_cases y h) as [Hy|Hy].
  - destruct (diff_row y Hy) as (row & E & L & F). rewrite E. cbn [option_map].
    assert (Hn : Forall (fun z => 0 <= z)%Z row).
    { apply Forall_forall. intros z I. apply In_nth_error in I. destruct I as [x I].
      destruct (F x) as (z' & E' & P & _); [rewrite <- L; apply nth_error_Some; congruence|].
      rewrite I in E'. injection E' as ->. exact P. }
    split.
    + intros (z & [= <-] & N). rewrite sumZ_zero in N by exact Hn.
      apply neg_Forall_Exists_neg in N; [|intros z; exact (Z.eq_dec z 0)].
      apply Exists_exists in N. destruct N as (z & I & N). apply In_nth_error in I. destruct I as [x I].
      destruct (F x) as (z' & E' & _ & Q); [rewrite <- L; apply nth_error_Some; congruence|].
      rewrite I in E'. injection E' as <-. exists x. intros A. apply N, Q, A.
    + intros (x & N). eexists. split; [reflexivity|]. rewrite sumZ_zero by exact Hn. intros Z0.
      destruct (differs_in x y N) as [Hx _]. destruct (F x Hx) as (z & E' & _ & Q).
      rewrite Forall_forall in Z0. apply N, Q. apply Z0. exact (nth_error_In _ _ E').
  - replace (nth_error (diff im prev) y) with (@None (list Z)) by
      (symmetry; apply nth_error_None; rewrite diff_length; exact Hy).
    split; [intros (z & E & _); discriminate E|]. intros (x & N). apply differs_in in N. lia.
Qed.

Lemma cols_in x : In x (argwhere (col_sums (diff im prev))) <-> exists y, pixel_at im x y <> pixel_at prev x y.
Proof.
  rewrite argwhere_in. unfold col_sums. rewrite nth_error_map.
  destruct (Nat.eq_dec h 0) as [H0|H0].
  { split.
    - intros (z & E & N). replace (diff im prev) with (@nil (list Z)) in E.
      + cbn in E. now destruct x.
      + pose proof diff_length as D. destruct (diff im prev); [reflexivity|cbn in D; lia].
    - intros (y & N). apply differs_in in N. lia. }
  rewrite width_diff by lia. destruct (Nat.lt_ge_cases x w) as [Hx|Hx].
  - replace (nth_error (seq 0 w) x) with (Some x) by
      (symmetry; rewrite (nth_error_nth' _ 0%nat) by (rewrite seq_length; exact Hx); now rewrite seq_nth by exact Hx).
    cbn [option_map].
    assert (Hn : Forall (fun z => 0 <= z)%Z (map (fun row => nth x row 0%Z) (diff im prev))).
    { apply Forall_forall. intros z I. apply in_map_iff in I. destruct I as (row & <- & I).
      apply In_nth_error in I. destruct I as [y I].
      destruct (diff_row y) as (row' & E & L & F); [rewrite <- diff_length; apply nth_error_Some; congruence|].
      rewrite I in E. injection E as <-. destruct (F x Hx) as (z & E & P & _).
      now rewrite (nth_error_nth _ _ _ E). }
    split.
    + intros (z & [= <-] & N). rewrite sumZ_zero in N by exact Hn.
      apply neg_Forall_Exists_neg in N; [|intros z; exact (Z.eq_dec z 0)].
      apply Exists_exists in N. destruct N as (z & I & N). apply in_map_iff in I. destruct I as (row & <- & I).
      apply In_nth_error in I. destruct I as [y I]. exists y. intros A.
      destruct (diff_row y) as (row' & E & L & F); [rewrite <- diff_length; apply nth_error_Some; congruence|].
      rewrite I in E. injection E as <-. destruct (F x Hx) as (z & E & _ & Q).
      apply N. rewrite (nth_error_nth _ _ _ E). apply Q, A.
    + intros (y & N). eexists. split; [reflexivity|]. rewrite sumZ_zero by exact Hn. intros Z0.
      destruct (differs_in x y N) as [_ Hy]. destruct (diff_row y Hy) as (row & E & L & F).
      destruct (F x Hx) as (z & E' & _ & Q). rewrite Forall_forall in Z0. apply N, Q.
      rewrite <- (nth_error_nth _ _ 0%Z E'). apply Z0. apply in_map_iff. exists row. split; [reflexivity|].
      exact (nth_error_In _ _ E).
  - replace (nth_error (seq 0 w) x) with (@None nat) by
      (symmetry; apply nth_error_None; rewrite seq_length; exact Hx).
    split; [intros (z & E & _); discriminate E|]. intros (y & N). apply differs_in in N. lia.
Qed.

(** The rectangle is the smallest that covers the difference, if there is one. *)
Lemma rectangle_exact : smallest (rectangle im prev) im prev.
Proof.
  unfold smallest, rectangle.
  destruct (argwhere (col_sums (diff im prev))) as [|x xs] eqn:X.
  { left. split; [|reflexivity]. intros x y.
    destruct (list_eq_dec Nat.eq_dec [] []) as [_|n]; [|contradiction].
    destruct (pixel_at im x y) as [p|] eqn:P, (pixel_at prev x y) as [q|] eqn:Q; try reflexivity.
    - destruct (list_eq_dec Z.eq_dec p q) as [->|n]; [reflexivity|]. exfalso.
      assert (I : In x (argwhere (col_sums (diff im prev)))) by (apply cols_in; exists y; congruence).
      rewrite X in I. contradiction.
    - exfalso. assert (I : In x (argwhere (col_sums (diff im prev)))) by (apply cols_in; exists y; congruence).
      rewrite X in I. contradiction.
    - exfalso. assert (I : In x (argwhere (col_sums (diff im prev)))) by (apply cols_in; exists y; congruence).
      rewrite X in I. contradiction. }
  destruct (argwhere_ends _ _ _ X) as (Xf & Xl & Xb).
  destruct (argwhere (row_sums (diff im prev))) as [|y ys] eqn:Y.
  { exfalso. apply cols_in in Xf. destruct Xf as [y N].
    assert (I : In y (argwhere (row_sums (diff im prev)))) by (apply rows_in; exists x; exact N).
    rewrite Y in I. contradiction. }
  destruct (argwhere_ends _ _ _ Y) as (Yf & Yl & Yb).
  right. rewrite X in Xf. apply cols_in in Xl. rewrite <- X in Xf. apply cols_in in Xf.
  apply rows_in in Yf. apply rows_in in Yl. destruct Xf as [y1 Xf], Xl as [y2 Xl], Yf as [x1 Yf], Yl as [x2 Yl].
  split; [exists x, y1; exact Xf|]. split.
  - intros a b N. split; [apply Xb, cols_in; exists b; exact N|apply Yb, rows_in; exists a; exact N].
  - intros [[[a0 a1] b0] b1] C. cbn in C |- *. apply C in Xf, Xl, Yf, Yl. lia.
Qed.

Lemma rectangle_covers : covers (rectangle im prev) im prev.
Proof.
  destruct rectangle_exact as [[E ->]|(_ & C & _)]; [|exact C].
  intros x y N. now elim N.
Qed.
End Shape.

(** ** Cutting out *)
Lemma nth_error_slice {A} a b (l : list A) i :
  nth_error (slice a b l) i = if (i <? b - a)%nat then nth_error l (a + i) else None.
Proof.
  unfold slice. destruct (i <? b - a)%nat eqn:E.
  - apply Nat.ltb_lt in E. rewrite <- (firstn_skipn a l) at 2.
    destruct (Nat.le_gt_cases a (length l)) as [H|H].
    + rewrite nth_error_app2 by (rewrite firstn_length; lia). rewrite firstn_length.
      replace (a + i - Nat.min a (length l))%nat with i by lia.
      generalize (skipn a l). clear -E. revert i E. generalize (b - a)%nat. intros n. induction n as [|n IH]; intros i E m; [lia|].
      destruct m as [|x m]; [now destruct i|]. destruct i as [|i]; [reflexivity|]. cbn. apply IH. lia.
    + rewrite skipn_all2 by lia. rewrite firstn_nil, app_nil_r. rewrite (proj2 (nth_error_None _ _)) by (cbn; lia).
      symmetry. apply nth_error_None. rewrite firstn_length. lia.
  - apply Nat.ltb_ge in E. apply nth_error_None. rewrite firstn_length. lia.
Qed.

Lemma pixel_at_crop x0 x1 y0 y1 im x y :
  pixel_at (crop (x0, x1, y0, y1) im) x y =
  if ((x <? x1 - x0) && (y <? y1 - y0))%nat then pixel_at im (x0 + x) (y0 + y) else None.
Proof.
  unfold pixel_at, crop. rewrite nth_error_map, nth_error_slice.
  destruct (y <? y1 - y0)%nat; [|now rewrite andb_false_r]. rewrite andb_true_r.
  destruct (nth_error im (y0 + y)) as [row|]; cbn [option_map]; [|now destruct (x <? x1 - x0)%nat].
  apply nth_error_slice.
Qed.

Lemma crop_part x0 x1 y0 y1 im :
  part_of (x0, x1, y0, y1) im (crop (x0, x1, y0, y1) im) (x0, y0).
Proof.
  split; [reflexivity|]. intros x y. unfold piece_at. cbn [fst snd].
  destruct (x0 <=? x)%nat eqn:A; [|reflexivity].
  destruct (y0 <=? y)%nat eqn:B; [|cbn [andb]; now destruct (x <? x1)%nat].
  apply Nat.leb_le in A, B. cbn [andb]. rewrite andb_true_r, pixel_at_crop.
  replace (x0 + (x - x0))%nat with x by lia. replace (y0 + (y - y0))%nat with y by lia.
  assert (E1 : (x - x0 <? x1 - x0)%nat = (x <? x1)%nat) by
    (destruct (x <? x1)%nat eqn:X; [apply Nat.ltb_lt in X; apply Nat.ltb_lt; lia|apply Nat.ltb_ge in X; apply Nat.ltb_ge; lia]).
  assert (E2 : (y - y0 <? y1 - y0)%nat = (y <? y1)%nat) by
    (destruct (y <? y1)%nat eqn:X; [apply Nat.ltb_lt in X; apply Nat.ltb_lt; lia|apply Nat.ltb_ge in X; apply Nat.ltb_ge; lia]).
  now rewrite E1, E2.
Qed.

Lemma same_none w h c a b x y : picture w h c a -> picture w h c b ->
  pixel_at a x y = None <-> pixel_at b x y = None.
Proof.
  intros Ha Hb. destruct (picture_at w h c a x y Ha) as [(? & ? & p & E & _)|[N E]];
    destruct (picture_at w h c b x y Hb) as [(? & ? & q & E' & _)|[N' E']];
    rewrite E, E'; split; intros; congruence || tauto || (exfalso; tauto).
Qed.

Lemma part_paints w h c im prev r piece xy : picture w h c im -> picture w h c prev ->
  covers r im prev -> part_of r im piece xy ->
  forall s, exactly s prev -> exactly (paint s piece xy) im.
Proof.
  intros Hi Hp C P. destruct r as [[[x0 x1] y0] y1]. destruct P as [-> P]. intros s Hs x y.
  unfold paint. rewrite P, Hs. symmetry.
  destruct ((x0 <=? x) && (x <? x1) && (y0 <=? y) && (y <? y1))%nat eqn:E.
  - destruct (pixel_at im x y) as [p|] eqn:Q; [reflexivity|]. symmetry. now apply (same_none w h c im prev).
  - destruct (pixel_at im x y) as [p|] eqn:P1, (pixel_at prev x y) as [q|] eqn:P2; try reflexivity.
    + destruct (list_eq_dec Z.eq_dec p q) as [->|n]; [reflexivity|]. exfalso.
      assert (N : pixel_at im x y <> pixel_at prev x y) by congruence. apply C in N.
      rewrite !andb_false_iff, !Nat.leb_gt, !Nat.ltb_ge in E. lia.
    + rewrite (proj2 (same_none w h c im prev x y Hi Hp) P2) in P1. discriminate.
    + rewrite (proj1 (same_none w h c im prev x y Hi Hp) P1) in P2. discriminate.
Qed.

Lemma list_eqb_refl_on {A} (f : A -> A -> bool) (a : list A) : forall b, length a = length b ->
  (forall x y, In x a -> In y b -> f x y = true) -> list_eqb f a b = true.
Proof.
  intros b E H. unfold list_eqb. rewrite E, Nat.eqb_refl. cbn [andb]. apply forallb_forall.
  intros [x y] I. cbn [fst snd]. apply H; [exact (in_combine_l _ _ _ _ I)|exact (in_combine_r _ _ _ _ I)].
Qed.

Lemma same_shape_pictures w h c a b : picture w h c a -> picture w h c b -> same_shape a b = true.
Proof.
  intros [La Fa] [Lb Fb]. rewrite Forall_forall in Fa, Fb. apply list_eqb_refl_on; [congruence|].
  intros r1 r2 I1 I2. destruct (Fa _ I1) as [W1 P1], (Fb _ I2) as [W2 P2]. rewrite Forall_forall in P1, P2.
  apply list_eqb_refl_on; [congruence|]. intros p q J1 J2. destruct (P1 _ J1) as [<- _], (P2 _ J2) as [E _].
  now rewrite E, Nat.eqb_refl.
Qed.

Lemma sub_loop_updates w h c ims : forall prev, picture w h c prev -> Forall (picture w h c) ims ->
  exists l, sub_loop prev ims = Ok l /\ updates prev ims l.
Proof.
  induction ims as [|im t IH]; intros prev Hp F; [exists []; split; [reflexivity|constructor]|].
  inversion F as [|? ? Hi Ht]; subst. destruct (IH im Hi Ht) as (l & E & C). cbn [sub_loop].
  rewrite (same_shape_pictures w h c im prev Hi Hp).
  pose proof (rectangle_exact w h c im prev Hi Hp) as R.
  destruct (rectangle im prev) as [[[x0 x1] y0] y1]. rewrite E. cbn [bind].
  eexists. split; [reflexivity|]. exact (updates_cons _ _ _ _ _ _ _ R (crop_part _ _ _ _ _) C).
Qed.

Lemma smallest_covers r im prev : smallest r im prev -> covers r im prev.
Proof.
  intros [[E ->]|(_ & C & _)]; [|exact C]. intros x y N. now elim N.
Qed.

Lemma updates_play w h c ims : forall prev l s, picture w h c prev -> Forall (picture w h c) ims ->
  updates prev ims l -> exactly s prev -> Forall2 exactly (left_in_place s l) ims.
Proof.
  induction ims as [|im t IH]; intros prev l s Hp F C Hs; inversion C; subst; [constructor|].
  inversion F as [|? ? Hi Ht]; subst. cbn [left_in_place].
  assert (E : exactly (paint s piece xy) im) by
    (apply (part_paints w h c im prev r); auto using smallest_covers).
  constructor; [exact E|]. apply (IH im rest _ Hi Ht); assumption.
Qed.

Lemma paint_first im : exactly (paint blank im (0, 0)%nat) im.
Proof.
  intros x y. unfold paint, piece_at. cbn [fst snd Nat.leb andb]. rewrite !Nat.sub_0_r.
  now destruct (pixel_at im x y).
Qed.

Lemma sub_rectangles_cons im t : sub_rectangles (im :: t) =
  do rest <- sub_loop im t; Ok ((im, (0, 0)%nat) :: rest).
Proof. destruct t; reflexivity. Qed.

Lemma sub_rectangles_cut w h c im t : Forall (picture w h c) (im :: t) ->
  exists l, sub_rectangles (im :: t) = Ok ((im, (0, 0)%nat) :: l) /\ updates im t l.
Proof.
  intros F. inversion F as [|? ? Hi Ht]; subst. destruct (sub_loop_updates w h c t im Hi Ht) as (l & E & C).
  rewrite sub_rectangles_cons, E. exists l. now split.
Qed.

Lemma updates_length prev ims l : updates prev ims l -> length l = length ims.
Proof. induction 1; cbn; congruence. Qed.

Lemma sub_rectangles_play w h c ims : Forall (picture w h c) ims ->
  exists l, sub_rectangles ims = Ok l /\ length l = length ims /\ Forall2 exactly (left_in_place blank l) ims.
Proof.
  intros F. destruct ims as [|im t]; [exists []; repeat split; constructor|].
  destruct (sub_rectangles_cut w h c im t F) as (l & E & C). inversion F as [|? ? Hi Ht]; subst.
  eexists. split; [exact E|]. split; [cbn; f_equal; exact (updates_length _ _ _ C)|].
  cbn [left_in_place]. constructor; [apply paint_first|].
  exact (updates_play w h c t im l _ Hi Ht C (paint_first im)).
Qed.

(** ** Transparent colours *)
Lemma opaque_same l : forall s s' ims, (forall x y, s x y = s' x y) ->
  Forall2 exactly (left_in_place s l) ims -> Forall opaque ims ->
  Forall2 exactly (left_in_place_clear s' l) ims.
Proof.
  induction l as [|[piece xy] t IH]; intros s s' ims E F O; cbn [left_in_place left_in_place_clear] in *.
  { inversion F; constructor. }
  inversion F as [|? im ? ims' Hi Ht]; subst. inversion O as [|? ? Oi Ot]; subst.
  assert (P : forall x y, paint s piece xy x y = paint_clear s' piece xy x y).
  { intros x y. specialize (Hi x y). unfold paint, paint_clear in *.
    destruct (piece_at piece xy x y) as [p|]; [|apply E]. symmetry in Hi. now rewrite (Oi _ _ _ Hi). }
  constructor; [intros x y; rewrite <- P; apply Hi|]. exact (IH _ _ _ P Ht Ot).
Qed.

Lemma exactly_opaque s im : opaque im -> exactly s im -> exactly_clear s im.
Proof.
  intros O E x y. rewrite E. destruct (pixel_at im x y) as [p|] eqn:P; [|reflexivity]. now rewrite (O _ _ _ P).
Qed.

Lemma sub_rectangles_play_opaque w h c ims : Forall (picture w h c) ims -> Forall opaque ims ->
  exists l, sub_rectangles ims = Ok l /\ Forall2 exactly_clear (left_in_place_clear blank l) ims.
Proof.
  intros F O. destruct (sub_rectangles_play w h c ims F) as (l & E & _ & P). exists l. split; [exact E|].
  pose proof (opaque_same l blank blank ims (fun _ _ => eq_refl) P O) as Q. clear -Q O.
  revert O. induction Q; intros O; [constructor|]. inversion O; subst. constructor; [now apply exactly_opaque|auto].
Qed.

(** ** Checking arrays *)
Lemma trunc_bounds (x : Q) : (0 <= x)%Q -> (inject_Z (trunc x) <= x < inject_Z (trunc x + 1))%Q.
Proof.
  intros H. destruct x as [n d]. unfold trunc, Qle, Qlt, inject_Z in *. cbn in *.
  assert (0 <= n)%Z by lia. rewrite Z.quot_div_nonneg by lia.
  pose proof (Z.mul_div_le n (Z.pos d) ltac:(lia)). pose proof (Z.mul_succ_div_gt n (Z.pos d) ltac:(lia)). lia.
Qed.

Lemma trunc_unique x z : (0 <= x)%Q -> (inject_Z z <= x < inject_Z (z + 1))%Q -> trunc x = z.
Proof.
  intros H [A B]. destruct (trunc_bounds x H) as [C D].
  assert (inject_Z z < inject_Z (trunc x + 1))%Q by (eapply Qle_lt_trans; eassumption).
  assert (inject_Z (trunc x) < inject_Z (z + 1))%Q by (eapply Qle_lt_trans; eassumption).
  rewrite <- Zlt_Qlt in H0, H1. lia.
Qed.

Lemma float_byte x : (0 <= x <= 1)%Q -> (0 <= entry_of KFloat x < 256)%Z /\
  (inject_Z (entry_of KFloat x) <= x * 255 < inject_Z (entry_of KFloat x + 1))%Q.
Proof.
  intros [A B]. unfold entry_of. rewrite (proj2 (Qle_bool_iff 0 x) A), (proj2 (Qle_bool_iff x 1) B).
  assert (P : (0 <= x * 255)%Q) by (apply Qmult_le_0_compat; [exact A|discriminate]).
  pose proof (trunc_bounds _ P) as [C D]. split; [|split; assumption].
  assert (M : (x * 255 <= inject_Z 255)%Q).
  { setoid_replace (inject_Z 255) with (1 * 255)%Q by reflexivity. apply Qmult_le_compat_r; [exact B|discriminate]. }
  assert (inject_Z (trunc (x * 255)) <= inject_Z 255)%Q by (eapply Qle_trans; eassumption).
  assert (inject_Z 0 < inject_Z (trunc (x * 255) + 1))%Q by (eapply Qle_lt_trans; [exact P|exact D]).
  rewrite <- Zle_Qle in H. rewrite <- Zlt_Qlt in H0. lia.
Qed.

Lemma float_low x : (x < 0)%Q -> entry_of KFloat x = 0%Z.
Proof.
  intros A. unfold entry_of. destruct (Qle_bool 0 x) eqn:E; [|reflexivity].
  apply Qle_bool_iff in E. exfalso. exact (Qlt_not_le _ _ A E).
Qed.

Lemma float_high x : (1 < x)%Q -> entry_of KFloat x = 255%Z.
Proof.
  intros A. unfold entry_of. assert (0 <= x)%Q by (apply Qlt_le_weak; eapply Qlt_trans; [|exact A]; reflexivity).
  rewrite (proj2 (Qle_bool_iff 0 x) H). destruct (Qle_bool x 1) eqn:E; [|reflexivity].
  apply Qle_bool_iff in E. exfalso. exact (Qlt_not_le _ _ A E).
Qed.

Lemma float_range x : (0 <= entry_of KFloat x < 256)%Z.
Proof.
  destruct (Qlt_le_dec x 0) as [H|H]; [rewrite float_low by exact H; lia|].
  destruct (Qlt_le_dec 1 x) as [G|G]; [rewrite float_high by exact G; lia|]. apply float_byte. now split.
Qed.

Lemma trunc_inject z : trunc (inject_Z z) = z.
Proof. unfold trunc, inject_Z. cbn [Qnum Qden]. apply Z.quot_1_r. Qed.
