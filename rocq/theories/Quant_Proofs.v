(** Proofs about the colour quantizer: single steps (C96). *)
From Coq Require Import String Ascii List ZArith QArith Qabs Qround Bool Permutation Sorted Lia Lqa Znumtheory.
Import ListNotations.
From Verif Require Import PyBase PyBaseFacts Script_Model Quant_Model Quant_Spec.
Local Open Scope list_scope.
Local Open Scope Z_scope.

(** ** Lists *)
Lemma alter_length {A} (l : list A) i f : length (alter l i f) = length l.
Proof. revert i. induction l as [|x t IH]; intros [|i]; cbn; auto. Qed.
Lemma nth_error_alter {A} (l : list A) i f k :
  nth_error (alter l i f) k = if (k =? i)%nat then option_map f (nth_error l k) else nth_error l k.
Proof.
  revert i k. induction l as [|x t IH]; intros i k.
  - destruct k; cbn [alter nth_error option_map]; match goal with |- context [if ?b then _ else _] => destruct b end;
      reflexivity.
  - destruct i as [|i], k as [|k]; cbn; auto.
Qed.
Lemma nth_error_ext {A} (l m : list A) : (forall k, nth_error l k = nth_error m k) -> l = m.
Proof.
  revert m. induction l as [|x t IH]; intros [|y m] H; auto.
  - now specialize (H 0%nat).
  - now specialize (H 0%nat).
  - pose proof (H 0%nat) as E. cbn in E. injection E as ->. f_equal. apply IH. intro k. exact (H (S k)).
Qed.
Lemma Forall_alter {A} (P : A -> Prop) l i f : Forall P l -> (forall x, P x -> P (f x)) -> Forall P (alter l i f).
Proof.
  intros F H. revert i. induction F as [|x t Hx F IH]; intros [|i]; cbn; auto.
Qed.
Lemma skipn_alter {A} (l : list A) k i f : (k <= i)%nat -> skipn k (alter l i f) = alter (skipn k l) (i - k) f.
Proof.
  revert k i. induction l as [|x t IH]; intros k i H.
  - rewrite !skipn_nil. reflexivity.
  - destruct k as [|k]; [now rewrite Nat.sub_0_r|]. destruct i as [|i]; [lia|]. cbn. apply IH. lia.
Qed.
Lemma firstn_alter {A} (l : list A) k i f : (k <= i)%nat -> firstn k (alter l i f) = firstn k l.
Proof.
  revert k i. induction l as [|x t IH]; intros k i H; auto.
  destruct k as [|k]; auto. destruct i as [|i]; [lia|]. cbn. f_equal. apply IH. lia.
Qed.
Lemma nth_error_firstn_lt {A} (l : list A) n k : (k < n)%nat -> nth_error (firstn n l) k = nth_error l k.
Proof.
  revert n k. induction l as [|x t IH]; intros [|n] [|k] H; cbn; auto; try lia. apply IH. lia.
Qed.
Lemma nth_error_skipn_add {A} (l : list A) n k : nth_error (skipn n l) k = nth_error l (n + k).
Proof. revert n. induction l as [|x t IH]; intros [|n]; cbn; auto. now destruct k. Qed.

(** ** The least entry *)
Lemma argmin_from_spec pre best at_ l :
  nth_error pre at_ = Some best -> (at_ < length pre)%nat ->
  (forall k y, nth_error pre k = Some y -> (best <= y)%Q) ->
  (forall k y, (k < at_)%nat -> nth_error pre k = Some y -> (best < y)%Q) ->
  first_least (pre ++ l) (argmin_from best at_ (length pre) l).
Proof.
  revert pre best at_. induction l as [|x t IH]; intros pre best at_ E L A B; cbn.
  - rewrite app_nil_r. exists best. auto.
  - replace (pre ++ x :: t) with ((pre ++ [x]) ++ t) by now rewrite <- app_assoc.
    replace (S (length pre)) with (length (pre ++ [x])) by (rewrite app_length; cbn; lia).
    destruct (Qle_bool best x) eqn:Q.
    + apply Qle_bool_iff in Q. apply IH.
      * rewrite nth_error_app1; auto.
      * rewrite app_length. cbn. lia.
      * intros k y H. destruct (Nat.lt_ge_cases k (length pre)) as [K|K].
        -- rewrite nth_error_app1 in H by auto. eauto.
        -- rewrite nth_error_app2 in H by auto. destruct (k - length pre)%nat as [|[|j]]; cbn in H; try discriminate.
           now injection H as <-.
      * intros k y K H. rewrite nth_error_app1 in H by lia. eauto.
    + assert (Q' : (x < best)%Q).
      { apply Qnot_le_lt. intro H. apply Qle_bool_iff in H. congruence. }
      apply IH.
      * rewrite nth_error_app2, Nat.sub_diag by auto. reflexivity.
      * rewrite app_length. cbn. lia.
      * intros k y H. destruct (Nat.lt_ge_cases k (length pre)) as [K|K].
        -- rewrite nth_error_app1 in H by auto. apply A in H. lra.
        -- rewrite nth_error_app2 in H by auto. destruct (k - length pre)%nat as [|[|j]]; cbn in H; try discriminate.
           injection H as <-. lra.
      * intros k y K H. rewrite nth_error_app1 in H by lia. apply A in H. lra.
Qed.
Lemma argmin_ok l : l <> [] -> exists i, argmin l = Ok i /\ first_least l i.
Proof.
  destruct l as [|x t]; [easy|]. intros _. eexists. split; [reflexivity|].
  apply (argmin_from_spec [x] x 0%nat t); cbn; auto; try lia.
  - intros [|[|k]] y H; try discriminate. injection H as <-. lra.
Qed.
Lemma first_least_unique l i j : first_least l i -> first_least l j -> i = j.
Proof.
  intros (x & A & B & D) (y & A' & B' & D').
  destruct (Nat.lt_trichotomy i j) as [H|[H|H]]; auto.
  - pose proof (D' _ _ H A). pose proof (B _ _ A'). lra.
  - pose proof (D _ _ H A'). pose proof (B' _ _ A). lra.
Qed.
Lemma argmin_iff l i : argmin l = Ok i <-> first_least l i.
Proof.
  destruct l as [|x t].
  - split; [discriminate|]. intros (x & A & _). now destruct i.
  - destruct (argmin_ok (x :: t)) as (j & E & F); [easy|]. rewrite E. split.
    + now intros [= <-].
    + intro H. f_equal. eauto using first_least_unique.
Qed.
Lemma first_least_length l i : first_least l i -> (i < length l)%nat.
Proof. intros (x & A & _). apply nth_error_Some. congruence. Qed.

(** ** Colours *)
Lemma toward_part a x y : (toward a x y == (1 - a) * x + a * y)%Q.
Proof. unfold toward. ring. Qed.
Lemma move_part a n c : same_color (move a n c) (part_way a n c).
Proof.
  destruct n as ((n0 & n1) & n2), c as ((c0 & c1) & c2). cbn.
  repeat split; apply toward_part.
Qed.
Lemma toward_inside a x y : (0 <= a <= 1)%Q -> inside x -> inside y -> inside (toward a x y).
Proof.
  intros (A & B) (X & X') (Y & Y'). unfold inside. rewrite toward_part. split.
  - assert (0 <= (1 - a) * x)%Q by (apply Qmult_le_0_compat; lra).
    assert (0 <= a * y)%Q by (apply Qmult_le_0_compat; lra). lra.
  - assert (0 <= (1 - a) * (255 - x))%Q by (apply Qmult_le_0_compat; lra).
    assert (0 <= a * (255 - y))%Q by (apply Qmult_le_0_compat; lra). lra.
Qed.
Lemma move_visible a n c : (0 <= a <= 1)%Q -> visible_color n -> visible_color c -> visible_color (move a n c).
Proof.
  destruct n as ((n0 & n1) & n2), c as ((c0 & c1) & c2). cbn.
  intros A (X & Y & Z) (X' & Y' & Z'). repeat split; apply toward_inside; auto.
Qed.
Lemma byte_inside p k : inside (byte_of p k).
Proof.
  unfold byte_of, inside. change 0%Q with (inject_Z 0). change 255%Q with (inject_Z 255). rewrite <- !Zle_Qle.
  assert (E : Z.land (Z.shiftr p k) 255 = Z.shiftr p k mod 256) by (apply (Z.land_ones _ 8); lia).
  rewrite E. pose proof (Z.mod_pos_bound (Z.shiftr p k) 256). lia.
Qed.
Lemma color_of_visible p : visible_color (color_of p).
Proof. cbn. auto using byte_inside. Qed.
Lemma same_color_refl c : same_color c c.
Proof. destruct c as ((x & y) & z). cbn. repeat split; reflexivity. Qed.

(** ** The neighbours *)
Lemma geta_length alpha rad : 1 <= rad -> Z.of_nat (length (geta alpha rad)) = 2 * rad - 1.
Proof.
  intro H. unfold geta. rewrite alter_length, map_length, app_length, map_length, rev_length, seq_length.
  cbn [length]. rewrite map_length, seq_length.
  replace (rad * 2 - 1) with (1 + (rad - 1) * 2) by lia. rewrite Z.div_add by lia. change (1 / 2) with 0. lia.
Qed.
Lemma nth_error_seq0 n k : (k < n)%nat -> nth_error (seq 0 n) k = Some k.
Proof.
  intro H. rewrite (nth_error_nth' (seq 0 n) 0%nat) by now rewrite seq_length. now rewrite seq_nth.
Qed.
Lemma nth_error_rev_seq n k : (k < n)%nat -> nth_error (rev (seq 0 n)) k = Some (n - 1 - k)%nat.
Proof.
  intro H. rewrite (nth_error_nth' (rev (seq 0 n)) 0%nat) by now rewrite rev_length, seq_length.
  rewrite rev_nth by now rewrite seq_length. rewrite seq_length, seq_nth by lia. f_equal. lia.
Qed.
Lemma geta_nth alpha rad k : 1 <= rad -> Z.of_nat k < 2 * rad - 1 ->
  exists x, nth_error (geta alpha rad) k = Some x /\ (x == influence alpha rad (Z.abs (Z.of_nat k - (rad - 1))))%Q.
Proof.
  intros H K. unfold geta. replace (rad * 2 - 1) with (1 + (rad - 1) * 2) by lia. rewrite Z.div_add by lia.
  change (1 / 2) with 0. rewrite Z.add_0_l. set (mid := Z.to_nat (rad - 1)).
  assert (M : Z.of_nat mid = rad - 1) by lia.
  rewrite nth_error_alter, nth_error_map. destruct (Nat.eqb_spec k mid) as [->|N].
  - rewrite nth_error_app2 by (rewrite map_length, rev_length, seq_length; lia).
    rewrite map_length, rev_length, seq_length, Nat.sub_diag. cbn. eexists. split; [reflexivity|].
    rewrite M, Z.sub_diag. reflexivity.
  - assert (P : forall x, 0 <= x -> x = Z.abs (Z.of_nat k - (rad - 1)) - 1 ->
       (alpha * inject_Z (rad * rad - x * x) / inject_Z (rad * rad) ==
        influence alpha rad (Z.abs (Z.of_nat k - (rad - 1))))%Q).
    { intros x X E. unfold influence.
      destruct (Z.eqb_spec (Z.abs (Z.of_nat k - (rad - 1))) 0); [lia|].
      destruct (Z.leb_spec rad (Z.abs (Z.of_nat k - (rad - 1)))); [lia|]. cbn [orb]. rewrite <- E.
      assert (R : ~ inject_Z (rad * rad) == 0%Q).
      { clear - H. intro Q. unfold Qeq in Q. cbn in Q. nia. }
      unfold Z.sub. rewrite inject_Z_plus, inject_Z_opp. field. exact R. }
    destruct (Nat.lt_ge_cases k mid) as [L|L].
    + rewrite nth_error_app1 by (rewrite map_length, rev_length, seq_length; lia).
      rewrite nth_error_map, nth_error_rev_seq by auto. cbn [option_map]. eexists. split; [reflexivity|].
      apply P; lia.
    + rewrite nth_error_app2 by (rewrite map_length, rev_length, seq_length; lia).
      rewrite map_length, rev_length, seq_length. destruct (k - mid)%nat as [|m] eqn:E; [lia|].
      cbn [nth_error]. rewrite nth_error_map, nth_error_seq0 by lia. cbn [option_map]. eexists. split; [reflexivity|].
      apply P; lia.
Qed.
Lemma influence_bounds alpha rad d : (0 <= alpha <= 1)%Q -> 0 <= d -> (0 <= influence alpha rad d <= 1)%Q.
Proof.
  intros (A & B) D. unfold influence. destruct (Z.eqb_spec d 0); [cbn; split; lra|].
  destruct (Z.leb_spec rad d); [cbn; split; lra|]. cbn [orb].
  assert (R : (0 < inject_Z (rad * rad))%Q) by (change 0%Q with (inject_Z 0); rewrite <- Zlt_Qlt; nia).
  assert (X : (0 <= inject_Z ((d - 1) * (d - 1)) / inject_Z (rad * rad))%Q).
  { apply Qle_shift_div_l; auto. rewrite Qmult_0_l. change 0%Q with (inject_Z 0). rewrite <- Zle_Qle. nia. }
  assert (Y : (inject_Z ((d - 1) * (d - 1)) / inject_Z (rad * rad) <= 1)%Q).
  { apply Qle_shift_div_r; auto. rewrite Qmult_1_l, <- Zle_Qle. nia. }
  set (q := (inject_Z ((d - 1) * (d - 1)) / inject_Z (rad * rad))%Q) in *. split.
  - apply Qmult_le_0_compat; lra.
  - assert (0 <= (1 - alpha) * (1 - q))%Q by (apply Qmult_le_0_compat; lra).
    assert (alpha * (1 - q) == (1 - q) - (1 - alpha) * (1 - q))%Q by ring. lra.
Qed.

Lemma place_in n x : 0 <= x <= Z.of_nat n -> place n x = Z.to_nat x.
Proof. intro H. unfold place. destruct (Z.ltb_spec x 0); [lia|]. f_equal. lia. Qed.
Lemma nth_error_sub {A} (l : list A) a b k :
  0 <= a <= b -> b <= Z.of_nat (length l) -> Z.of_nat k < b - a -> nth_error (sub l a b) k = nth_error l (Z.to_nat a + k).
Proof.
  intros H B K. unfold sub. rewrite !place_in by lia. rewrite nth_error_firstn_lt by lia. apply nth_error_skipn_add.
Qed.
Lemma sub_length {A} (l : list A) a b : 0 <= a <= b -> b <= Z.of_nat (length l) -> Z.of_nat (length (sub l a b)) = b - a.
Proof.
  intros H B. unfold sub. rewrite !place_in by lia. rewrite firstn_length, skipn_length. lia.
Qed.
Lemma sub_negative {A} (l : list A) a k : 0 < k <= Z.of_nat (length l) -> sub l a (- k) = sub l a (Z.of_nat (length l) - k).
Proof.
  intro H. unfold sub. rewrite (place_in _ (Z.of_nat (length l) - k)) by lia.
  unfold place at 1. destruct (Z.ltb_spec (- k) 0); [|lia]. do 2 f_equal. lia.
Qed.

Lemma same_color_move a b n c : (a == b)%Q -> same_color (move a n c) (part_way b n c).
Proof.
  intro E. destruct n as ((n0 & n1) & n2), c as ((c0 & c1) & c2). cbn.
  repeat split; rewrite toward_part, E; reflexivity.
Qed.
Lemma same_color_stay b n c : (b == 0)%Q -> same_color n (part_way b n c).
Proof.
  intro E. destruct n as ((n0 & n1) & n2), c as ((c0 & c1) & c2). cbn. repeat split; rewrite E; ring.
Qed.
Lemma combine_nth {A B} (a : list A) (b : list B) k :
  nth_error (combine a b) k = match nth_error a k, nth_error b k with Some x, Some y => Some (x, y) | _, _ => None end.
Proof.
  revert b k. induction a as [|x a IH]; intros b k; cbn; [now destruct k|].
  destruct b as [|y b]; cbn; [destruct k; cbn; [reflexivity|now destruct (nth_error a k)]|].
  destruct k as [|k]; cbn; auto.
Qed.

(** The part of the array that is laid over the network between the places [lo1] and [hi]. *)
Lemma window {A B} (f : A -> B -> B) (l : list B) (a : list A) (lo1 hi : nat) :
  (lo1 <= hi <= length l)%nat -> length a = (hi - lo1)%nat ->
  let l' := firstn lo1 l ++ map (fun ap => f (fst ap) (snd ap)) (combine a (firstn (hi - lo1) (skipn lo1 l))) ++ skipn hi l in
  length l' = length l /\
  forall k, nth_error l' k =
    if ((lo1 <=? k) && (k <? hi))%nat
    then match nth_error a (k - lo1), nth_error l k with Some x, Some y => Some (f x y) | _, _ => None end
    else nth_error l k.
Proof.
  intros H L l'. assert (E : length (map (fun ap => f (fst ap) (snd ap)) (combine a (firstn (hi - lo1) (skipn lo1 l)))) = (hi - lo1)%nat).
  { rewrite map_length, combine_length, firstn_length, skipn_length, L. lia. }
  split.
  - unfold l'. rewrite !app_length, E, firstn_length, skipn_length. lia.
  - intro k. unfold l'.
    destruct (Nat.leb_spec lo1 k) as [K|K]; cbn [andb].
    + rewrite nth_error_app2; rewrite firstn_length_le by lia; [|lia].
      destruct (Nat.ltb_spec k hi) as [K'|K'].
      * rewrite nth_error_app1 by (rewrite E; lia). rewrite nth_error_map, combine_nth, nth_error_firstn_lt by lia.
        rewrite nth_error_skipn_add. replace (lo1 + (k - lo1))%nat with k by lia.
        destruct (nth_error a (k - lo1)), (nth_error l k); reflexivity.
      * rewrite nth_error_app2 by (rewrite E; lia). rewrite E, nth_error_skipn_add. f_equal. lia.
    + rewrite nth_error_app1 by (rewrite firstn_length_le; lia). apply nth_error_firstn_lt. lia.
Qed.

Lemma alterneigh_ok alpha rad i c s :
  1 <= rad -> 3 <= i < Z.of_nat (length (network s)) ->
  exists s', alterneigh alpha rad i c s = Ok s' /\ freq s' = freq s /\ bias s' = bias s /\
    length (network s') = length (network s) /\
    forall k n, nth_error (network s) k = Some n -> exists n', nth_error (network s') k = Some n' /\
      ((k < 3)%nat -> n' = n) /\
      ((3 <= k)%nat -> same_color n' (part_way (influence alpha rad (Z.abs (Z.of_nat k - i))) n c)) /\
      (n' = n \/ exists a, n' = move a n c /\ (a == influence alpha rad (Z.abs (Z.of_nat k - i)))%Q).
Proof.
  intros R I. unfold alterneigh. change (Z.of_nat SPECIALS) with 3. set (N := length (network s)) in *.
  pose proof (geta_length alpha rad R) as G.
  (* the window *)
  set (lo1 := Z.max (i - rad + 1) 3). set (hi := Z.min (i + rad) (Z.of_nat N)). set (st := lo1 - (i - rad + 1)).
  assert (E1 : (if 3 - 1 <=? i - rad then (i - rad, 0) else (3 - 1, 3 - 1 - (i - rad))) = (lo1 - 1, st)).
  { destruct (Z.leb_spec (3 - 1) (i - rad)); f_equal; lia. }
  rewrite E1. clear E1.
  assert (A : exists stop, (if i + rad <=? Z.of_nat N then (i + rad, rad * 2 - 1) else (Z.of_nat N, Z.of_nat N - (i + rad)))
      = (hi, stop) /\ sub (geta alpha rad) st stop = sub (geta alpha rad) st (st + (hi - lo1))).
  { destruct (Z.leb_spec (i + rad) (Z.of_nat N)); eexists; (split; [f_equal; lia|]).
    - f_equal. lia.
    - replace (Z.of_nat N - (i + rad)) with (- (i + rad - Z.of_nat N)) by lia.
      rewrite sub_negative by lia. f_equal. lia. }
  destruct A as (stop & -> & ->). replace (lo1 - 1 + 1) with lo1 by lia.
  assert (La : Z.of_nat (length (sub (geta alpha rad) st (st + (hi - lo1)))) = hi - lo1).
  { rewrite sub_length; lia. }
  assert (Lp : Z.of_nat (length (sub (network s) lo1 hi)) = hi - lo1) by (rewrite sub_length; fold N; lia).
  replace (length (sub (geta alpha rad) st (st + (hi - lo1))) =? length (sub (network s) lo1 hi))%nat with true
    by (symmetry; apply Nat.eqb_eq; lia).
  cbn [negb]. eexists. split; [reflexivity|]. cbn [with_network network freq bias].
  do 2 (split; [reflexivity|]).
  rewrite (place_in N lo1) by lia.
  replace (Z.to_nat lo1 + length (sub (network s) lo1 hi))%nat with (Z.to_nat hi) by lia.
  assert (Ep : sub (network s) lo1 hi = firstn (Z.to_nat hi - Z.to_nat lo1) (skipn (Z.to_nat lo1) (network s))).
  { unfold sub. now rewrite !place_in by (fold N; lia). }
  rewrite Ep.
  destruct (window (fun a n => move a n c) (network s) (sub (geta alpha rad) st (st + (hi - lo1))) (Z.to_nat lo1) (Z.to_nat hi))
    as (L & W); [fold N; lia|lia|].
  cbv zeta in L, W. split; [exact L|]. intros k n H. rewrite W, H.
  destruct (((Z.to_nat lo1 <=? k) && (k <? Z.to_nat hi))%nat) eqn:K.
  - apply andb_true_iff in K. destruct K as (K1 & K2). apply Nat.leb_le in K1. apply Nat.ltb_lt in K2.
    rewrite nth_error_sub by lia.
    destruct (geta_nth alpha rad (Z.to_nat st + (k - Z.to_nat lo1))) as (x & X & Y); [lia|lia|].
    rewrite X. eexists. split; [reflexivity|].
    replace (Z.of_nat (Z.to_nat st + (k - Z.to_nat lo1)) - (rad - 1)) with (Z.of_nat k - i) in Y by lia.
    split; [lia|]. split; [intros _; now apply same_color_move|]. right. eauto.
  - exists n. split; [reflexivity|]. split; [auto|]. split; [|now left]. intro K3.
    apply same_color_stay. unfold influence.
    assert (rad <= Z.abs (Z.of_nat k - i)).
    { apply andb_false_iff in K. destruct K as [K|K]; [apply Nat.leb_gt in K|apply Nat.ltb_ge in K].
      - lia.
      - assert (k < N)%nat by (apply nth_error_Some; congruence). lia. }
    destruct (Z.leb_spec rad (Z.abs (Z.of_nat k - i))); [|lia]. now rewrite orb_true_r.
Qed.

(** ** The contest *)
Lemma contest_ok c s :
  (3 < length (network s))%nat -> length (freq s) = length (network s) -> length (bias s) = length (network s) ->
  exists best k s',
    contest c s = Ok ((3 + k)%nat, s') /\
    first_least (map (fun n => apart n c) (skipn 3 (network s))) best /\
    first_least (map (fun nb => apart (fst nb) c - snd nb)%Q (combine (skipn 3 (network s)) (skipn 3 (bias s)))) k /\
    network s' = network s /\ length (freq s') = length (freq s) /\ length (bias s') = length (bias s) /\
    skipn 3 (freq s') = alter (map (fun f => f * (1 - BETA))%Q (skipn 3 (freq s))) best (fun f => f + BETA)%Q /\
    forall q f b, nth_error (freq s) q = Some f -> nth_error (bias s) q = Some b ->
      exists f' b', nth_error (freq s') q = Some f' /\ nth_error (bias s') q = Some b' /\
        if (q <? 3)%nat then f' = f /\ b' = b
        else (f' == (1 - (1 # 1024)) * f + (if (q =? 3 + best)%nat then 1 # 1024 else 0) /\
              b' == b + (1 - (1 # 1024)) * f - (if (q =? 3 + best)%nat then 1 else 0))%Q.
Proof.
  intros N F B. unfold contest. change SPECIALS with 3%nat.
  change (fun n => dist n c) with (fun n => apart n c).
  destruct (argmin_ok (map (fun n => apart n c) (skipn 3 (network s)))) as (best & E & Best).
  { intro H. apply (f_equal (@length Q)) in H. rewrite map_length, skipn_length in H. cbn in H. lia. }
  rewrite E. cbn [bind].
  assert (X : map (fun db => (fst db - snd db)%Q) (combine (map (fun n => apart n c) (skipn 3 (network s))) (skipn 3 (bias s)))
    = map (fun nb => (apart (fst nb) c - snd nb)%Q) (combine (skipn 3 (network s)) (skipn 3 (bias s)))).
  { generalize (skipn 3 (network s)) (skipn 3 (bias s)). induction l as [|x t IH]; intros [|y u]; cbn; auto. f_equal. apply IH. }
  rewrite X.
  destruct (argmin_ok (map (fun nb => (apart (fst nb) c - snd nb)%Q) (combine (skipn 3 (network s)) (skipn 3 (bias s)))))
    as (k & E' & K).
  { intro H. apply (f_equal (@length Q)) in H. rewrite map_length, combine_length, !skipn_length in H. cbn in H. lia. }
  rewrite E'. cbn [bind].
  set (freq1 := from_specials (map (fun f => (f * (1 - BETA))%Q)) (freq s)).
  set (bias1 := firstn 3 (bias s) ++ _).
  assert (Lf : length freq1 = length (freq s)).
  { unfold freq1, from_specials. change SPECIALS with 3%nat. rewrite app_length, map_length, firstn_length, skipn_length. lia. }
  assert (Sf : skipn 3 freq1 = map (fun f => (f * (1 - BETA))%Q) (skipn 3 (freq s))).
  { unfold freq1, from_specials. change SPECIALS with 3%nat. rewrite skipn_app, firstn_length_le by lia.
    rewrite skipn_all2 by (rewrite firstn_length; lia). now rewrite Nat.sub_diag. }
  assert (Lb : length bias1 = length (bias s)).
  { unfold bias1. rewrite app_length, map_length, combine_length, firstn_length, !skipn_length, Lf. lia. }
  eexists best, k, _. split; [reflexivity|]. cbn [network freq bias].
  do 3 (split; [auto|]). rewrite !alter_length. do 2 (split; [auto|]). split.
  - rewrite skipn_alter by lia. rewrite Sf. f_equal. lia.
  - intros q f b Hf Hb. rewrite !nth_error_alter.
    assert (NF : nth_error freq1 q = Some (if (q <? 3)%nat then f else f * (1 - BETA))%Q).
    { destruct (Nat.ltb_spec q 3) as [Q|Q].
      - unfold freq1, from_specials. change SPECIALS with 3%nat.
        rewrite nth_error_app1 by (rewrite firstn_length; lia). now rewrite nth_error_firstn_lt.
      - replace q with (3 + (q - 3))%nat by lia. rewrite <- nth_error_skipn_add, Sf, nth_error_map, nth_error_skipn_add.
        replace (3 + (q - 3))%nat with q by lia. now rewrite Hf. }
    assert (NB : nth_error bias1 q = Some (if (q <? 3)%nat then b else b + BETAGAMMA * (f * (1 - BETA)))%Q).
    { unfold bias1. destruct (Nat.ltb_spec q 3) as [Q|Q].
      - rewrite nth_error_app1 by (rewrite firstn_length; lia). now rewrite nth_error_firstn_lt.
      - rewrite nth_error_app2 by (rewrite firstn_length; lia). rewrite firstn_length_le by lia.
        rewrite nth_error_map, combine_nth, !nth_error_skipn_add.
        replace (3 + (q - 3))%nat with q by lia. rewrite Hb, NF.
        destruct (Nat.ltb_spec q 3); [lia|reflexivity]. }
    rewrite NF, NB. change SPECIALS with 3%nat in *.
    change (3 + best)%nat with (S (S (S best))) in *.
    destruct (Nat.eqb_spec q (S (S (S best)))) as [->|Q]; cbn [option_map].
    + destruct (Nat.ltb_spec (S (S (S best))) 3); [lia|]. do 2 eexists. split; [reflexivity|]. split; [reflexivity|].
      unfold BETAGAMMA, BETA, GAMMA. split; field.
    + do 2 eexists. split; [reflexivity|]. split; [reflexivity|].
      destruct (Nat.ltb_spec q 3); [auto|]. unfold BETAGAMMA, BETA, GAMMA. split; field.
Qed.

Lemma sum_map_scale a l : (sum (map (fun f => f * a)%Q l) == sum l * a)%Q.
Proof. unfold sum. induction l as [|x t IH]; cbn [map fold_right]; [ring|]. rewrite IH. ring. Qed.
Lemma sum_alter l i x : (i < length l)%nat -> (sum (alter l i (fun f => f + x)%Q) == sum l + x)%Q.
Proof.
  unfold sum. revert i. induction l as [|y t IH]; intros [|i] H; cbn [length] in H; try lia; cbn [alter fold_right].
  - ring.
  - rewrite IH by lia. ring.
Qed.
