From Coq Require Import String Ascii List ZArith Bool Arith Lia.
Import ListNotations.
From Verif Require Import PyBase PyBaseFacts Mpi_Model Mpi_Spec.
Local Open Scope list_scope.
Local Open Scope nat_scope.

(** ** range *)
Lemma range_up_nth fuel i n st k : 0 < st -> n <= fuel + i ->
  nth_error (range_up fuel i n st) k = if i + k * st <? n then Some (i + k * st) else None.
Proof.
  intros Hst. revert i k. induction fuel as [|f IH]; intros i k Hf; cbn [range_up].
  - destruct (Nat.ltb_spec (i + k * st) n); [nia|]. destruct k; reflexivity.
  - destruct (Nat.ltb_spec i n) as [Hi|Hi].
    + destruct k as [|k]; cbn [nth_error].
      * rewrite Nat.mul_0_l, Nat.add_0_r. destruct (Nat.ltb_spec i n); [reflexivity|lia].
      * rewrite IH by lia. replace (i + st + k * st) with (i + S k * st) by lia. reflexivity.
    + destruct (Nat.ltb_spec (i + k * st) n); [lia|]. destruct k; reflexivity.
Qed.

Lemma combine_nth_error {A B} (l : list A) (l' : list B) k :
  nth_error (combine l l') k =
  match nth_error l k, nth_error l' k with Some a, Some b => Some (a, b) | _, _ => None end.
Proof.
  revert l' k. induction l as [|a l IH]; intros [|b l'] [|k]; cbn; auto.
  - destruct (nth_error l k); reflexivity.
Qed.

Lemma tl_nth_error {A} (l : list A) k : nth_error (tl l) k = nth_error l (S k).
Proof. destruct l; [destruct k|]; reflexivity. Qed.

Lemma tl_app_nth {A} (l : list A) x k :
  nth_error l k <> None ->
  nth_error (tl l ++ [x]) k = match nth_error l (S k) with Some y => Some y | None => Some x end.
Proof.
  destruct l as [|a l]; [destruct k; intros H; exfalso; apply H; reflexivity|].
  intros H. cbn [tl]. change (nth_error (a :: l) (S k)) with (nth_error l k).
  destruct (nth_error l k) eqn:E.
  - rewrite nth_error_app1; [exact E|]. apply nth_error_Some. rewrite E. discriminate.
  - assert (k = length l) as ->.
    { apply nth_error_None in E. apply nth_error_Some in H. cbn in H. lia. }
    rewrite nth_error_app2, Nat.sub_diag by lia. reflexivity.
Qed.

Lemma firstn_more {A} (s : list A) a q : firstn (a + q) s = firstn a s ++ firstn q (skipn a s).
Proof.
  revert s. induction a as [|a IH]; intros [|x t]; cbn; auto.
  - destruct q; reflexivity.
  - now rewrite IH.
Qed.

Section Split.
  Context {A : Type} (s : list A) (P : nat).
  Let n := length s.
  Let q := n / P.

  Lemma split_seq_at r : 0 < P -> P <= n -> r < P ->
    split_seq P r s =
    Ok (slice (r * q) (if S r * q <? n then S r * q else n) s).
  Proof.
    intros HP Hn Hr. unfold split_seq. fold n. fold q.
    assert (Hq : 0 < q) by (unfold q; apply Nat.div_str_pos; lia).
    assert (HqP : P * q <= n) by (unfold q; apply Nat.mul_div_le; lia).
    destruct P as [|P'] eqn:EP; [lia|].
    unfold py_range0. destruct q as [|q'] eqn:Eq; [lia|].
    cbn [bind]. rewrite <- Eq in *.
    set (st := range_up n 0 n q).
    assert (Hst : forall k, nth_error st k = if k * q <? n then Some (k * q) else None).
    { intro k. unfold st. rewrite range_up_nth by lia. reflexivity. }
    unfold lindex. rewrite combine_nth_error.
    assert (Hlt : r * q < n) by nia.
    rewrite tl_app_nth by (rewrite Hst; destruct (Nat.ltb_spec (r*q) n); [discriminate|lia]).
    rewrite !Hst. destruct (Nat.ltb_spec (r*q) n); [|lia].
    destruct (Nat.ltb_spec (S r * q) n); reflexivity.
  Qed.

  Lemma split_seq_short r : 0 < P -> n < P -> split_seq P r s = Err ValueError.
  Proof.
    intros HP Hn. unfold split_seq. fold n. fold q.
    assert (Hq : q = 0) by (unfold q; apply Nat.div_small; lia).
    rewrite Hq. destruct P; [lia|]. reflexivity.
  Qed.

  (** The last piece also stops after [q] elements unless the division is exact. *)
  Lemma split_piece r : 0 < P -> P <= n -> r < P ->
    split_seq P r s = Ok (slice (r * q) (S r * q) s).
  Proof.
    intros HP Hn Hr. rewrite split_seq_at by assumption. f_equal.
    assert (HqP : P * q <= n) by (unfold q; apply Nat.mul_div_le; lia).
    destruct (Nat.ltb_spec (S r * q) n) as [H|H]; [reflexivity|].
    assert (S r * q <= P * q) by (apply Nat.mul_le_mono_r; lia).
    f_equal; lia.
  Qed.

  Lemma concat_slices m :
    concat (map (fun r => slice (r * q) (S r * q) s) (seq 0 m)) = firstn (m * q) s.
  Proof.
    induction m as [|m IH]; [reflexivity|].
    rewrite seq_S, map_app, concat_app, IH. cbn [map concat Nat.add]. rewrite app_nil_r.
    unfold slice. replace (S m * q - m * q) with q by lia.
    replace (S m * q) with (m * q + q) by lia. symmetry. apply firstn_more.
  Qed.
End Split.

Lemma all_ranks_exists {A} (s : list A) P : 0 < P -> P <= length s ->
  exists pieces, all_ranks_get P s pieces.
Proof.
  intros HP Hn. set (q := length s / P).
  exists (map (fun r => slice (r * q) (S r * q) s) (seq 0 P)). split.
  - now rewrite map_length, seq_length.
  - intros r p E. rewrite nth_error_map in E.
    destruct (nth_error (seq 0 P) r) as [r'|] eqn:E'; [|discriminate].
    assert (r < P) by (rewrite <- (seq_length P 0); apply nth_error_Some; congruence).
    assert (r' = r).
    { apply nth_error_nth with (d := 0) in E'. rewrite seq_nth in E' by assumption. lia. }
    subst r'. cbn in E. injection E as <-. apply split_piece; assumption.
Qed.

Lemma nth_error_ext {A} (l l' : list A) :
  (forall k, nth_error l k = nth_error l' k) -> l = l'.
Proof.
  revert l'. induction l as [|x l IH]; intros [|y l'] H; auto.
  - discriminate (H 0).
  - discriminate (H 0).
  - f_equal; [specialize (H 0); cbn in H; congruence|]. apply IH. intro k. exact (H (S k)).
Qed.

Lemma all_ranks_pieces {A} (s : list A) P pieces : 0 < P -> P <= length s ->
  all_ranks_get P s pieces ->
  pieces = map (fun r => slice (r * (length s / P)) (S r * (length s / P)) s) (seq 0 P).
Proof.
  intros HP Hn [HL HG]. apply nth_error_ext. intro k. rewrite nth_error_map.
  destruct (Nat.ltb_spec k P) as [Hk|Hk].
  - destruct (nth_error pieces k) as [p|] eqn:E;
      [|apply nth_error_None in E; lia].
    rewrite (nth_error_nth' (seq 0 P) 0) by (rewrite seq_length; lia).
    rewrite seq_nth by lia. cbn [option_map Nat.add].
    apply HG in E. rewrite split_piece in E by assumption. congruence.
  - rewrite (proj2 (nth_error_None pieces k)) by lia.
    rewrite (proj2 (nth_error_None (seq 0 P) k)) by (rewrite seq_length; lia). reflexivity.
Qed.

Lemma merged_is_prefix {A} (s : list A) P r : 0 < P -> P <= length s -> r < P ->
  exists pieces, all_ranks_get P s pieces /\
    merged_on_rank P r pieces = Some (firstn (P * (length s / P)) s).
Proof.
  intros HP Hn Hr. destruct (all_ranks_exists s P HP Hn) as [pieces Hp].
  exists pieces. split; [exact Hp|].
  pose proof (all_ranks_pieces s P pieces HP Hn Hp) as ->.
  unfold merged_on_rank. rewrite nth_error_map.
  rewrite (nth_error_nth' (seq 0 P) 0) by (rewrite seq_length; lia).
  rewrite seq_nth by lia. cbn [option_map Nat.add]. f_equal. unfold merge_seq.
  destruct (Nat.eqb_spec P 1) as [->|_].
  - assert (r = 0) as -> by lia. unfold slice. rewrite Nat.div_1_r, Nat.sub_0_r. reflexivity.
  - apply concat_slices.
Qed.

Lemma firstn_all_iff {A} (s : list A) k : k <= length s -> (firstn k s = s <-> k = length s).
Proof.
  intro H. split; intro E.
  - apply (f_equal (@length A)) in E. rewrite firstn_length in E. lia.
  - rewrite E. apply firstn_all.
Qed.

Lemma lossless_iff {A} (s : list A) P pieces r : 0 < P -> P <= length s -> r < P ->
  all_ranks_get P s pieces ->
  (merged_on_rank P r pieces = Some s <-> Nat.divide P (length s)).
Proof.
  intros HP Hn Hr Hg. destruct (merged_is_prefix s P r HP Hn Hr) as (pieces' & Hg' & E).
  pose proof (all_ranks_pieces s P pieces HP Hn Hg) as E1.
  pose proof (all_ranks_pieces s P pieces' HP Hn Hg') as E2.
  rewrite <- E1 in E2. subst pieces'. rewrite E.
  assert (H : P * (length s / P) <= length s) by (apply Nat.mul_div_le; lia).
  split.
  - intro F. injection F as F. apply firstn_all_iff in F; [|exact H].
    exists (length s / P). lia.
  - intros [k Hk]. f_equal. apply firstn_all_iff; [exact H|].
    rewrite Hk, Nat.div_mul by lia. lia.
Qed.

Lemma pieces_in_order {A} (s : list A) P r p : 0 < P -> r < P -> split_seq P r s = Ok p ->
  P <= length s /\ length p = length s / P /\
  forall i, i < length p -> nth_error p i = nth_error s (r * (length s / P) + i).
Proof.
  intros HP Hr E.
  destruct (Nat.ltb_spec (length s) P) as [H|H];
    [rewrite split_seq_short in E by assumption; discriminate|].
  split; [exact H|].
  rewrite split_piece in E by assumption. injection E as <-. set (q := length s / P).
  assert (HqP : P * q <= length s) by (unfold q; apply Nat.mul_div_le; lia).
  assert (S r * q <= P * q) by (apply Nat.mul_le_mono_r; lia).
  unfold slice. split.
  - rewrite firstn_length, skipn_length. lia.
  - intros i Hi. rewrite firstn_length, skipn_length in Hi.
    assert (Hf : forall (l : list A) k j, j < k -> nth_error (firstn k l) j = nth_error l j).
    { clear. induction l as [|x l IH]; intros [|k] [|j] Hj; cbn; auto; try lia. apply IH. lia. }
    assert (Hs : forall (l : list A) k j, nth_error (skipn k l) j = nth_error l (k + j)).
    { clear. induction l as [|x l IH]; intros [|k] j; cbn; auto. destruct j; reflexivity. }
    rewrite Hf by lia. apply Hs.
Qed.

(** ** split_size *)
Lemma add_one_at_spec l i : i < length l ->
  exists l', add_one_at l i = Ok l' /\ length l' = length l /\
    forall k, nth_error l' k = if k =? i then option_map (fun x => (x + 1)%Z) (nth_error l k)
                               else nth_error l k.
Proof.
  revert i. induction l as [|x l IH]; intros [|i] Hi; cbn [length] in Hi; try lia.
  - exists ((x+1)%Z :: l). split; [reflexivity|]. split; [reflexivity|]. intros [|k]; reflexivity.
  - destruct (IH i) as (l' & E & HL & HN); [lia|]. exists (x :: l'). cbn. rewrite E. cbn.
    split; [reflexivity|]. split; [congruence|]. intros [|k]; [reflexivity|]. cbn. apply HN.
Qed.

Lemma add_ones_spec m l : m <= length l ->
  exists l', add_ones l (seq 0 m) = Ok l' /\ length l' = length l /\
    forall k, nth_error l' k = if k <? m then option_map (fun x => (x + 1)%Z) (nth_error l k)
                               else nth_error l k.
Proof.
  assert (G : forall a m l, a + m <= length l ->
    exists l', add_ones l (seq a m) = Ok l' /\ length l' = length l /\
    forall k, nth_error l' k = if (a <=? k) && (k <? a + m) then option_map (fun x => (x + 1)%Z) (nth_error l k)
                               else nth_error l k).
  { clear. intros a m. revert a. induction m as [|m IH]; intros a l H; cbn [seq add_ones].
    - exists l. split; [reflexivity|]. split; [reflexivity|]. intro k.
      destruct (Nat.leb_spec a k), (Nat.ltb_spec k (a + 0)); cbn; try reflexivity; lia.
    - destruct (add_one_at_spec l a) as (l1 & E1 & H1 & N1); [lia|]. rewrite E1. cbn [bind].
      destruct (IH (S a) l1) as (l2 & E2 & H2 & N2); [lia|]. exists l2.
      split; [exact E2|]. split; [lia|]. intro k. rewrite N2, N1.
      destruct (Nat.eqb_spec k a), (Nat.leb_spec (S a) k), (Nat.ltb_spec k (S a + m)),
        (Nat.leb_spec a k), (Nat.ltb_spec k (a + S m)); cbn; try reflexivity; lia. }
  intro H. destruct (G 0 m l H) as (l' & E & HL & HN). exists l'. split; [exact E|].
  split; [exact HL|]. intro k. rewrite HN. reflexivity.
Qed.

Lemma nth_error_repeat {A} (x : A) n k : k < n -> nth_error (repeat x n) k = Some x.
Proof. revert k. induction n as [|n IH]; intros [|k] H; cbn; auto; try lia. apply IH. lia. Qed.

Lemma split_size_at P r size : 0 < P -> (0 <= size)%Z -> r < P ->
  split_size P r size =
  Ok (size / Z.of_nat P + (if (Z.of_nat r <? size mod Z.of_nat P)%Z then 1 else 0))%Z.
Proof.
  intros HP Hs Hr. unfold split_size.
  assert (HPz : (0 < Z.of_nat P)%Z) by lia.
  destruct (Z.ltb_spec size (Z.of_nat P)) as [H|H].
  - cbn [bind]. rewrite Z.div_small, Z.mod_small by lia. unfold lindex.
    destruct (Z.ltb_spec (Z.of_nat r) size) as [Hlt|Hge].
    + rewrite nth_error_app1 by (rewrite repeat_length; lia).
      rewrite nth_error_repeat by lia. reflexivity.
    + rewrite nth_error_app2 by (rewrite repeat_length; lia).
      rewrite repeat_length, nth_error_repeat by lia. reflexivity.
  - destruct P as [|P']; [lia|]. remember (S P') as P.
    pose proof (Z.mod_pos_bound size (Z.of_nat P) HPz) as Hm.
    destruct (Z.eqb_spec (size mod Z.of_nat P) 0) as [E|E]; cbn [negb].
    + cbn [bind]. unfold lindex. rewrite nth_error_repeat by assumption. rewrite E.
      destruct (Z.ltb_spec (Z.of_nat r) 0); [lia|]. f_equal. lia.
    + destruct (add_ones_spec (Z.to_nat (size mod Z.of_nat P)) (repeat (size / Z.of_nat P)%Z P))
        as (l' & E' & HL & HN); [rewrite repeat_length; lia|].
      rewrite E'. cbn [bind]. unfold lindex. rewrite HN, nth_error_repeat by assumption.
      destruct (Nat.ltb_spec r (Z.to_nat (size mod Z.of_nat P))),
        (Z.ltb_spec (Z.of_nat r) (size mod Z.of_nat P)); try lia; cbn; f_equal; lia.
Qed.

Lemma zsum_app a b : zsum (a ++ b) = (zsum a + zsum b)%Z.
Proof. induction a as [|x a IH]; [reflexivity|]. unfold zsum in *. cbn [app fold_right]. lia. Qed.

Lemma zsum_sizes q m P :
  (0 <= m)%Z ->
  zsum (map (fun r => (q + (if (Z.of_nat r <? m) then 1 else 0)))%Z (seq 0 P)) =
  (q * Z.of_nat P + Z.min m (Z.of_nat P))%Z.
Proof.
  intro Hm. induction P as [|P IH]; [cbn; lia|].
  rewrite seq_S, map_app, zsum_app, IH. cbn [map zsum fold_right Nat.add].
  destruct (Z.ltb_spec (Z.of_nat P) m); lia.
Qed.

Lemma split_size_all P size : 0 < P -> (0 <= size)%Z ->
  exists sizes, mapM (fun r => split_size P r size) (seq 0 P) = Ok sizes /\
    length sizes = P /\ zsum sizes = size /\
    (forall a b, In a sizes -> In b sizes -> (Z.abs (a - b) <= 1)%Z) /\
    (forall a, In a sizes -> (0 <= a)%Z).
Proof.
  intros HP Hs. set (f := fun r => (size / Z.of_nat P + (if (Z.of_nat r <? size mod Z.of_nat P)%Z then 1 else 0))%Z).
  exists (map f (seq 0 P)).
  assert (HPz : (0 < Z.of_nat P)%Z) by lia.
  assert (E : forall m, m <= P -> mapM (fun r => split_size P r size) (seq (P - m) m) = Ok (map f (seq (P - m) m))).
  { induction m as [|m IH]; intro Hm; [reflexivity|].
    cbn [seq mapM map]. rewrite split_size_at by lia. cbn [bind].
    replace (S (P - S m)) with (P - m) by lia. rewrite IH by lia. reflexivity. }
  specialize (E P (le_n P)). rewrite Nat.sub_diag in E. split; [exact E|].
  split; [now rewrite map_length, seq_length|].
  pose proof (Z.mod_pos_bound size (Z.of_nat P) HPz) as Hm.
  split.
  - unfold f. rewrite zsum_sizes by lia. rewrite Z.min_l by lia.
    rewrite (Z.div_mod size (Z.of_nat P)) at 3 by lia. lia.
  - split.
    + intros a b Ha Hb. apply in_map_iff in Ha as (i & <- & _). apply in_map_iff in Hb as (j & <- & _).
      unfold f. destruct (Z.of_nat i <? _)%Z, (Z.of_nat j <? _)%Z; lia.
    + intros a Ha. apply in_map_iff in Ha as (i & <- & _). unfold f.
      assert (0 <= size / Z.of_nat P)%Z by (apply Z.div_pos; lia). destruct (Z.of_nat i <? _)%Z; lia.
Qed.

(** ** merge_two_dicts *)
Lemma merge_get {V} (d1 d2 : dict V) k : NoDup (map fst d2) ->
  dget (merge_two_dicts d1 d2) k = match dget d2 k with Some v => Some v | None => dget d1 k end.
Proof.
  unfold merge_two_dicts. revert d1. induction d2 as [|[k' v] d2 IH]; intros d1 H; [reflexivity|].
  cbn [fold_left fst snd]. inversion H as [|? ? Hn Hd]; subst. rewrite IH by assumption.
  cbn [dget]. destruct (str_eqb k k') eqn:E.
  - apply str_eqb_eq in E. subst k'.
    assert (dget d2 k = None) as ->.
    { clear - Hn. induction d2 as [|[k2 v2] d2 IH]; [reflexivity|]. cbn [dget].
      destruct (str_eqb k k2) eqn:E; [apply str_eqb_eq in E; subst; exfalso; apply Hn; left; reflexivity|].
      apply IH. intro. apply Hn. right. assumption. }
    clear. induction d1 as [|[k2 v2] d1 IH]; cbn [dset dget].
    + rewrite str_eqb_refl. reflexivity.
    + destruct (str_eqb k k2) eqn:E; cbn [dget]; rewrite E; auto.
  - destruct (dget d2 k); [reflexivity|].
    assert (Hk : k <> k') by (apply str_eqb_neq; exact E). clear - Hk E.
    induction d1 as [|[k2 v2] d1 IH]; cbn [dset dget].
    + rewrite E. reflexivity.
    + destruct (str_eqb k' k2) eqn:E2; cbn [dget]; [|now rewrite IH].
      apply str_eqb_eq in E2. subst k2. now rewrite E.
Qed.
