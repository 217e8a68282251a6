(** Rates between finitely many states: stationary shares exist, and are unique if the states are
    linked. *)
From Coq Require Import String Ascii List Bool Reals Lia Lra.
Import ListNotations.
From Verif Require Import PyBase PyBaseFacts PyReal MF_More Whole_Bound.
Local Open Scope list_scope.
Local Open Scope R_scope.

Definition inflow (L : list str) (k : str -> str -> R) (v : str -> R) (i : str) : R :=
  Rsum (map (fun j => v j * k j i - v i * k i j) L).
Definition balanced_on (L : list str) (k : str -> str -> R) (v : str -> R) : Prop :=
  forall i, In i L -> inflow L k v i = 0.

Lemma Rsum_sub {A} (f g : A -> R) l : Rsum (map (fun x => f x - g x) l) = Rsum (map f l) - Rsum (map g l).
Proof. induction l as [|a l IH]; cbn [map Rsum]; [ring|rewrite IH; ring]. Qed.
Lemma Rsum_mul_r {A} (f : A -> R) c l : Rsum (map (fun x => f x * c) l) = Rsum (map f l) * c.
Proof. induction l as [|a l IH]; cbn [map Rsum]; [ring|rewrite IH; ring]. Qed.
Lemma Rsum_null {A} (f : A -> R) l : (forall x, In x l -> 0 <= f x) -> Rsum (map f l) = 0 -> forall x, In x l -> f x = 0.
Proof.
  induction l as [|a l IH]; intros H E x Hx; [destruct Hx|]. cbn [map Rsum] in E.
  pose proof (H a (or_introl eq_refl)). assert (H' : forall y, In y l -> 0 <= f y) by (intros; apply H; now right).
  pose proof (Rsum_nonneg f l H'). destruct Hx as [<-|Hx]; [lra|]. apply IH; auto. lra.
Qed.

(** Stationary shares, by elimination of one state after another. *)
Lemma stationary_exists : forall L, NoDup L -> L <> [] -> forall k, (forall i j, 0 <= k i j) ->
  exists v, (forall i, 0 <= v i) /\ Rsum (map v L) = 1 /\ balanced_on L k v.
Proof.
  induction L as [|x L IH]; intros ND NE k K; [congruence|]. inversion ND as [|? ? NI ND']; subst.
  destruct L as [|y L0] eqn:EL.
  { exists (fun _ => 1). split; [intros; lra|]. split; [cbn; lra|]. intros i [<-|[]]. unfold inflow. cbn. lra. }
  rewrite <- EL in *. assert (NE' : L <> []) by (rewrite EL; discriminate). clear EL y L0.
  set (w := Rsum (map (k x) L)).
  assert (W : 0 <= w) by (apply Rsum_nonneg; auto).
  assert (Ne : forall i, In i L -> str_eqb i x = false).
  { intros i Hi. apply str_eqb_neq. congruence. }
  destruct (Req_dec w 0) as [W0|W0].
  - assert (Z : forall j, In j L -> k x j = 0) by (apply Rsum_null; auto).
    exists (fun i => if str_eqb i x then 1 else 0). split; [intro i; destruct (str_eqb i x); lra|]. split.
    + cbn [map Rsum]. rewrite str_eqb_refl, (Rsum_zero _ L); [lra|]. intros i Hi. now rewrite (Ne i Hi).
    + intros i [<-|Hi]; unfold inflow; cbn [map Rsum]; rewrite str_eqb_refl.
      * rewrite Rsum_zero; [ring|]. intros j Hj. rewrite (Ne j Hj), (Z j Hj). ring.
      * rewrite (Ne i Hi), (Z i Hi), Rsum_zero; [ring|]. intros j Hj. rewrite (Ne j Hj). ring.
  - assert (W1 : 0 < w) by lra.
    destruct (IH ND' NE' (fun i j => k i j + k i x * k x j / w)) as (p & P0 & P1 & PB).
    { intros i j. pose proof (K i j). pose proof (K i x). pose proof (K x j).
      assert (0 <= k i x * k x j / w); [|lra]. unfold Rdiv. apply Rmult_le_pos; [now apply Rmult_le_pos|].
      left. now apply Rinv_0_lt_compat. }
    set (h := Rsum (map (fun i => p i * k i x) L)). set (u := h / w).
    assert (H0 : 0 <= h) by (apply Rsum_nonneg; intros i _; now apply Rmult_le_pos).
    assert (U0 : 0 <= u) by (unfold u, Rdiv; apply Rmult_le_pos; auto; left; now apply Rinv_0_lt_compat).
    assert (UW : u * w = h) by (unfold u; field; lra).
    set (q := fun i => if str_eqb i x then u else p i).
    assert (Qx : q x = u) by (unfold q; now rewrite str_eqb_refl).
    assert (Qi : forall i, In i L -> q i = p i) by (intros i Hi; unfold q; now rewrite (Ne i Hi)).
    assert (QB : balanced_on (x :: L) k q).
    { intros i [<-|Hi]; unfold inflow; cbn [map Rsum].
      - rewrite Qx. rewrite (Rsum_ext _ (fun j => p j * k j x - u * k x j)).
        + rewrite Rsum_sub, Rsum_mul. fold h. fold w. lra.
        + intros j Hj. now rewrite (Qi j Hj).
      - rewrite Qx, (Qi i Hi). pose proof (PB i Hi) as B. unfold inflow in B.
        rewrite (Rsum_ext _ (fun j => (p j * k j i - p i * k i j) + (p j * k j x * (k x i / w) - k x j * (p i * k i x / w)))) in B.
        2:{ intros j _. unfold Rdiv. ring. }
        rewrite Rsum_add, Rsum_sub, Rsum_sub, Rsum_mul_r, Rsum_mul_r in B. fold h w in B.
        rewrite (Rsum_ext _ (fun j => p j * k j i - p i * k i j)).
        2:{ intros j Hj. now rewrite (Qi j Hj). }
        rewrite Rsum_sub. replace (w * (p i * k i x / w)) with (p i * k i x) in B by (field; lra).
        replace (h * (k x i / w)) with (u * k x i) in B by (unfold u; field; lra). lra. }
    assert (QS : Rsum (map q (x :: L)) = 1 + u).
    { cbn [map Rsum]. rewrite Qx, (Rsum_ext q p L Qi), P1. ring. }
    exists (fun i => q i / (1 + u)). split.
    { intro i. unfold Rdiv. apply Rmult_le_pos; [|left; apply Rinv_0_lt_compat; lra]. unfold q. destruct (str_eqb i x); auto. }
    split.
    { unfold Rdiv. rewrite Rsum_mul_r, QS. field. lra. }
    intros i Hi. unfold inflow.
    rewrite (Rsum_ext _ (fun j => (q j * k j i - q i * k i j) * / (1 + u))) by (intros; unfold Rdiv; ring).
    rewrite Rsum_mul_r. pose proof (QB i Hi) as B. unfold inflow in B. rewrite B. ring.
Qed.

Section Closed.
  Variable L : list str.
  Variable k : str -> str -> R.
  Hypothesis K : forall i j, 0 <= k i j.

  Lemma inflow_sum v : Rsum (map (inflow L k v) L) = 0.
  Proof.
    unfold inflow. set (F := fun i j => v j * k j i - v i * k i j).
    change (Rsum (map (fun i => Rsum (map (F i) L)) L) = 0).
    assert (E : Rsum (map (fun i => Rsum (map (F i) L)) L) = - Rsum (map (fun i => Rsum (map (F i) L)) L)); [|lra].
    rewrite Rsum_swap at 1.
    replace (- Rsum (map (fun i => Rsum (map (F i) L)) L)) with (-1 * Rsum (map (fun i => Rsum (map (F i) L)) L)) by ring.
    rewrite <- Rsum_mul. apply Rsum_ext. intros i _. rewrite <- Rsum_mul. apply Rsum_ext. intros j _. unfold F. ring.
  Qed.

  (** What has a share passes it on. *)
  Lemma positive_closed v : balanced_on L k v -> forall i j, In i L -> In j L -> 0 < v i -> 0 < k i j -> 0 < v j.
  Proof.
    intros B i j Hi Hj Vi Kij. destruct (Rlt_dec 0 (v j)) as [|Vj]; [assumption|exfalso].
    set (c := fun i => if Rlt_dec 0 (v i) then 1 else 0).
    set (F := fun i j => v j * k j i - v i * k i j).
    assert (S1 : Rsum (map (fun a => Rsum (map (fun b => c a * F a b) L)) L) = 0).
    { apply Rsum_zero. intros a Ha. rewrite Rsum_mul. pose proof (B a Ha) as E. unfold inflow in E. unfold F. rewrite E. ring. }
    assert (S2 : Rsum (map (fun a => Rsum (map (fun b => c b * F a b) L)) L) = 0).
    { rewrite Rsum_swap. apply Rsum_zero. intros b Hb. rewrite Rsum_mul.
      rewrite (Rsum_ext (fun a => F a b) (fun a => -1 * F b a)) by (intros; unfold F; ring).
      rewrite Rsum_mul. pose proof (B b Hb) as E. unfold inflow in E. unfold F. rewrite E. ring. }
    assert (S3 : Rsum (map (fun a => Rsum (map (fun b => (c b - c a) * F a b) L)) L) = 0).
    { rewrite (Rsum_ext _ (fun a => Rsum (map (fun b => c b * F a b) L) - Rsum (map (fun b => c a * F a b) L))).
      - rewrite Rsum_sub. lra.
      - intros a _. rewrite <- Rsum_sub. apply Rsum_ext. intros; ring. }
    assert (Pos : forall a b, 0 <= (c b - c a) * F a b).
    { intros a b. unfold c, F. pose proof (K a b). pose proof (K b a).
      destruct (Rlt_dec 0 (v b)), (Rlt_dec 0 (v a)); try lra.
      - assert (0 <= v b * k b a) by (apply Rmult_le_pos; lra).
        assert (0 <= - v a * k a b) by (apply Rmult_le_pos; lra). lra.
      - assert (0 <= v a * k a b) by (apply Rmult_le_pos; lra).
        assert (0 <= - v b * k b a) by (apply Rmult_le_pos; lra). lra. }
    assert (R1 : forall a, In a L -> 0 <= Rsum (map (fun b => (c b - c a) * F a b) L)).
    { intros a _. apply Rsum_nonneg. auto. }
    pose proof (Rsum_null _ L R1 S3 i Hi) as S4.
    pose proof (Rsum_null (fun b => (c b - c i) * F i b) L (fun b _ => Pos i b) S4 j Hj) as S5. cbn beta in S5.
    unfold c, F in S5. destruct (Rlt_dec 0 (v j)); [lra|]. destruct (Rlt_dec 0 (v i)); [|lra].
    assert (0 < v i * k i j) by now apply Rmult_lt_0_compat.
    assert (0 <= - v j * k j i) by (apply Rmult_le_pos; [lra|auto]). lra.
  Qed.

  Lemma balanced_sub v w : balanced_on L k v -> balanced_on L k w -> balanced_on L k (fun i => v i - w i).
  Proof.
    intros V W i Hi. unfold inflow.
    rewrite (Rsum_ext _ (fun j => (v j * k j i - v i * k i j) - (w j * k j i - w i * k i j))) by (intros; ring).
    rewrite Rsum_sub. pose proof (V i Hi) as E1. pose proof (W i Hi) as E2. unfold inflow in E1, E2. lra.
  Qed.

  (** Linked states: what is positive in one place is positive everywhere. *)
  Definition all_linked : Prop := forall (Q : str -> Prop),
    (forall i j, In i L -> In j L -> Q i -> 0 < k i j -> Q j) -> forall i j, In i L -> In j L -> Q i -> Q j.
  Hypothesis Lk : all_linked.

  Lemma no_positive v : balanced_on L k v -> Rsum (map v L) = 0 -> forall i, In i L -> v i <= 0.
  Proof.
    intros B S i Hi. destruct (Rlt_dec 0 (v i)) as [V|V]; [exfalso|lra].
    assert (A : forall j, In j L -> 0 < v j) by (intros j Hj; exact (Lk (fun i => 0 < v i) (positive_closed v B) i j Hi Hj V)).
    pose proof (Rsum_null v L (fun x Hx => Rlt_le _ _ (A x Hx)) S i Hi). lra.
  Qed.
  Lemma zero_only v : balanced_on L k v -> Rsum (map v L) = 0 -> forall i, In i L -> v i = 0.
  Proof.
    intros B S i Hi. apply Rle_antisym; [now apply no_positive|].
    assert (B' : balanced_on L k (fun i => 0 - v i)).
    { apply balanced_sub; auto. intros j _. unfold inflow. apply Rsum_zero. intros; ring. }
    assert (S' : Rsum (map (fun i => 0 - v i) L) = 0) by (rewrite Rsum_sub, S, Rsum_zero; auto; ring).
    pose proof (no_positive _ B' S' i Hi). cbn beta in H. lra.
  Qed.
  Lemma all_positive v : balanced_on L k v -> 0 < Rsum (map v L) -> (forall i, In i L -> 0 <= v i) ->
    forall i, In i L -> 0 < v i.
  Proof.
    intros B S N i Hi. 
    assert (Ex : exists j, In j L /\ 0 < v j).
    { destruct (existsb (fun j => if Rlt_dec 0 (v j) then true else false) L) eqn:E.
      - apply existsb_exists in E as (j & Hj & E). exists j. split; auto. now destruct (Rlt_dec 0 (v j)).
      - exfalso. assert (Z : Rsum (map v L) = 0).
        { apply Rsum_zero. intros j Hj. pose proof (N j Hj). destruct (Rlt_dec 0 (v j)) as [V|V]; [|lra]. exfalso.
          assert (existsb (fun j => if Rlt_dec 0 (v j) then true else false) L = true); [|congruence].
          apply existsb_exists. exists j. split; auto. now destruct (Rlt_dec 0 (v j)). }
        lra. }
    destruct Ex as (j & Hj & V). exact (Lk (fun i => 0 < v i) (positive_closed v B) j i Hj Hi V).
  Qed.
End Closed.
