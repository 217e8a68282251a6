From Coq Require Import String Ascii List ZArith NArith Bool Arith QArith Qfield Lia Lqa.
Import ListNotations.
From Verif Require Import PyBase PyBaseFacts KCov_Model KCov_Spec.
Local Open Scope list_scope.
Local Open Scope nat_scope.

(** ** The two programs *)
Section Agree.
  Context {F : Type} (zero : F) (add : F -> F -> F) (div : F -> nat -> F).
  Notation accumulate := (cpp_accumulate add).
  Notation loop := (cpp_loop zero add).

  Lemma accumulate_absent e r pt ns : ~ In e pt -> accumulate e r pt ns = ns.
  Proof.
    revert ns. induction pt as [|t pt IH]; intros [|n ns] H; cbn; try reflexivity.
    destruct (str_eqb e t) eqn:E.
    - apply str_eqb_eq in E. subst. exfalso. apply H. left. reflexivity.
    - rewrite IH; [reflexivity|]. intro. apply H. right. assumption.
  Qed.

  Lemma accumulate_length e r pt ns : length (accumulate e r pt ns) = length ns.
  Proof. revert ns. induction pt as [|t pt IH]; intros [|n ns]; cbn; auto. Qed.

  Lemma bump_accumulate e r pt ns : NoDup pt -> length ns = length pt ->
    match index_of e pt with None => ns | Some i => bump add ns i r end = accumulate e r pt ns.
  Proof.
    intro ND. revert ns. induction ND as [|t pt Ht ND IH]; intros [|n ns] HL; try discriminate; [reflexivity|].
    cbn [index_of accumulate]. destruct (str_eqb e t) eqn:E.
    - apply str_eqb_eq in E. subst. cbn [bump]. now rewrite accumulate_absent.
    - injection HL as HL. rewrite <- (IH ns HL). destruct (index_of e pt); reflexivity.
  Qed.

  Lemma fold_loop pt ratios : NoDup pt -> forall rs types i ns,
    length ns = length pt ->
    (forall j, j < length rs -> nth j rs zero = nth ((i + j) mod length ratios) ratios zero) ->
    fold_left (fun ntypes re => match index_of (snd re) pt with
                                | None => ntypes
                                | Some idx => bump add ntypes idx (fst re)
                                end) (combine rs types) ns =
    loop i (firstn (length rs) types) pt ratios ns.
  Proof.
    intros ND. induction rs as [|r rs IH]; intros types i ns HL H; [reflexivity|].
    destruct types as [|e types]; [reflexivity|]. cbn [combine fold_left length firstn cpp_loop fst snd].
    rewrite bump_accumulate by assumption.
    pose proof (H 0 ltac:(cbn; lia)) as H0. cbn in H0. rewrite Nat.add_0_r in H0. rewrite <- H0.
    apply IH; [rewrite accumulate_length; exact HL|].
    intros j Hj. specialize (H (S j)). cbn in H. rewrite H by lia. f_equal. f_equal. lia.
  Qed.

  Lemma repeat_nth (ratios : list F) k j : j < k * length ratios ->
    nth j (concat (repeat ratios k)) zero = nth (j mod length ratios) ratios zero.
  Proof.
    destruct ratios as [|r0 rs]; [cbn; lia|]. set (l := r0 :: rs). set (m := length l).
    assert (Hm : m <> 0) by (unfold m, l; cbn; lia).
    revert j. induction k as [|k IH]; intros j Hj; [lia|]. cbn [repeat concat].
    destruct (Nat.lt_ge_cases j m) as [Hl|Hg].
    - rewrite app_nth1 by exact Hl. now rewrite Nat.mod_small.
    - rewrite app_nth2 by exact Hg. fold m. rewrite IH by (fold m; fold m in Hj; nia).
      fold m. f_equal. replace j with ((j - m) + 1 * m) at 2 by lia. now rewrite Nat.mod_add.
  Qed.

  Lemma repeat_length' (ratios : list F) k : length (concat (repeat ratios k)) = k * length ratios.
  Proof. induction k as [|k IH]; [reflexivity|]. cbn. now rewrite app_length, IH. Qed.

  Lemma loop_length i types pt ratios ns : length (loop i types pt ratios ns) = length ns.
  Proof.
    revert i ns. induction types as [|e types IH]; intros i ns; [reflexivity|].
    cbn [cpp_loop]. now rewrite IH, accumulate_length.
  Qed.

  Lemma mapM_div (l : list F) n : n <> 0 ->
    mapM (fun x => if n =? 0 then Err ZeroDivisionError else Ok (div x n)) l = Ok (map (fun x => div x n) l).
  Proof.
    intro H. apply Nat.eqb_neq in H. rewrite H. induction l as [|x l IH]; [reflexivity|].
    cbn [mapM bind map]. now rewrite IH.
  Qed.

  (** The Python function reads the points of whole cells only. *)
  Lemma py_is_cpp types pt ratios : NoDup pt -> ratios <> [] -> length ratios <= length types ->
    exists v, py_collect zero add div types pt ratios = Ok v /\
      cpp_collect zero add div (firstn (length types / length ratios * length ratios) types) pt ratios = Some v.
  Proof.
    intros ND Hr HL. unfold py_collect, cpp_collect. destruct ratios as [|r0 rs] eqn:Er; [congruence|].
    rewrite <- Er in *. set (m := length ratios) in *.
    assert (Hm : m <> 0) by (unfold m; rewrite Er; cbn; lia).
    set (k := length types / m).
    assert (Hk : k <> 0).
    { unfold k. intro H. apply Nat.div_small_iff in H; [|exact Hm]. lia. }
    rewrite mapM_div by exact Hk. eexists. split; [reflexivity|].
    rewrite (fold_loop pt ratios ND _ types 0).
    - rewrite repeat_length'. fold m. fold k.
      assert (length (firstn (k * m) types) / m = k) as ->; [|reflexivity].
      rewrite firstn_length, Nat.min_l; [now apply Nat.div_mul|].
      unfold k. rewrite Nat.mul_comm. apply Nat.mul_div_le. exact Hm.
    - now rewrite repeat_length.
    - intros j Hj. rewrite repeat_length' in Hj. rewrite repeat_nth by exact Hj. reflexivity.
  Qed.

  Lemma agree types pt ratios k : NoDup pt -> ratios <> [] -> types <> [] ->
    length types = k * length ratios ->
    exists v, py_collect zero add div types pt ratios = Ok v /\
      cpp_collect zero add div types pt ratios = Some v.
  Proof.
    intros ND Hr Ht E.
    assert (Hm : length ratios <> 0) by (destruct ratios; [congruence|discriminate]).
    assert (Hk : k <> 0) by (destruct k; [destruct types; [congruence|discriminate E]|lia]).
    destruct (py_is_cpp types pt ratios ND Hr ltac:(nia)) as (v & H1 & H2).
    exists v. split; [exact H1|]. rewrite E, Nat.div_mul in H2 by exact Hm. rewrite <- E, firstn_all in H2. exact H2.
  Qed.

  Lemma py_no_ratios types pt : py_collect zero add div types pt [] = Err ZeroDivisionError.
  Proof. reflexivity. Qed.

  Lemma fold_length (types : list (F * str)) pt ns :
    length (fold_left (fun ntypes re => match index_of (snd re) pt with
                                | None => ntypes
                                | Some idx => bump add ntypes idx (fst re)
                                end) types ns) = length ns.
  Proof.
    assert (B : forall i r l, length (bump add l i r) = length l).
    { intros i r l. revert i. induction l as [|x l IH]; intros [|i]; cbn; auto. }
    revert ns. induction types as [|[r e] types IH]; intro ns; [reflexivity|]. cbn [fold_left fst snd].
    rewrite IH. destruct (index_of e pt); [apply B|reflexivity].
  Qed.

  (** Fewer points than basis sites. *)
  Lemma py_few types pt ratios : length types < length ratios -> pt <> [] ->
    py_collect zero add div types pt ratios = Err ZeroDivisionError.
  Proof.
    intros HL Hp. unfold py_collect. destruct ratios as [|r rs] eqn:E; [reflexivity|]. rewrite <- E in *.
    rewrite Nat.div_small by exact HL.
    match goal with |- mapM _ ?l = _ => assert (length l = length pt) end.
    { rewrite fold_length. apply repeat_length. }
    destruct (fold_left _ _ _) as [|x l]; [destruct pt; [congruence|discriminate]|reflexivity].
  Qed.
End Agree.

(** ** Sums over lattice points *)
Lemma Qsum_ext n f g : (forall i, i < n -> (f i == g i)%Q) -> (Qsum_below n f == Qsum_below n g)%Q.
Proof.
  induction n as [|n IH]; intro H; [reflexivity|]. cbn. rewrite IH by (intros; apply H; lia).
  rewrite (H n) by lia. reflexivity.
Qed.

Lemma Qsum_app a b f : (Qsum_below (a + b) f == Qsum_below a f + Qsum_below b (fun i => f (a + i)%nat))%Q.
Proof.
  induction b as [|b IH]; cbn.
  - rewrite Nat.add_0_r. ring.
  - rewrite Nat.add_succ_r. cbn. rewrite IH. ring.
Qed.

Lemma Qsum_first n f : (Qsum_below (S n) f == f 0%nat + Qsum_below n (fun i => f (S i)))%Q.
Proof. change (S n) with (1 + n). rewrite Qsum_app. cbn. ring. Qed.

Lemma Qsum_plus n f g : (Qsum_below n (fun i => f i + g i) == Qsum_below n f + Qsum_below n g)%Q.
Proof. induction n as [|n IH]; cbn; [ring|]. rewrite IH. ring. Qed.

Lemma Qsum_le n f g : (forall i, i < n -> (f i <= g i)%Q) -> (Qsum_below n f <= Qsum_below n g)%Q.
Proof.
  induction n as [|n IH]; intro H; cbn; [apply Qle_refl|].
  apply Qplus_le_compat; [apply IH; intros; apply H; lia|apply H; lia].
Qed.

Lemma Qsum_zero n : (Qsum_below n (fun _ => 0) == 0)%Q.
Proof. induction n as [|n IH]; cbn; [reflexivity|]. rewrite IH. ring. Qed.

(** ** The C++ loop counts weights *)
Definition at_site (ratios : list Q) (types : list str) (i : nat) (t : str) : Q :=
  Qsum_below (length types) (fun j => if str_eqb (nth j types []) t then weight ratios (i + j) else 0%Q).

Lemma accumulate_counts e r pt ns gs : Forall2 Qeq ns gs -> length pt = length ns ->
  Forall2 Qeq (cpp_accumulate Qplus e r pt ns)
    (map (fun p => (fst p + if str_eqb e (snd p) then r else 0)%Q) (combine gs pt)).
Proof.
  intro H. revert pt. induction H as [|n g ns gs Hn HF IH]; intros [|t pt] HL; try discriminate; [constructor|].
  cbn. constructor; [|apply IH; auto]. destruct (str_eqb e t); rewrite Hn; ring.
Qed.

Lemma loop_counts pt ratios types : forall i ns, length pt = length ns ->
  Forall2 Qeq (cpp_loop 0%Q Qplus i types pt ratios ns)
    (map (fun p => (fst p + at_site ratios types i (snd p))%Q) (combine ns pt)).
Proof.
  induction types as [|e types IH]; intros i ns HL.
  - cbn [cpp_loop]. unfold at_site. cbn [length Qsum_below].
    revert pt HL. induction ns as [|n ns IHn]; intros [|t pt] HL; try discriminate; [constructor|].
    cbn. constructor; [ring|apply IHn; auto].
  - cbn [cpp_loop]. set (r := nth (i mod length ratios) ratios 0%Q).
    assert (HL2 : length pt = length (cpp_accumulate Qplus e r pt ns)) by now rewrite accumulate_length.
    specialize (IH (S i) _ HL2). set (o := cpp_loop 0%Q Qplus (S i) types pt ratios _) in *. clearbody o.
    revert o IH. clear HL2. revert ns HL. induction pt as [|t pt IHp]; intros [|n ns] HL o IH; try discriminate.
    + cbn in IH. inversion IH. constructor.
    + cbn [cpp_accumulate combine map] in IH. inversion IH as [|x y o' l' Hx HF]; subst. cbn [combine map fst snd]. cbn [fst snd] in Hx. constructor.
      * rewrite Hx. unfold at_site. cbn [length]. rewrite Qsum_first. cbn [nth].
        unfold weight at 2. rewrite Nat.add_0_r. fold r.
        assert (E : (Qsum_below (length types) (fun j => if str_eqb (nth j types []) t then weight ratios (S i + j)%nat else 0) ==
                     Qsum_below (length types) (fun j => if str_eqb (nth j types []) t then weight ratios (i + S j)%nat else 0))%Q).
        { apply Qsum_ext. intros j _. replace (i + S j) with (S i + j) by lia. reflexivity. }
        rewrite E. destruct (str_eqb e t); ring.
      * apply IHp; [auto|]. exact HF.
Qed.

Lemma map_div_counts pt ratios types :
  Forall2 (fun t c => (c == at_site ratios types 0 t / inject_Z (Z.of_nat (length types / length ratios)))%Q) pt
    (map (fun n => qdiv n (length types / length ratios))
       (cpp_loop 0%Q Qplus 0 types pt ratios (repeat 0%Q (length pt)))).
Proof.
  set (k := length types / length ratios).
  pose proof (loop_counts pt ratios types 0 (repeat 0%Q (length pt)) ltac:(now rewrite repeat_length)) as H.
  revert H. generalize (cpp_loop 0%Q Qplus 0 types pt ratios (repeat 0%Q (length pt))). intro o. revert o.
  induction pt as [|t pt IH]; intros o H; cbn in H; inversion H as [|x y o' l' Hx HF]; subst; [constructor|].
  cbn [map]. constructor; [|apply IH; exact HF]. unfold qdiv. rewrite Hx. rewrite Qplus_0_l. reflexivity.
Qed.

Lemma fraction_at ratios types t :
  (fraction ratios types t == at_site ratios types 0 t / inject_Z (Z.of_nat (length types / length ratios)))%Q.
Proof. reflexivity. Qed.

Lemma cells ratios types : whole_cells ratios types ->
  exists k, length types = k * length ratios /\ k <> 0 /\ length ratios <> 0 /\
    length types / length ratios = k.
Proof.
  intros (Ht & Hr & k & E). exists k.
  assert (Hm : length ratios <> 0) by (destruct ratios; [congruence|discriminate]).
  assert (Hk : k <> 0) by (destruct k; [destruct types; [congruence|discriminate E]|lia]).
  repeat split; try assumption. rewrite E. now apply Nat.div_mul.
Qed.

Lemma py_fractions pt ratios types : NoDup pt -> whole_cells ratios types ->
  exists v, py_collect 0%Q Qplus qdiv types pt ratios = Ok v /\
    Forall2 (fun t c => (c == fraction ratios types t)%Q) pt v.
Proof.
  intros ND W. pose proof W as (Ht & Hr & k & E).
  destruct (agree 0%Q Qplus qdiv types pt ratios k ND Hr Ht E) as (v & H1 & H2).
  exists v. split; [exact H1|]. unfold cpp_collect in H2. destruct ratios as [|r0 rs] eqn:Er; [congruence|].
  rewrite <- Er in *. injection H2 as <-. apply map_div_counts.
Qed.

(** ** Bounds and totals *)
Definition nonneg (l : list Q) : Prop := Forall (fun r => (0 <= r)%Q) l.

Lemma weight_nonneg ratios i : nonneg ratios -> (0 <= weight ratios i)%Q.
Proof.
  intro H. unfold weight. destruct (Nat.lt_ge_cases (i mod length ratios) (length ratios)) as [Hl|Hg].
  - unfold nonneg in H. rewrite Forall_forall in H. apply H. apply nth_In. exact Hl.
  - rewrite nth_overflow by exact Hg. apply Qle_refl.
Qed.

Lemma total_nth (l : list Q) : (Qsum_below (length l) (fun i => nth i l 0) == total l)%Q.
Proof.
  induction l as [|x l IH]; [reflexivity|]. cbn [length]. rewrite Qsum_first. cbn [nth]. rewrite IH. reflexivity.
Qed.

Lemma weights_total ratios k : length ratios <> 0 ->
  (Qsum_below (k * length ratios) (weight ratios) == inject_Z (Z.of_nat k) * total ratios)%Q.
Proof.
  intro Hm. set (m := length ratios) in *. induction k as [|k IH]; [cbn; ring|].
  replace (S k * m) with (k * m + m) by (cbn; lia). rewrite Qsum_app, IH.
  rewrite (Qsum_ext m _ (fun i => nth i ratios 0%Q)).
  - unfold m. rewrite total_nth. rewrite Nat2Z.inj_succ, <- Z.add_1_r, inject_Z_plus. ring.
  - intros i Hi. unfold weight. fold m. rewrite Nat.add_comm, Nat.mod_add by exact Hm.
    rewrite Nat.mod_small by exact Hi. reflexivity.
Qed.

(** Weight of the points whose type is in [pt]. *)
Lemma sum_over_types ratios types pt : NoDup pt ->
  (total (map (fun t => at_site ratios types 0 t) pt) ==
   Qsum_below (length types) (fun j => if str_mem (nth j types []) pt then weight ratios j else 0))%Q.
Proof.
  induction 1 as [|t pt Ht ND IH].
  - cbn. rewrite Qsum_zero. reflexivity.
  - cbn [map total fold_right]. unfold total in IH. rewrite IH. unfold at_site. rewrite <- Qsum_plus.
    apply Qsum_ext. intros j _. cbn [Nat.add].
    cbn [str_mem existsb]. destruct (str_eqb (nth j types []) t) eqn:E; cbn [orb].
    + apply str_eqb_eq in E. rewrite E.
      destruct (str_mem t pt) eqn:M; [apply str_mem_In in M; contradiction|].
      unfold str_mem in M. ring.
    + unfold str_mem. destruct (existsb (str_eqb (nth j types [])) pt); ring.
Qed.

Lemma total_div (f : str -> Q) pt c : ~ (c == 0)%Q ->
  (total (map (fun t => f t / c) pt) == total (map f pt) / c)%Q.
Proof.
  intro H. induction pt as [|t pt IH]; cbn [map total fold_right]; unfold total in *; [field; exact H|].
  rewrite IH. field. exact H.
Qed.

Lemma total_Forall2 (pt : list str) v (f : str -> Q) : Forall2 (fun t c => (c == f t)%Q) pt v -> (total v == total (map f pt))%Q.
Proof. induction 1 as [|t c pt v Hc HF IH]; cbn; [reflexivity|]. unfold total in IH. now rewrite Hc, IH. Qed.

Lemma Zk_pos k : k <> 0 -> (0 < inject_Z (Z.of_nat k))%Q.
Proof. intro H. change 0%Q with (inject_Z 0). rewrite <- Zlt_Qlt. lia. Qed.

Lemma fraction_bounds ratios types t : whole_cells ratios types -> nonneg ratios -> (total ratios <= 1)%Q ->
  (0 <= fraction ratios types t <= 1)%Q.
Proof.
  intros W N T. destruct (cells _ _ W) as (k & E & Hk & Hm & Ed). rewrite fraction_at, Ed.
  pose proof (Zk_pos k Hk) as P.
  assert (0 <= at_site ratios types 0 t)%Q.
  { unfold at_site. rewrite <- (Qsum_zero (length types)). apply Qsum_le. intros i _.
    destruct (str_eqb _ t); [apply weight_nonneg; exact N|apply Qle_refl]. }
  assert (at_site ratios types 0 t <= inject_Z (Z.of_nat k))%Q.
  { apply Qle_trans with (Qsum_below (length types) (weight ratios)).
    - unfold at_site. apply Qsum_le. intros i _. cbn.
      destruct (str_eqb _ t); [apply Qle_refl|apply weight_nonneg; exact N].
    - rewrite E, weights_total by exact Hm. rewrite <- (Qmult_1_r (inject_Z (Z.of_nat k))) at 2.
      rewrite Qmult_comm, (Qmult_comm (inject_Z _)). apply Qmult_le_compat_r; [exact T|]. apply Qlt_le_weak, P. }
  split.
  - apply Qle_shift_div_l; [exact P|]. rewrite Qmult_0_l. assumption.
  - apply Qle_shift_div_r; [exact P|]. rewrite Qmult_1_l. assumption.
Qed.

Lemma fractions_total ratios types pt : whole_cells ratios types -> NoDup pt -> (total ratios == 1)%Q ->
  (forall t, In t types -> In t pt) -> (total (map (fraction ratios types) pt) == 1)%Q.
Proof.
  intros W ND T All. destruct (cells _ _ W) as (k & E & Hk & Hm & Ed). pose proof (Zk_pos k Hk) as P.
  assert (NZ : ~ (inject_Z (Z.of_nat k) == 0)%Q) by (intro H; rewrite H in P; apply (Qlt_irrefl 0 P)).
  transitivity (total (map (fun t => at_site ratios types 0 t / inject_Z (Z.of_nat k))%Q pt)).
  { subst k. clear. unfold fraction, at_site. induction pt as [|t pt IH]; [reflexivity|]. cbn. unfold total in IH. rewrite IH.
    reflexivity. }
  rewrite total_div by exact NZ. rewrite sum_over_types by exact ND.
  rewrite (Qsum_ext _ _ (weight ratios)).
  - rewrite E, weights_total by exact Hm. rewrite T. field. exact NZ.
  - intros j Hj. rewrite (proj2 (str_mem_In _ _)); [reflexivity|]. apply All, nth_In, Hj.
Qed.

Lemma fractions_total_le ratios types pt : whole_cells ratios types -> NoDup pt -> nonneg ratios -> (total ratios <= 1)%Q ->
  (total (map (fraction ratios types) pt) <= 1)%Q.
Proof.
  intros W ND N T. destruct (cells _ _ W) as (k & E & Hk & Hm & Ed). pose proof (Zk_pos k Hk) as P.
  assert (NZ : ~ (inject_Z (Z.of_nat k) == 0)%Q) by (intro H; rewrite H in P; apply (Qlt_irrefl 0 P)).
  apply Qle_trans with (total (map (fun t => at_site ratios types 0 t / inject_Z (Z.of_nat k))%Q pt)).
  { apply Qle_lteq. right. subst k. clear. unfold fraction, at_site. induction pt as [|t pt IH]; [reflexivity|]. cbn. unfold total in IH. rewrite IH.
    reflexivity. }
  rewrite total_div by exact NZ. rewrite sum_over_types by exact ND.
  apply Qle_shift_div_r; [exact P|]. rewrite Qmult_1_l.
  apply Qle_trans with (Qsum_below (length types) (weight ratios)).
  - apply Qsum_le. intros i _. destruct (str_mem _ pt); [apply Qle_refl|apply weight_nonneg; exact N].
  - rewrite E, weights_total by exact Hm. rewrite <- (Qmult_1_r (inject_Z (Z.of_nat k))) at 2.
    rewrite Qmult_comm, (Qmult_comm (inject_Z _)). apply Qmult_le_compat_r; [exact T|]. apply Qlt_le_weak, P.
Qed.

(** ** The plugin *)
Lemma qsum_total l : (qsum l == total l)%Q.
Proof.
  unfold qsum. assert (H : forall a, (fold_left Qplus l a == a + total l)%Q).
  { induction l as [|x l IH]; intro a; cbn; [ring|]. rewrite IH. unfold total. ring. }
  rewrite H. ring.
Qed.

Lemma drop_In {A} (l : list A) i x : In x (drop_at l i) -> In x l.
Proof.
  revert i. induction l as [|y l IH]; intros [|i]; cbn; auto. intros [->|H]; auto. right. eapply IH. exact H.
Qed.

Lemma drop_NoDup {A} (l : list A) i : NoDup l -> NoDup (drop_at l i).
Proof.
  intro H. revert i. induction H as [|y l Hy ND IH]; intros [|i]; cbn; try constructor; auto.
  intro Hin. apply Hy. eapply drop_In. exact Hin.
Qed.

Lemma drop_notin {A} (l : list A) i x : NoDup l -> nth_error l i = Some x -> ~ In x (drop_at l i).
Proof.
  intro H. revert i. induction H as [|y l Hy ND IH]; intros [|i] E; try discriminate; cbn in *.
  - injection E as ->. exact Hy.
  - intros [->|Hin]; [apply Hy; eapply nth_error_In; exact E|]. exact (IH i E Hin).
Qed.

Lemma Forall2_impl' {A B} (R R' : A -> B -> Prop) l v : (forall a b, R a b -> R' a b) ->
  Forall2 R l v -> Forall2 R' l v.
Proof. intros H F. induction F; constructor; auto. Qed.

Lemma insert_Forall2 {A B} (R : A -> B -> Prop) l v i x y :
  nth_error l i = Some x -> R x y -> Forall2 R (drop_at l i) v -> Forall2 R l (insert_at v i y).
Proof.
  revert i v. induction l as [|z l IH]; intros i v E Rxy H; [destruct i; discriminate|].
  destruct i as [|i]; cbn in E.
  - injection E as ->. cbn in H. destruct v; constructor; assumption.
  - cbn in H. inversion H as [|? c ? v' Hc HF]; subst. cbn. constructor; [exact Hc|]. apply IH; assumption.
Qed.

Lemma total_drop (f : str -> Q) l i x : nth_error l i = Some x ->
  (total (map f l) == f x + total (map f (drop_at l i)))%Q.
Proof.
  revert i. induction l as [|y l IH]; intros [|i] E; try discriminate; cbn in E.
  - injection E as ->. reflexivity.
  - cbn. specialize (IH i E). unfold total in IH. rewrite IH. ring.
Qed.

Lemma step_value pt empty ratios types i : NoDup pt -> nth_error pt i = Some empty ->
  whole_cells ratios types ->
  exists v, step_coverages pt empty ratios types = Ok v /\
    Forall2 (fun t c => (c == if str_eqb t empty
                             then 1 - total (map (fraction ratios types) (drop_at pt i))
                             else fraction ratios types t)%Q) pt v.
Proof.
  intros ND Hi W. unfold step_coverages. rewrite (index_of_nth pt i empty ND Hi).
  destruct (py_fractions (drop_at pt i) ratios types (drop_NoDup _ _ ND) W) as (v & -> & F). cbn [bind].
  eexists. split; [reflexivity|]. apply insert_Forall2 with empty; [exact Hi| |].
  - rewrite str_eqb_refl. rewrite qsum_total. rewrite (total_Forall2 _ _ _ F). reflexivity.
  - assert (N : forall t, In t (drop_at pt i) -> str_eqb t empty = false).
    { intros t Ht. destruct (str_eqb t empty) eqn:E; [|reflexivity]. apply str_eqb_eq in E. subst t. exfalso.
      exact (drop_notin pt i empty ND Hi Ht). }
    set (tot := (1 - total (map (fraction ratios types) (drop_at pt i)))%Q). clearbody tot.
    revert N F. generalize (drop_at pt i). intros l N F.
    induction F as [|t c l v Hc HF IH]; [constructor|]. constructor.
    + rewrite (N t (or_introl eq_refl)). exact Hc.
    + apply IH. intros; apply N; right; assumption.
Qed.

Lemma step_fractions pt empty ratios types : NoDup pt -> In empty pt -> whole_cells ratios types ->
  (total ratios == 1)%Q -> (forall t, In t types -> In t pt) ->
  exists v, step_coverages pt empty ratios types = Ok v /\
    Forall2 (fun t c => (c == fraction ratios types t)%Q) pt v.
Proof.
  intros ND Hin W T All. apply In_nth_error in Hin as [i Hi].
  destruct (step_value pt empty ratios types i ND Hi W) as (v & E & F). exists v. split; [exact E|].
  pose proof (fractions_total ratios types pt W ND T All) as Tot.
  rewrite (total_drop (fraction ratios types) pt i empty Hi) in Tot.
  revert F. apply Forall2_impl'. intros t c H. destruct (str_eqb t empty) eqn:Et; [|exact H].
  apply str_eqb_eq in Et. subst t. rewrite H. rewrite <- Tot. ring.
Qed.

Lemma step_no_empty pt empty ratios types : ~ In empty pt -> step_coverages pt empty ratios types = Err ValueError.
Proof. intro H. unfold step_coverages. now rewrite (proj2 (index_of_None _ _) H). Qed.

Lemma step_bounds pt empty ratios types v : NoDup pt -> In empty pt -> whole_cells ratios types ->
  nonneg ratios -> (total ratios <= 1)%Q ->
  step_coverages pt empty ratios types = Ok v ->
  Forall (fun c => (0 <= c <= 1)%Q) v /\ (total v == 1)%Q.
Proof.
  intros ND Hin W N T E. apply In_nth_error in Hin as [i Hi].
  destruct (step_value pt empty ratios types i ND Hi W) as (v' & E' & F). rewrite E in E'. injection E' as <-.
  split.
  - clear Hi E. assert (B : (0 <= total (map (fraction ratios types) (drop_at pt i)) <= 1)%Q).
    { clear F. split; [|apply fractions_total_le; auto using drop_NoDup].
      induction (drop_at pt i) as [|t l IH]; [apply Qle_refl|]. cbn [map total fold_right].
      pose proof (proj1 (fraction_bounds ratios types t W N T)).
      change (fold_right Qplus 0%Q (map (fraction ratios types) l)) with (total (map (fraction ratios types) l)). lra. }
    induction F as [|t c l v Hc HF IH]; [constructor|]. constructor; [|apply IH; now inversion ND].
    rewrite Hc. destruct (str_eqb t empty); [lra|apply fraction_bounds; assumption].
  - rewrite (total_Forall2 _ _ _ F). rewrite (total_drop _ _ _ _ Hi). rewrite str_eqb_refl.
    set (tot := total (map (fraction ratios types) (drop_at pt i))).
    assert (E2 : (total (map (fun t => if str_eqb t empty then 1 - tot else fraction ratios types t) (drop_at pt i)) == tot)%Q).
    { unfold tot at 2. pose proof (drop_notin pt i empty ND Hi) as NI. clear - NI. generalize tot. clear tot. intro u.
      induction (drop_at pt i) as [|t l IH]; [reflexivity|]. cbn. unfold total in IH.
      destruct (str_eqb t empty) eqn:Et; [apply str_eqb_eq in Et; subst; exfalso; apply NI; left; reflexivity|].
      rewrite IH; [reflexivity|]. intro; apply NI; right; assumption. }
    rewrite E2. ring.
Qed.
