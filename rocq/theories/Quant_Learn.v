(** Proofs about the colour quantizer: learning (C96). *)
From Coq Require Import String Ascii List ZArith QArith Qabs Qround Bool Permutation Sorted Lia Lqa Znumtheory.
Import ListNotations.
From Verif Require Import PyBase PyBaseFacts Script_Model Quant_Model Quant_Spec Quant_Proofs.
Local Open Scope list_scope.
Local Open Scope Z_scope.

Definition plan_of (n : Z) (colors samplefac : Z) : list (Z * Z * Z) :=
  let m := n / samplefac in
  map (fun k => let cycle := Z.to_nat (Z.of_nat k / (m / 100)) in
                ((Z.of_nat k * step_of n) mod n,
                 fall (30 + (samplefac - 1) / 3) cycle 1024,
                 radius (fall 30 cycle (colors / 8 * 64))))
    (seq 0 (Z.to_nat m)).
Fixpoint follow (pixels : list Z) (first : bool) (plan : list (Z * Z * Z)) (s : net) : res net :=
  match plan with
  | [] => Ok s
  | (pos, alpha, rad) :: t => do s' <- learn_pixel pixels first pos alpha rad s; follow pixels false t s'
  end.

Lemma stride_step n : stride n = step_of n.
Proof.
  unfold stride, step_of. cbn [find]. destruct (n mod 499 =? 0); cbn [negb]; [|reflexivity].
  destruct (n mod 491 =? 0); cbn [negb]; [|reflexivity]. destruct (n mod 487 =? 0); reflexivity.
Qed.
Lemma reach_radius x : reach x = radius x.
Proof.
  unfold reach, radius. rewrite Z.shiftr_div_pow2 by lia. change (2 ^ 6) with 64.
  destruct (Z.ltb_spec x 128), (Z.leb_spec (x / 64) 1); auto.
  - pose proof (Z.div_lt_upper_bound x 64 2 ltac:(lia) ltac:(lia)). lia.
  - pose proof (Z.div_le_lower_bound x 64 2 ltac:(lia) ltac:(lia)). lia.
Qed.
Lemma schedule_plan n colors sf : schedule n colors sf = plan_of n colors sf.
Proof. unfold schedule, plan_of. apply map_ext. intros k. rewrite stride_step, reach_radius. reflexivity. Qed.

Lemma Forall_nth {A} (P : A -> Prop) l : (forall k x, nth_error l k = Some x -> P x) -> Forall P l.
Proof.
  intro H. apply Forall_forall. intros x I. apply In_nth_error in I. destruct I as (k & I). eauto.
Qed.
Lemma nth_Forall {A} (P : A -> Prop) l k x : Forall P l -> nth_error l k = Some x -> P x.
Proof. intros F H. rewrite Forall_forall in F. eapply F, nth_error_In; eauto. Qed.

Lemma set_up_sound n junk : (3 < n)%nat -> exists s, set_up n junk = Ok s /\ sound n junk s.
Proof.
  intro H. unfold set_up. change SPECIALS with 3%nat. destruct (Nat.ltb_spec n 3); [lia|].
  eexists. split; [reflexivity|]. split; cbn [network freq bias].
  - rewrite app_length, map_length, seq_length. cbn. lia.
  - apply repeat_length.
  - apply repeat_length.
  - reflexivity.
  - cbn [app skipn]. apply Forall_forall. intros c I. apply in_map_iff in I. destruct I as (i & <- & I).
    apply in_seq in I. cbn. set (x := (255 * inject_Z (Z.of_nat i) / inject_Z (Z.of_nat (n - 3)))%Q).
    assert (X : inside x).
    { assert (D : (0 < inject_Z (Z.of_nat (n - 3)))%Q) by (change 0%Q with (inject_Z 0); rewrite <- Zlt_Qlt; lia).
      unfold x. split.
      - apply Qle_shift_div_l; auto. rewrite Qmult_0_l. apply Qmult_le_0_compat; [discriminate|].
        change 0%Q with (inject_Z 0). rewrite <- Zle_Qle. lia.
      - apply Qle_shift_div_r; auto. apply Qmult_le_l; [reflexivity|]. rewrite <- Zle_Qle. lia. }
    auto.
  - apply Forall_forall. intros f I. apply repeat_spec in I. subst f.
    apply Qle_shift_div_l; [change 0%Q with (inject_Z 0); rewrite <- Zlt_Qlt; lia|]. discriminate.
  - assert (E : forall q k, (sum (repeat q k) == inject_Z (Z.of_nat k) * q)%Q).
    { unfold sum. intros q. induction k as [|k IH]; [cbn; ring|]. cbn [repeat fold_right]. rewrite IH.
      rewrite Nat2Z.inj_succ. unfold Z.succ. rewrite inject_Z_plus. change (inject_Z 1) with 1%Q. ring. }
    assert (S : skipn 3 (repeat (1 / inject_Z (Z.of_nat n))%Q n) = repeat (1 / inject_Z (Z.of_nat n))%Q (n - 3)).
    { destruct n as [|[|[|n]]]; try lia. cbn [repeat skipn]. now rewrite Nat.sub_succ, Nat.sub_succ, Nat.sub_succ, Nat.sub_0_r. }
    rewrite S, E.
    assert (D : (0 < inject_Z (Z.of_nat n))%Q) by (change 0%Q with (inject_Z 0); rewrite <- Zlt_Qlt; lia).
    setoid_replace (inject_Z (Z.of_nat (n - 3)) * (1 / inject_Z (Z.of_nat n)))%Q
      with (inject_Z (Z.of_nat (n - 3)) / inject_Z (Z.of_nat n))%Q by (field; intro Q; rewrite Q in D; discriminate).
    apply Qle_shift_div_r; auto. rewrite Qmult_1_l, <- Zle_Qle. lia.
Qed.

(** One pixel *)
Lemma learn_pixel_sound n bg s pixels first pos alpha rad p :
  (3 < n)%nat -> sound n bg s -> nth_error pixels (Z.to_nat pos) = Some p ->
  0 <= alpha <= 1024 -> 0 <= rad ->
  exists s', learn_pixel pixels first pos alpha rad s = Ok s' /\
             sound n (if first then color_of p else bg) s'.
Proof.
  intros N S P A R. unfold learn_pixel, lindex. rewrite P. cbn [bind].
  set (c := color_of p). set (s0 := if first then _ else s).
  assert (S0 : sound n (if first then c else bg) s0).
  { unfold s0. destruct first; auto. destruct S as [X1 X2 X3 X4 X5 X6 X7]. split; cbn [with_network network freq bias]; auto.
    - now rewrite alter_length.
    - destruct (network s) as [|n0 [|n1 [|n2 l]]]; try discriminate. injection X4 as -> -> _. reflexivity.
    - destruct (network s) as [|n0 [|n1 [|n2 l]]]; cbn in *; auto. }
  clearbody s0. clear S s. rename s0 into s, S0 into S. set (bg' := if first then c else bg) in *. clearbody bg'.
  destruct (special_find c s); [eauto|].
  destruct S as [X1 X2 X3 X4 X5 X6 X7].
  destruct (contest_ok c s) as (best & k & s1 & E & Best & K & Nw & Lf & Lb & Sf & W); try congruence.
  assert (KL : (k < n - 3)%nat).
  { apply first_least_length in K. rewrite map_length, combine_length, !skipn_length in K. lia. }
  assert (BL : (best < n - 3)%nat).
  { apply first_least_length in Best. rewrite map_length, skipn_length in Best. lia. }
  rewrite E. cbn [bind]. set (a := (inject_Z alpha / inject_Z INITALPHA)%Q).
  assert (A01 : (0 <= a <= 1)%Q).
  { unfold a, INITALPHA. split.
    - apply Qle_shift_div_l; [reflexivity|]. rewrite Qmult_0_l. change 0%Q with (inject_Z 0). rewrite <- Zle_Qle. lia.
    - apply Qle_shift_div_r; [reflexivity|]. rewrite Qmult_1_l, <- Zle_Qle. lia. }
  assert (C : visible_color c) by apply color_of_visible.
  set (s2 := altersingle a (3 + k) c s1).
  assert (S2 : sound n bg' s2).
  { unfold s2, altersingle. split; cbn [with_network network freq bias].
    - now rewrite alter_length, Nw.
    - congruence.
    - congruence.
    - rewrite firstn_alter by lia. now rewrite Nw.
    - rewrite skipn_alter by lia. rewrite Nw. apply Forall_alter; auto. intros x X. now apply move_visible.
    - apply Forall_nth. intros q f' H.
      assert (Q : (q < n)%nat) by (rewrite <- X2, <- Lf; apply nth_error_Some; congruence).
      destruct (nth_error (freq s) q) as [f|] eqn:Ef; [|apply nth_error_None in Ef; lia].
      destruct (nth_error (bias s) q) as [b|] eqn:Eb; [|apply nth_error_None in Eb; lia].
      destruct (W q f b Ef Eb) as (f1 & b1 & F1 & B1 & Y). rewrite F1 in H. injection H as <-.
      assert (P0 : (0 <= f)%Q) by (eapply (nth_Forall _ _ _ _ X6); eauto).
      destruct (q <? 3)%nat; [destruct Y as (-> & _); auto|]. destruct Y as (-> & _).
      assert (0 <= (1 - (1 # 1024)) * f)%Q by (apply Qmult_le_0_compat; [discriminate|auto]).
      destruct (q =? 3 + best)%nat; lra.
    - rewrite Sf. rewrite sum_alter by (rewrite map_length, skipn_length; lia). rewrite sum_map_scale.
      unfold BETA. lra. }
  clearbody s2. destruct (0 <? rad) eqn:Hr; [|eauto]. apply Z.ltb_lt in Hr.
  destruct S2 as [Y1 Y2 Y3 Y4 Y5 Y6 Y7].
  destruct (alterneigh_ok a rad (Z.of_nat (3 + k)) c s2) as (s3 & E3 & F3 & B3 & L3 & N3); [lia|lia|].
  rewrite E3. exists s3. split; [reflexivity|]. split; try congruence.
  - rewrite <- Y4. apply nth_error_ext. intro q. destruct (Nat.lt_ge_cases q 3) as [Q|Q].
    + rewrite !nth_error_firstn_lt by auto. destruct (nth_error (network s2) q) as [x|] eqn:Ex.
      * destruct (N3 q x Ex) as (x' & -> & H & _). f_equal. auto.
      * apply nth_error_None in Ex. lia.
    + rewrite (proj2 (nth_error_None (firstn 3 (network s3)) q)) by (rewrite firstn_length; lia).
      now rewrite (proj2 (nth_error_None (firstn 3 (network s2)) q)) by (rewrite firstn_length; lia).
  - apply Forall_nth. intros q x' H. rewrite nth_error_skipn_add in H.
    destruct (nth_error (network s2) (3 + q)) as [x|] eqn:Ex.
    + assert (V : visible_color x) by (eapply (nth_Forall _ _ q _ Y5); now rewrite nth_error_skipn_add).
      destruct (N3 _ x Ex) as (y & Ey & _ & _ & [->|(b & -> & Eb)]); rewrite Ey in H; injection H as <-; auto.
      apply move_visible; auto. rewrite Eb. apply influence_bounds; auto. lia.
    + apply nth_error_None in Ex. assert (3 + q < length (network s3))%nat by (apply nth_error_Some; congruence). lia.
Qed.

(** ** The plan *)
Lemma fall_last b k x : fall b (S k) x = fall b k x - fall b k x / b.
Proof. revert x. induction k as [|k IH]; intro x; [reflexivity|]. cbn [fall] in *. now rewrite IH. Qed.
Lemma fall_bounds b k x m : 1 <= b -> 0 <= x <= m -> 0 <= fall b k x <= m.
Proof.
  intro B. revert x. induction k as [|k IH]; intros x X; cbn [fall]; auto. apply IH.
  pose proof (Z.div_pos x b). assert (x / b <= x) by (apply Z.div_le_upper_bound; nia). lia.
Qed.
Lemma radius_ok b : 0 <= b -> 0 <= radius b.
Proof.
  intro H. unfold radius. destruct (Z.leb_spec (Z.shiftr b 6) 1); lia.
Qed.
Lemma next_cycle d i : 0 < d -> 0 <= i ->
  Z.to_nat ((i + 1) / d) = if (i + 1) mod d =? 0 then S (Z.to_nat (i / d)) else Z.to_nat (i / d).
Proof.
  intros D I. pose proof (Z.div_mod i d ltac:(lia)) as E. pose proof (Z.mod_pos_bound i d D) as M.
  pose proof (Z.div_pos i d I D) as P.
  destruct (Z.eqb_spec ((i + 1) mod d) 0) as [Z|Z].
  - assert (i mod d + 1 = d).
    { destruct (Z.eq_dec (i mod d + 1) d) as [|N]; auto. exfalso.
      assert ((i + 1) mod d = i mod d + 1) by (symmetry; apply (Z.mod_unique_pos _ _ (i / d)); lia). lia. }
    assert (((i + 1) / d) = i / d + 1) by (symmetry; apply (Z.div_unique_pos _ _ _ 0); lia). lia.
  - assert (i mod d + 1 <> d).
    { intro N. apply Z. replace (i + 1) with (0 + (i / d + 1) * d) by lia. rewrite Z.mod_add by lia. apply Z.mod_0_l. lia. }
    assert (((i + 1) / d) = i / d) by (symmetry; apply (Z.div_unique_pos _ _ _ (i mod d + 1)); lia). lia.
Qed.

Definition round_ n br0 alphadec delta step (k : nat) : Z * Z * Z :=
  let cycle := Z.to_nat (Z.of_nat k / delta) in
  ((Z.of_nat k * step) mod n, fall alphadec cycle 1024, radius (fall 30 cycle br0)).
Lemma learn_loop_follow pixels alphadec delta step br0 todo : forall i s,
  0 < delta -> pixels <> [] ->
  let n := Z.of_nat (length pixels) in
  let cycle := Z.to_nat (Z.of_nat i / delta) in
  learn_loop pixels alphadec delta step todo (Z.of_nat i) ((Z.of_nat i * step) mod n)
    (fall alphadec cycle 1024) (fall 30 cycle br0) (radius (fall 30 cycle br0)) s =
  follow pixels (Z.of_nat i =? 0) (map (round_ n br0 alphadec delta step) (seq i todo)) s.
Proof.
  induction todo as [|k IH]; intros i s D P n cycle; [reflexivity|].
  cbn [learn_loop seq map follow round_]. fold cycle. cbv zeta.
  unfold round_ at 1. fold cycle.
  destruct (learn_pixel _ _ _ _ _ _) as [s'|e]; [cbn [bind]|reflexivity].
  destruct (Z.eqb_spec delta 0); [lia|].
  assert (NP : 0 < n) by (unfold n; destruct pixels; [easy|]; cbn [length]; lia).
  assert (Pos : ((Z.of_nat i * step) mod n + step) mod n = (Z.of_nat (S i) * step) mod n).
  { rewrite Z.add_mod_idemp_l by lia. f_equal. lia. }
  fold n. rewrite Pos. replace (Z.of_nat i + 1) with (Z.of_nat (S i)) by lia.
  specialize (IH (S i) s' D P). cbv zeta in IH. fold n in IH.
  pose proof (next_cycle delta (Z.of_nat i) D ltac:(lia)) as C. fold cycle in C.
  replace (Z.of_nat i + 1) with (Z.of_nat (S i)) in C by lia. rewrite C in IH.
  replace (Z.of_nat (S i) =? 0) with false in IH by (symmetry; apply Z.eqb_neq; lia).
  destruct (Z.of_nat (S i) mod delta =? 0).
  - rewrite !fall_last in IH. exact IH.
  - exact IH.
Qed.

Lemma follow_sound pixels n plan : forall first bg s,
  (3 < n)%nat -> sound n bg s ->
  Forall (fun r => match r with (pos, alpha, rad) => 0 <= pos < Z.of_nat (length pixels) /\ 0 <= alpha <= 1024 /\ 0 <= rad end) plan ->
  exists s', follow pixels first plan s = Ok s' /\
    sound n (match plan with
             | (pos, _, _) :: _ => if first then color_of (nth (Z.to_nat pos) pixels 0) else bg
             | [] => bg
             end) s'.
Proof.
  induction plan as [|((pos & alpha) & rad) t IH]; intros first bg s N S F; cbn [follow]; [eauto|].
  inversion F as [|? ? F1 F']; subst. cbn in F1. destruct F1 as (A & B & C).
  assert (P : nth_error pixels (Z.to_nat pos) = Some (nth (Z.to_nat pos) pixels 0)) by (apply nth_error_nth'; lia).
  destruct (learn_pixel_sound n bg s pixels first pos alpha rad _ N S P B C) as (s1 & E & S1).
  rewrite E. cbn [bind]. destruct (IH false _ s1 N S1 F') as (s' & E' & S'). exists s'. split; auto.
  destruct t as [|((? & ?) & ?) t]; exact S'.
Qed.

(** ** Learning as a whole *)
Lemma sound_length n bg s : sound n bg s -> length (network s) = n.
Proof. now intros []. Qed.
Lemma samples_pos n sf : 1 <= sf -> 100 * sf <= n -> 0 < n / sf / 100.
Proof.
  intros S H. assert (100 <= n / sf) by (apply Z.div_le_lower_bound; lia).
  assert (1 <= n / sf / 100) by (apply Z.div_le_lower_bound; lia). lia.
Qed.
Lemma learn_follow pixels sf s : 1 <= sf -> 100 * sf <= Z.of_nat (length pixels) ->
  learn Python2 pixels sf s =
  follow pixels true (plan_of (Z.of_nat (length pixels)) (Z.of_nat (length (network s))) sf) s.
Proof.
  intros S H. unfold learn. destruct (Z.eqb_spec sf 0) as [|_]; [lia|].
  set (n := Z.of_nat (length pixels)) in *. set (br0 := Z.of_nat (length (network s)) / 8 * 64).
  pose proof (samples_pos n sf S H) as D.
  pose proof (learn_loop_follow pixels (30 + (sf - 1) / 3) (n / sf / 100) (step_of n) br0 (Z.to_nat (n / sf)) 0 s D) as E.
  cbv zeta in E. fold n in E. change (Z.of_nat 0) with 0 in E. rewrite Z.div_0_l in E by (intro Q; rewrite Q in D; discriminate D).
  rewrite Z.mul_0_l, Z.mod_0_l in E by lia. cbn [Z.to_nat fall Z.eqb] in E. unfold INITALPHA.
  rewrite E; [|intros ->; subst n; cbn [length Z.of_nat] in H; lia]. reflexivity.
Qed.
Lemma plan_of_ok n colors sf : 1 <= sf -> 100 * sf <= n -> 0 <= colors ->
  Forall (fun r => match r with (pos, alpha, rad) => 0 <= pos < n /\ 0 <= alpha <= 1024 /\ 0 <= rad end)
    (plan_of n colors sf).
Proof.
  intros S H C. unfold plan_of. apply Forall_forall. intros r I. apply in_map_iff in I.
  destruct I as (k & <- & _). split; [apply Z.mod_pos_bound; lia|]. split.
  - apply fall_bounds; [|lia]. pose proof (Z.div_pos (sf - 1) 3). lia.
  - apply radius_ok. apply (fall_bounds 30 _ _ (colors / 8 * 64)); [lia|]. pose proof (Z.div_pos colors 8). lia.
Qed.
Lemma learn_sound n junk s pixels sf :
  (3 < n)%nat -> sound n junk s -> 1 <= sf -> 100 * sf <= Z.of_nat (length pixels) ->
  exists s', learn Python2 pixels sf s = Ok s' /\ sound n (color_of (nth 0 pixels 0)) s'.
Proof.
  intros N S F H. rewrite learn_follow by auto.
  destruct (follow_sound pixels n (plan_of (Z.of_nat (length pixels)) (Z.of_nat (length (network s))) sf) true junk s N S)
    as (s' & E & S').
  { apply plan_of_ok; lia. }
  exists s'. split; auto.
  unfold plan_of in S'. set (m := Z.of_nat (length pixels) / sf) in *.
  assert (M : 0 < m) by (apply Z.div_str_pos; lia).
  destruct (Z.to_nat m) as [|k] eqn:Em; [lia|]. cbn [seq map] in S'. change (Z.of_nat 0) with 0 in S'.
  rewrite Z.mul_0_l, Z.mod_0_l in S' by lia. exact S'.
Qed.
Lemma learn_tiny s pixels sf : 1 <= sf -> Z.of_nat (length pixels) < sf -> learn Python2 pixels sf s = Ok s.
Proof.
  intros F H. unfold learn. destruct (Z.eqb_spec sf 0); [lia|]. rewrite (Z.div_small _ sf) by lia. reflexivity.
Qed.
Lemma learn_small n junk s pixels sf :
  (3 < n)%nat -> sound n junk s -> 1 <= sf -> sf <= Z.of_nat (length pixels) < 100 * sf ->
  learn Python2 pixels sf s = Err ZeroDivisionError.
Proof.
  intros N S F H. unfold learn. destruct (Z.eqb_spec sf 0); [lia|].
  set (m := Z.of_nat (length pixels) / sf).
  assert (M : 0 < m < 100) by (split; [apply Z.div_str_pos; lia|apply Z.div_lt_upper_bound; lia]).
  rewrite (Z.div_small m 100) by lia. destruct (Z.to_nat m) as [|k] eqn:E; [lia|]. cbn [learn_loop].
  destruct (learn_pixel_sound n junk s pixels (0 =? 0) 0 INITALPHA (radius (Z.of_nat (length (network s)) / 8 * 64))
    (nth 0 pixels 0)) as (s' & E' & _); auto.
  - apply nth_error_nth'. change (Z.to_nat 0) with 0%nat. lia.
  - unfold INITALPHA. lia.
  - apply radius_ok. pose proof (Z.div_pos (Z.of_nat (length (network s))) 8). lia.
  - rewrite E'. reflexivity.
Qed.

(** ** No pixel twice *)
Lemma prime_by_check p : 1 < p -> forallb (fun k => Z.gcd (Z.of_nat k) p =? 1) (seq 1 (Z.to_nat p - 1)) = true -> prime p.
Proof.
  intros P H. apply prime_intro; auto. intros n N. apply Zgcd_1_rel_prime.
  rewrite forallb_forall in H. specialize (H (Z.to_nat n)). rewrite Z2Nat.id in H by lia. apply Z.eqb_eq, H, in_seq. lia.
Qed.
Lemma prime_499 : prime 499. Proof. apply prime_by_check; [lia|vm_compute; reflexivity]. Qed.
Lemma prime_491 : prime 491. Proof. apply prime_by_check; [lia|vm_compute; reflexivity]. Qed.
Lemma prime_487 : prime 487. Proof. apply prime_by_check; [lia|vm_compute; reflexivity]. Qed.
Lemma prime_503 : prime 503. Proof. apply prime_by_check; [lia|vm_compute; reflexivity]. Qed.

Lemma step_rel_prime n : 0 < n -> ~ ((499 | n) /\ (491 | n) /\ (487 | n) /\ (503 | n)) -> rel_prime (step_of n) n.
Proof.
  intros N H.
  assert (A : forall p, prime p -> ~ (p | n) -> rel_prime p n) by (intros p P D; now apply prime_rel_prime).
  assert (B : forall p, 0 < p -> n mod p = 0 -> (p | n)) by (intros p P M; apply Z.mod_divide; lia).
  assert (C : forall p, 0 < p -> n mod p <> 0 -> ~ (p | n)) by (intros p P M D; apply M, Z.mod_divide; auto; lia).
  unfold step_of.
  destruct (Z.eqb_spec (n mod 499) 0) as [E1|E1]; cbn [negb]; [|apply A; [apply prime_499|apply C; lia]].
  destruct (Z.eqb_spec (n mod 491) 0) as [E2|E2]; cbn [negb]; [|apply A; [apply prime_491|apply C; lia]].
  destruct (Z.eqb_spec (n mod 487) 0) as [E3|E3]; cbn [negb]; [|apply A; [apply prime_487|apply C; lia]].
  apply A; [apply prime_503|]. intro D. apply H. repeat split; auto; apply B; lia.
Qed.
Lemma NoDup_map_on {A B} (f : A -> B) l : (forall x y, In x l -> In y l -> f x = f y -> x = y) -> NoDup l -> NoDup (map f l).
Proof.
  intros H N. induction N as [|x t I N IH]; cbn; constructor.
  - intro J. apply in_map_iff in J. destruct J as (y & E & J). apply I. rewrite <- (H y x); cbn; auto.
  - apply IH. intros a b A' B' E. apply H; cbn; auto.
Qed.
Lemma plan_of_distinct n colors sf :
  1 <= sf -> 0 < n -> ~ ((499 | n) /\ (491 | n) /\ (487 | n) /\ (503 | n)) ->
  NoDup (map (fun r => fst (fst r)) (plan_of n colors sf)).
Proof.
  intros S N H. unfold plan_of. rewrite map_map. cbn [fst].
  assert (M : n / sf <= n) by (apply Z.div_le_upper_bound; nia).
  pose proof (step_rel_prime n N H) as R.
  apply NoDup_map_on; [|apply seq_NoDup].
  intros i j I J E. apply in_seq in I. apply in_seq in J.
  assert (D : (n | (Z.of_nat i - Z.of_nat j) * step_of n)).
  { rewrite Z.mul_sub_distr_r. apply Z.mod_divide; [lia|]. rewrite Zminus_mod, E, Z.sub_diag. apply Z.mod_0_l. lia. }
  rewrite Z.mul_comm in D. apply Gauss in D; [|now apply rel_prime_sym].
  destruct D as (q & D). assert (q = 0) by nia. lia.
Qed.
Lemma plan_of_length n colors sf : 1 <= sf -> 0 <= n ->
  Z.of_nat (length (plan_of n colors sf)) = n / sf.
Proof.
  intros S N. unfold plan_of. rewrite map_length, seq_length. pose proof (Z.div_pos n sf). lia.
Qed.

(** ** Learning as described *)
Lemma color_rgb p : color_of p = rgb_of p.
Proof.
  unfold color_of, rgb_of, byte_of. rewrite Z.shiftr_0_r, !Z.shiftr_div_pow2 by lia.
  change 255 with (Z.ones 8). rewrite !Z.land_ones by lia. reflexivity.
Qed.

Lemma same_iff x y : same x y = true <-> same_color x y.
Proof.
  destruct x as [[a b] c], y as [[d e] f]. unfold same, same_color. rewrite !andb_true_iff, !Qeq_bool_iff. tauto.
Qed.
Lemma special_iff c s : special_find c s = true <-> special c s.
Proof.
  unfold special_find, special. change SPECIALS with 3%nat. rewrite existsb_exists, Exists_exists.
  split; intros (n & I & H); exists n; (split; [exact I|apply same_iff; exact H]).
Qed.

Lemma learn_pixel_taught n bg s pixels pos alpha rad p :
  (3 < n)%nat -> sound n bg s -> nth_error pixels (Z.to_nat pos) = Some p -> 0 <= rad ->
  exists s', learn_pixel pixels false pos alpha rad s = Ok s' /\
    (special (rgb_of p) s -> s' = s) /\
    (~ special (rgb_of p) s -> taught (rgb_of p) (alpha # 1024) rad s s').
Proof.
  intros N S P R. unfold learn_pixel, lindex. rewrite P. cbn [bind]. rewrite color_rgb. set (c := rgb_of p).
  destruct (special_find c s) eqn:Sp.
  { apply special_iff in Sp. exists s. split; [reflexivity|]. split; [reflexivity|contradiction]. }
  destruct S as [X1 X2 X3 X4 X5 X6 X7].
  destruct (contest_ok c s) as (best & k & s1 & E & Best & K & Nw & Lf & Lb & Sf & W); try congruence.
  assert (KL : (k < n - 3)%nat).
  { apply first_least_length in K. rewrite map_length, combine_length, !skipn_length in K. lia. }
  rewrite E. cbn [bind].
  assert (A : (inject_Z alpha / inject_Z INITALPHA == (alpha # 1024))%Q).
  { unfold INITALPHA, Qdiv, Qinv, Qmult, Qeq, inject_Z. cbn -[Z.mul]. lia. }
  set (a := (inject_Z alpha / inject_Z INITALPHA)%Q) in *. clearbody a.
  assert (NS : ~ special c s) by (intro H; apply special_iff in H; congruence).
  set (s2 := altersingle a (3 + k) c s1).
  assert (N2 : forall i m, nth_error (network s) i = Some m -> nth_error (network s2) i =
     Some (if (i =? 3 + k)%nat then move a m c else m)).
  { intros i m H. unfold s2, altersingle, with_network. cbn [network]. rewrite nth_error_alter, Nw, H.
    destruct (i =? 3 + k)%nat; reflexivity. }
  assert (L2 : length (network s2) = n) by (unfold s2, altersingle, with_network; cbn [network]; rewrite alter_length; congruence).
  assert (F2 : freq s2 = freq s1) by reflexivity. assert (B2 : bias s2 = bias s1) by reflexivity. clearbody s2.
  destruct (0 <? rad) eqn:Hr.
  - apply Z.ltb_lt in Hr.
    destruct (alterneigh_ok a rad (Z.of_nat (3 + k)) c s2) as (s3 & E3 & F3 & B3 & L3 & N3); [lia|lia|].
    exists s3. split; [exact E3|]. split; [contradiction|]. intros _.
    exists best, k. split; [exact Best|]. split; [exact K|]. split; [congruence|]. split; [congruence|]. split; [congruence|].
    split.
    { intros i f b Ef Eb. rewrite F3, B3, F2, B2. apply W; assumption. }
    intros i m H. pose proof (N2 i m H) as H2. destruct (N3 i _ H2) as (m' & E' & U1 & U2 & _).
    exists m'. split; [exact E'|]. destruct (Nat.ltb_spec i 3) as [I|I].
    + rewrite (U1 I). destruct (Nat.eqb_spec i (3 + k)); [lia|reflexivity].
    + specialize (U2 I). destruct (Nat.eqb_spec i (3 + k)) as [->|Ne].
      * rewrite Z.sub_diag in U2. change (Z.abs 0) with 0 in U2. unfold influence in U2. cbn [Z.eqb orb] in U2.
        destruct m as [[m0 m1] m2], c as [[c0 c1] c2], m' as [[u0 u1] u2]. cbn in *. destruct U2 as (U2a & U2b & U2c).
        unfold toward in *. rewrite U2a, U2b, U2c, A. repeat split; ring.
      * destruct m as [[m0 m1] m2], c as [[c0 c1] c2], m' as [[u0 u1] u2].
        cbn [same_color part_way] in *. destruct U2 as (U2a & U2b & U2c). rewrite U2a, U2b, U2c.
        assert (I' : (influence a rad (Z.abs (Z.of_nat i - Z.of_nat (3 + k))) ==
                      influence (alpha # 1024) rad (Z.abs (Z.of_nat i - Z.of_nat (3 + k))))%Q).
        { unfold influence. destruct (_ || _); [reflexivity|]. rewrite A. reflexivity. }
        rewrite I'. repeat split; reflexivity.
  - apply Z.ltb_ge in Hr. assert (rad = 0) by lia. subst rad.
    exists s2. split; [reflexivity|]. split; [contradiction|]. intros _.
    exists best, k. split; [exact Best|]. split; [exact K|]. split; [congruence|]. split; [congruence|]. split; [congruence|].
    split.
    { intros i f b Ef Eb. rewrite F2, B2. apply W; assumption. }
    intros i m H. rewrite (N2 i m H). eexists. split; [reflexivity|]. destruct (Nat.ltb_spec i 3) as [I|I].
    + destruct (Nat.eqb_spec i (3 + k)); [lia|reflexivity].
    + destruct (Nat.eqb_spec i (3 + k)) as [->|Ne].
      * destruct m as [[m0 m1] m2], c as [[c0 c1] c2]. cbn. unfold toward. rewrite A. repeat split; ring.
      * apply same_color_stay. unfold influence. rewrite (proj2 (Z.leb_le 0 _)) by lia. rewrite orb_true_r. reflexivity.
Qed.

Lemma follow_studied pixels n plan : forall bg s,
  (3 < n)%nat -> sound n bg s ->
  Forall (fun r => match r with (pos, alpha, rad) => 0 <= pos < Z.of_nat (length pixels) /\ 0 <= alpha <= 1024 /\ 0 <= rad end) plan ->
  exists s', follow pixels false plan s = Ok s' /\ studied pixels plan s s'.
Proof.
  induction plan as [|[[pos alpha] rad] t IH]; intros bg s N S F.
  - exists s. split; [reflexivity|constructor].
  - inversion F as [|? ? X F']; subst. cbn in X. destruct X as (P & A & R).
    destruct (nth_error pixels (Z.to_nat pos)) as [p|] eqn:E; [|apply nth_error_None in E; lia].
    destruct (learn_pixel_taught n bg s pixels pos alpha rad p N S E R) as (s1 & E1 & K & T).
    destruct (learn_pixel_sound n bg s pixels false pos alpha rad p N S E A R) as (s1' & E1' & S1).
    rewrite E1 in E1'. injection E1' as <-. destruct (IH bg s1 N S1 F') as (s' & E' & St).
    exists s'. cbn [follow]. rewrite E1. cbn [bind]. split; [exact E'|].
    destruct (special_find (rgb_of p) s) eqn:Sp.
    + apply special_iff in Sp. rewrite (K Sp) in St. eapply studied_known; eassumption.
    + assert (NS : ~ special (rgb_of p) s) by (intro H; apply special_iff in H; congruence).
      eapply studied_new; eauto.
Qed.

Lemma set_up_initial n junk : (3 < n)%nat -> exists s, set_up n junk = Ok s /\ initial n junk s.
Proof.
  intros N. unfold set_up. change SPECIALS with 3%nat. rewrite (proj2 (Nat.ltb_ge n 3)) by lia. eexists. split; [reflexivity|].
  unfold initial. cbn [network freq bias]. split; [rewrite app_length, map_length, seq_length; cbn; lia|].
  split; [reflexivity|]. split; [reflexivity|]. split; [reflexivity|]. intros i I.
  cbn [app]. change (3 + i)%nat with (S (S (S i))). cbn [nth_error]. rewrite nth_error_map, nth_error_seq0 by lia.
  cbn [option_map]. eexists. split; [reflexivity|]. rewrite Nat2Z.inj_sub by lia. change (Z.of_nat 3) with 3.
  field. intro Q. unfold Qeq in Q. cbn in Q. lia.
Qed.

Lemma learn_studied n junk pixels p sf :
  (3 < n)%nat -> 1 <= sf -> 100 * sf <= Z.of_nat (length pixels) -> nth_error pixels 0 = Some p ->
  exists s s1 s', set_up n junk = Ok s /\ initial n (rgb_of p) s1 /\ learn Python2 pixels sf s = Ok s' /\
    studied pixels (schedule (Z.of_nat (length pixels)) (Z.of_nat n) sf) s1 s'.
Proof.
  intros N F H P. destruct (set_up_sound n junk N) as (s & E & S).
  destruct (set_up_sound n (rgb_of p) N) as (s1 & E1 & S1). destruct (set_up_initial n (rgb_of p) N) as (s1' & E1' & I1).
  rewrite E1 in E1'. injection E1' as <-.
  rewrite schedule_plan.
  destruct (follow_studied pixels n (plan_of (Z.of_nat (length pixels)) (Z.of_nat n) sf) (rgb_of p) s1 N S1) as (s' & E' & St).
  { apply plan_of_ok; lia. }
  exists s, s1, s'. split; [exact E|]. split; [exact I1|]. split; [|exact St].
  rewrite learn_follow by assumption. rewrite (sound_length _ _ _ S). rewrite <- E'.
  unfold plan_of. set (m := Z.of_nat (length pixels) / sf).
  assert (M : 0 < m) by (apply Z.div_str_pos; lia).
  destruct (Z.to_nat m) as [|k] eqn:Em; [lia|]. cbn [seq map]. change (Z.of_nat 0) with 0.
  rewrite Z.mul_0_l, Z.mod_0_l by lia. cbn [follow]. f_equal.
  unfold learn_pixel, lindex. change (Z.to_nat 0) with 0%nat. rewrite P. cbn [bind].
  replace (with_network s (alter (network s) 2 (fun _ => color_of p))) with s1; [reflexivity|].
  unfold set_up in E, E1. destruct (n <? SPECIALS)%nat; [discriminate|]. injection E as <-. injection E1 as <-.
  unfold with_network. cbn [network freq bias app alter]. rewrite color_rgb. reflexivity.
Qed.

Lemma taught_bias n bg c a rad s s' i f b :
  (3 < n)%nat -> initial n bg s -> taught c a rad s s' -> (3 <= i)%nat ->
  nth_error (freq s') i = Some f -> nth_error (bias s') i = Some b ->
  ~ (b == 1024 * (1 / inject_Z (Z.of_nat n) - f))%Q.
Proof.
  intros N (L & F & B & _) (best & k & _ & _ & _ & Lf & Lb & W & _) I Ef Eb.
  assert (In_ : (i < n)%nat).
  { assert (i < length (freq s'))%nat by (apply nth_error_Some; congruence). rewrite Lf, F, repeat_length in H. exact H. }
  destruct (W i (1 / inject_Z (Z.of_nat n))%Q 0%Q) as (f' & b' & Ef' & Eb' & X).
  { rewrite F. apply nth_error_repeat. exact In_. }
  { rewrite B. apply nth_error_repeat. exact In_. }
  rewrite Ef in Ef'. injection Ef' as <-. rewrite Eb in Eb'. injection Eb' as <-.
  destruct (Nat.ltb_spec i 3); [lia|]. destruct X as [X1 X2]. rewrite X1, X2.
  assert (Pos : (0 < 1 / inject_Z (Z.of_nat n))%Q).
  { apply Qlt_shift_div_l; [|reflexivity]. change 0%Q with (inject_Z 0). rewrite <- Zlt_Qlt. lia. }
  set (q := (1 / inject_Z (Z.of_nat n))%Q) in *. destruct (i =? 3 + best)%nat; intro Q; lra.
Qed.
