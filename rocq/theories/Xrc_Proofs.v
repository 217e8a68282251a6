(** Proofs for C67. *)
From Coq Require Import String Ascii List Arith Bool Reals Lia Lra.
Import ListNotations.
From Verif Require Import PyBase PyBaseFacts PyReal Xrc_Model Xrc_Spec.
Local Open Scope list_scope.
Local Open Scope nat_scope.

(** ** The heap *)
Lemma store_nth h a l : forall b, nth_error (store h a l) b =
  if Nat.eqb a b then match nth_error h b with Some _ => Some l | None => None end else nth_error h b.
Proof.
  revert a. induction h as [|x h IH]; intros a b.
  - cbn [store]. destruct b; destruct (a =? _); reflexivity.
  - destruct a as [|a], b as [|b]; cbn; auto.
Qed.
Lemma store_length h a l : length (store h a l) = length h.
Proof. revert a. induction h as [|x h IH]; intros [|a]; cbn; auto. Qed.
Lemma store_app h e a l : length h <= a -> store (h ++ e) a l = h ++ store e (a - length h) l.
Proof.
  revert a. induction h as [|x h IH]; intros a H; cbn [app length] in *; [now rewrite Nat.sub_0_r|].
  destruct a as [|a]; [lia|]. cbn. f_equal. apply IH. lia.
Qed.

Lemma add_at_ok l i e l' : add_at l i e = Ok l' ->
  length l' = length l /\ forall j x, nth_error l j = Some x -> nth_error l' j = Some (if j =? i then x + e else x)%R.
Proof.
  revert i l'. induction l as [|y l IH]; intros [|i] l' H; try discriminate; cbn in H.
  - injection H as <-. split; [reflexivity|]. intros [|j] x Hx; cbn in *; congruence.
  - destruct (add_at l i e) as [t|] eqn:E; [|discriminate]. injection H as <-. destruct (IH _ _ E) as [Len N].
    split; [cbn; congruence|]. intros [|j] x Hx; cbn in *; [congruence|]. now apply N.
Qed.
Lemma add_at_defined l i e : i < length l -> exists l', add_at l i e = Ok l'.
Proof.
  revert i. induction l as [|y l IH]; intros [|i] H; cbn in H; try lia; cbn; [eauto|].
  destruct (IH i) as [l' ->]; [lia|]. cbn. eauto.
Qed.
Lemma add_at_short l i e : length l <= i -> add_at l i e = Err IndexError.
Proof.
  revert i. induction l as [|y l IH]; intros [|i] H; cbn in H; try lia; cbn; auto. rewrite IH by lia. reflexivity.
Qed.

Lemma view_get h d e : view h d = Ok e -> map fst e = map fst d /\
  forall n, dget e n = match dget d n with Some a => nth_error h a | None => None end.
Proof.
  revert e. induction d as [|[n a] d IH]; intros e H; cbn in H; [injection H as <-; auto|].
  destruct (nth_error h a) as [l|] eqn:E; [|discriminate]. destruct (view h d) as [t|]; [|discriminate].
  injection H as <-. destruct (IH _ eq_refl) as [M G]. split; [cbn; congruence|]. intro m. cbn.
  destruct (str_eqb m n); [congruence|apply G].
Qed.
Lemma view_addresses h d e : view h d = Ok e -> forall n a, In (n, a) d -> a < length h.
Proof.
  revert e. induction d as [|[n a] d IH]; intros e H m b I; [destruct I|]. cbn in H.
  destruct (nth_error h a) as [l|] eqn:E; [|discriminate]. destruct (view h d) as [t|]; [|discriminate].
  destruct I as [I|I]; [injection I as <- <-; apply nth_error_Some; congruence|eauto].
Qed.
Lemma view_defined h d : (forall n a, In (n, a) d -> a < length h) -> exists e, view h d = Ok e.
Proof.
  induction d as [|[n a] d IH]; intro H; cbn; [eauto|].
  destruct (nth_error h a) eqn:E; [|apply nth_error_None in E; specialize (H n a (or_introl eq_refl)); lia].
  destruct IH as [t ->]; [intros; eapply H; right; eauto|]. cbn. eauto.
Qed.
Lemma view_app h d e x : view h d = Ok e -> view (h ++ x) d = Ok e.
Proof.
  revert e. induction d as [|[n a] d IH]; intros e H; cbn in *; auto.
  destruct (nth_error h a) as [l|] eqn:E; [|discriminate].
  rewrite nth_error_app1 by (apply nth_error_Some; congruence). rewrite E.
  destruct (view h d) as [t|]; [|discriminate]. rewrite (IH _ eq_refl). exact H.
Qed.

(** ** Copies *)
Definition good_memo (n0 : nat) (memo : list (nat * nat)) (h : heap) : Prop :=
  (forall a b, lookup memo a = Some b -> n0 <= b < length h /\ exists l, nth_error h a = Some l /\ nth_error h b = Some l) /\
  (forall a a' b, lookup memo a = Some b -> lookup memo a' = Some b -> a = a').

Lemma deepcopy_ok n0 d : forall memo h c h', n0 <= length h -> good_memo n0 memo h -> deepcopy memo d h = Ok (c, h') ->
  exists memo' extra, h' = h ++ extra /\ good_memo n0 memo' h' /\
    (forall a b, lookup memo a = Some b -> lookup memo' a = Some b) /\
    Forall2 (fun p p' => fst p = fst p' /\ lookup memo' (snd p) = Some (snd p')) d c.
Proof.
  induction d as [|[n a] d IH]; intros memo h c h' L0 GM H; cbn in H.
  - injection H as <- <-. exists memo, []. rewrite app_nil_r. split; [auto|]. split; [exact GM|]. split; [auto|constructor].
  - destruct (lookup memo a) as [b|] eqn:Lk.
    + destruct (deepcopy memo d h) as [[t h1]|] eqn:D; [|discriminate]. injection H as <- <-.
      destruct (IH _ _ _ _ L0 GM D) as (memo' & extra & -> & G' & Ext & F). exists memo', extra.
      split; [auto|]. split; [exact G'|]. split; [auto|]. constructor; auto.
    + destruct (nth_error h a) as [l|] eqn:E; [|discriminate].
      destruct (deepcopy ((a, length h) :: memo) d (h ++ [l])) as [[t h1]|] eqn:D; [|discriminate]. injection H as <- <-.
      assert (GM' : good_memo n0 ((a, length h) :: memo) (h ++ [l])).
      { destruct GM as [G1 G2]. split.
        - intros x b. cbn. destruct (a =? x) eqn:Q.
          + intro Z. injection Z as <-. apply Nat.eqb_eq in Q. subst x. split; [rewrite app_length; cbn; lia|].
            exists l. split; [rewrite nth_error_app1; auto; apply nth_error_Some; congruence|].
            rewrite nth_error_app2, Nat.sub_diag by lia. reflexivity.
          + intro Z. destruct (G1 _ _ Z) as ([B1 B2] & y & Y1 & Y2). split; [rewrite app_length; lia|].
            exists y. split; rewrite nth_error_app1; auto; apply nth_error_Some; congruence.
        - intros x x' b. cbn. destruct (a =? x) eqn:Q, (a =? x') eqn:Q'; intros Z Z'.
          + apply Nat.eqb_eq in Q, Q'. congruence.
          + injection Z as <-. apply G1 in Z'. lia.
          + injection Z' as <-. apply G1 in Z. lia.
          + eauto. }
      destruct (IH ((a, length h) :: memo) (h ++ [l]) t h1) as (memo' & extra & -> & G' & Ext & F); auto.
      { rewrite app_length. lia. }
      exists memo', (l :: extra). rewrite <- app_assoc. cbn [app].
      split; [reflexivity|]. rewrite <- app_assoc in G'. split; [exact G'|]. split.
      { intros x b Z. apply Ext. cbn. destruct (a =? x) eqn:Q; auto. apply Nat.eqb_eq in Q. subst. congruence. }
      constructor; [|exact F]. split; [reflexivity|]. cbn [snd]. apply Ext. cbn. now rewrite Nat.eqb_refl.
Qed.

Lemma deepcopy_defined d : forall memo h, (forall n a, In (n, a) d -> a < length h) -> exists c h', deepcopy memo d h = Ok (c, h').
Proof.
  induction d as [|[n a] d IH]; intros memo h H; cbn; [eauto|].
  assert (Ht : forall n a, In (n, a) d -> a < length h) by (intros; eapply H; right; eauto).
  destruct (lookup memo a) as [b|].
  - destruct (IH memo h Ht) as (t & h' & ->). cbn. eauto.
  - destruct (nth_error h a) as [l|] eqn:E; [|apply nth_error_None in E; specialize (H n a (or_introl eq_refl)); lia].
    destruct (IH ((a, length h) :: memo) (h ++ [l])) as (t & h' & ->).
    { intros m b I. rewrite app_length. specialize (Ht _ _ I). lia. }
    cbn. eauto.
Qed.

Lemma copy_get memo' d c : Forall2 (fun p p' => fst p = fst p' /\ lookup memo' (snd p) = Some (snd p')) d c ->
  map fst c = map fst d /\
  forall n, match dget d n with
            | Some a => exists b, dget c n = Some b /\ lookup memo' a = Some b
            | None => dget c n = None
            end.
Proof.
  induction 1 as [|[n a] [n' b] d c [E1 E2] F IH]; [split; [reflexivity|intro; reflexivity]|].
  cbn [fst snd] in *. subst n'. destruct IH as [M G]. split; [cbn; congruence|]. intro m. cbn.
  destruct (str_eqb m n); [exists b; auto|apply G].
Qed.

(** ** One perturbation *)
Lemma dget_present {A} (d : dict A) n : (exists x, dget d n = Some x) <-> In n (map fst d).
Proof.
  induction d as [|[m x] d IH]; cbn; [split; [intros [? H]; discriminate|intros []]|].
  destruct (str_eqb n m) eqn:E.
  - apply str_eqb_eq in E. subst. split; [now left|eauto].
  - rewrite IH. split; [now right|]. intros [H|H]; auto. subst. rewrite str_eqb_refl in E. discriminate.
Qed.

Lemma perturbed d h e i eps : view h d = Ok e ->
  forall c h1 h2 h3, deepcopy [] d h = Ok (c, h1) -> raise_at h1 c (L "Gaf") i eps = Ok h2 ->
  raise_at h2 c (L "Gar") i eps = Ok h3 ->
  (exists extra, h3 = h ++ extra) /\ exists e', view h3 c = Ok e' /\ raised d i eps e e'.
Proof.
  intros V c h1 h2 h3 DC R1 R2.
  destruct (deepcopy_ok (length h) d [] h c h1 (le_n _)) as (memo & extra & -> & [G1 G2] & _ & F).
  { split; intros; discriminate. }
  { exact DC. }
  destruct (copy_get _ _ _ F) as [MC GC]. destruct (view_get _ _ _ V) as [ME GE].
  unfold raise_at, dindex in R1, R2.
  pose proof (GC (L "Gaf")) as GA. pose proof (GC (L "Gar")) as GB.
  destruct (dget c (L "Gaf")) as [bf|] eqn:Bf; [|discriminate].
  destruct (dget c (L "Gar")) as [br|] eqn:Br; [|discriminate].
  destruct (dget d (L "Gaf")) as [af|] eqn:Af; [|discriminate].
  destruct (dget d (L "Gar")) as [ar|] eqn:Ar; [|discriminate].
  destruct GA as (bf' & Q & Lf). injection Q as <-. destruct GB as (br' & Q & Lr). injection Q as <-.
  cbn [bind] in R1, R2.
  destruct (nth_error (h ++ extra) bf) as [lf|] eqn:Nf; [|discriminate].
  destruct (add_at lf i eps) as [lf'|] eqn:Pf; [|discriminate]. cbn [bind] in R1.
  assert (h2 = store (h ++ extra) bf lf') by congruence. subst h2. clear R1.
  destruct (nth_error (store (h ++ extra) bf lf') br) as [lr|] eqn:Nr; [|discriminate].
  destruct (add_at lr i eps) as [lr'|] eqn:Pr; [|discriminate]. cbn [bind] in R2.
  assert (h3 = store (store (h ++ extra) bf lf') br lr') by congruence. subst h3. clear R2.
  destruct (add_at_ok _ _ _ _ Pf) as [Lenf If]. destruct (add_at_ok _ _ _ _ Pr) as [Lenr Ir].
  destruct (G1 _ _ Lf) as ([Bf1 Bf2] & yf & Yf1 & Yf2). destruct (G1 _ _ Lr) as ([Br1 Br2] & yr & Yr1 & Yr2).
  split.
  { eexists. rewrite store_app by lia. rewrite store_app by lia. reflexivity. }
  destruct (view_defined (store (store (h ++ extra) bf lf') br lr') c) as [e' V'].
  { intros n b I. rewrite !store_length. apply In_nth_error in I. destruct I as [k I].
    assert (forall d c, Forall2 (fun p p' : str * nat => fst p = fst p' /\ lookup memo (snd p) = Some (snd p')) d c ->
      forall k p', nth_error c k = Some p' -> exists a, lookup memo a = Some (snd p')) as Hx.
    { clear. induction 1 as [|p p' d c [_ E] F IH]; intros [|k] p0 Hp; try discriminate; cbn in Hp; [|eauto].
      injection Hp as <-. eauto. }
    destruct (Hx _ _ F _ _ I) as [a La]. apply G1 in La. cbn in La. lia. }
  exists e'. split; [exact V'|]. destruct (view_get _ _ _ V') as [ME' GE']. split; [congruence|].
  intros n l Hl. rewrite GE in Hl. destruct (dget d n) as [a|] eqn:Da; [|discriminate].
  pose proof (GC n) as Hc. rewrite Da in Hc. destruct Hc as (b & Cb & Lb).
  rewrite GE', Cb. destruct (G1 _ _ Lb) as ([B1 B2] & y & Y1 & Y2).
  assert (Hy : y = l). { rewrite nth_error_app1 in Y1 by (apply nth_error_Some; congruence). congruence. } subst y.
  assert (Tm : times d n = (if a =? af then 1 else 0) + (if a =? ar then 1 else 0)) by (unfold times; rewrite Da, Af, Ar; reflexivity).
  assert (Eqf : (bf =? b) = (a =? af)).
  { destruct (bf =? b) eqn:Q1, (a =? af) eqn:Q2; auto.
    - apply Nat.eqb_eq in Q1. subst b. rewrite (G2 _ _ _ Lb Lf), Nat.eqb_refl in Q2. discriminate.
    - apply Nat.eqb_eq in Q2. subst a. apply Nat.eqb_neq in Q1. congruence. }
  assert (Eqr : (br =? b) = (a =? ar)).
  { destruct (br =? b) eqn:Q1, (a =? ar) eqn:Q2; auto.
    - apply Nat.eqb_eq in Q1. subst b. rewrite (G2 _ _ _ Lb Lr), Nat.eqb_refl in Q2. discriminate.
    - apply Nat.eqb_eq in Q2. subst a. apply Nat.eqb_neq in Q1. congruence. }
  assert (A1 : nth_error (store (h ++ extra) bf lf') b = Some (if a =? af then lf' else l)).
  { rewrite store_nth, Eqf, Y2. now destruct (a =? af). }
  assert (A2 : nth_error (store (store (h ++ extra) bf lf') br lr') b = Some (if a =? ar then lr' else if a =? af then lf' else l)).
  { rewrite store_nth, Eqr, A1. now destruct (a =? ar). }
  eexists. split; [exact A2|]. rewrite Tm.
  assert (Hf : (a =? af) = true -> lf = l).
  { intro Q. rewrite <- Eqf in Q. apply Nat.eqb_eq in Q. subst b. congruence. }
  assert (Hr : (a =? ar) = true -> lr = if a =? af then lf' else l).
  { intro Q. rewrite <- Eqr in Q. apply Nat.eqb_eq in Q. subst b. congruence. }
  destruct (a =? ar) eqn:Qr, (a =? af) eqn:Qf; cbn [Nat.add INR].
  - rewrite (Hr eq_refl), (Hf eq_refl) in *. split; [congruence|]. intros j x Hx. rewrite (Ir j _ (If j x Hx)).
    destruct (j =? i); f_equal; try lra. 
  - rewrite (Hr eq_refl) in *. split; [congruence|]. intros j x Hx. rewrite (Ir j x Hx). destruct (j =? i); f_equal; lra.
  - rewrite (Hf eq_refl) in *. split; [congruence|]. intros j x Hx. rewrite (If j x Hx). destruct (j =? i); f_equal; lra.
  - split; [reflexivity|]. intros j x Hx. rewrite Hx. destruct (j =? i); f_equal; lra.
Qed.

Lemma raised_unique d i eps e e1 e2 : NoDup (map fst e) -> raised d i eps e e1 -> raised d i eps e e2 -> e1 = e2.
Proof.
  intros ND [M1 R1] [M2 R2].
  assert (G : forall n, dget e1 n = dget e2 n).
  { intro n. destruct (dget e n) as [l|] eqn:E.
    - destruct (R1 _ _ E) as (l1 & -> & Len1 & N1). destruct (R2 _ _ E) as (l2 & -> & Len2 & N2). f_equal.
      apply nth_ext with (d := 0%R) (d' := 0%R); [congruence|]. intros j Hj.
      destruct (nth_error l j) as [x|] eqn:Hx; [|apply nth_error_None in Hx; lia].
      rewrite (nth_error_nth _ _ _ (N1 _ _ Hx)), (nth_error_nth _ _ _ (N2 _ _ Hx)). reflexivity.
    - assert (H : forall d : dict (list R), map fst d = map fst e -> dget d n = None).
      { intros d0 Q. destruct (dget d0 n) eqn:Z; auto. exfalso.
        assert (In n (map fst e)) as I by (rewrite <- Q; apply dget_present; eauto).
        apply dget_present in I. destruct I. congruence. }
      now rewrite !H. }
  clear R1 R2. revert e2 e M1 M2 ND G. induction e1 as [|[n l] e1 IH]; intros e2 e M1 M2 ND G.
  - destruct e2; auto. rewrite <- M1 in M2. discriminate.
  - destruct e2 as [|[m l2] e2]; [rewrite <- M1 in M2; discriminate|].
    destruct e as [|[p x] e]; [discriminate|]. cbn [map fst] in M1, M2, ND. inversion ND as [|? ? Ni ND']; subst.
    injection M1 as -> M1. injection M2 as -> M2.
    assert (l = l2). { specialize (G p). cbn in G. rewrite str_eqb_refl in G. congruence. } subst l2. f_equal.
    apply (IH e2 e); auto. intro k. specialize (G k). cbn in G. destruct (str_eqb k p) eqn:Q; auto.
    apply str_eqb_eq in Q. subst k.
    assert (H : forall d : dict (list R), map fst d = map fst e -> dget d p = None).
    { intros d0 Q. destruct (dget d0 p) eqn:Z; auto. exfalso. apply Ni. rewrite <- Q. apply dget_present. eauto. }
    now rewrite !H.
Qed.

Lemma Reqb_eq x y : Reqb x y = true <-> x = y.
Proof. unfold Reqb. destruct (Req_EM_T x y); split; auto; discriminate. Qed.
Lemma control_ok k r k' r' : is_control k r k' r' (control k r (r' - r) (k' - k)).
Proof.
  unfold control. destruct (Reqb r 0) eqn:E1.
  - left. apply Reqb_eq in E1. auto.
  - assert (r <> 0)%R by (intro Z; apply Reqb_eq in Z; congruence). destruct (Reqb (k' - k) 0) eqn:E2.
    + left. apply Reqb_eq in E2. split; auto. right. lra.
    + assert (k' - k <> 0)%R by (intro Z; apply Reqb_eq in Z; congruence).
      right. split; [split; auto; lra|]. eexists. split; [reflexivity|]. field. auto.
Qed.
Lemma control_unique k r k' r' x y : is_control k r k' r' x -> is_control k r k' r' y -> x = y.
Proof.
  intros [[A ->]|[A (a & -> & E1)]] [[B ->]|[B (b & -> & E2)]]; auto.
  - destruct A, B; tauto.
  - destruct A, B; tauto.
  - f_equal. apply Rmult_eq_reg_r with (r * (k' - k))%R; [congruence|]. destruct A as [A1 A2].
    apply Rmult_integral_contrapositive. split; auto. lra.
Qed.

(** ** All reactions *)
Section Each.
  Context {W : Type}.
  Variable q : tools W.

  Lemma one_frame gas eps d guess r kfs i h w o h' w' : one q gas eps d guess r kfs i h w = (o, h', w') ->
    forall e, view h d = Ok e -> exists extra, h' = h ++ extra.
  Proof.
    unfold one. intros H e V.
    destruct (deepcopy_defined d [] h (view_addresses h d e V)) as (c & h1 & DC). rewrite DC in H.
    destruct (deepcopy_ok (length h) d [] h c h1 (le_n _)) as (memo & extra & -> & [G1 G2] & _ & F); auto.
    { split; intros; discriminate. }
    destruct (copy_get _ _ _ F) as [MC GC].
    assert (FR : forall name h0 h2, raise_at h0 c name i eps = Ok h2 -> (exists x, h0 = h ++ x) -> exists x, h2 = h ++ x).
    { intros name h0 h2 Ra [x ->]. unfold raise_at, dindex in Ra. destruct (dget c name) as [b|] eqn:Cb; [|discriminate].
      pose proof (GC name) as Q. destruct (dget d name) as [a|]; [|congruence]. destruct Q as (b' & Q & Lb).
      assert (b' = b) by congruence. subst b'. apply G1 in Lb. cbn [bind] in Ra.
      destruct (nth_error (h ++ x) b) as [l|]; [|discriminate]. destruct (add_at l i eps) as [l'|]; [|discriminate].
      cbn [bind] in Ra. eexists. assert (h2 = store (h ++ x) b l') as -> by congruence. apply store_app. lia. }
    destruct (raise_at (h ++ extra) c (L "Gaf") i eps) as [h2|] eqn:R1; [|injection H as <- <- <-; eauto].
    pose proof (FR _ _ _ R1 (ex_intro _ _ eq_refl)) as X2.
    destruct (raise_at h2 c (L "Gar") i eps) as [h3|] eqn:R2; [|injection H as <- <- <-; exact X2].
    pose proof (FR _ _ _ R2 X2) as X3.
    destruct (lindex kfs i); [|injection H as <- <- <-; exact X3].
    destruct (view h3 c) as [d0|]; [|injection H as <- <- <-; exact X3].
    destruct (t_constants q d0 w) as [[ks|] w1]; [|injection H as <- <- <-; exact X3].
    destruct (lindex ks i); [|injection H as <- <- <-; exact X3].
    destruct (t_search q guess d0 w1) as [[cv|] w2]; [|injection H as <- <- <-; exact X3].
    destruct (t_tof q cv d0 gas w2) as [[r'|] w3]; injection H as <- <- <-; exact X3.
  Qed.

  Lemma each_frame gas eps d guess r kfs e n : forall i h w o h' w', each q gas eps d guess r kfs i n h w = (o, h', w') ->
    view h d = Ok e -> exists extra, h' = h ++ extra.
  Proof.
    induction n as [|n IH]; intros i h w o h' w' H V; cbn [each] in H.
    - injection H as <- <- <-. exists []. now rewrite app_nil_r.
    - destruct (one q gas eps d guess r kfs i h w) as [[o1 h1] w1] eqn:O.
      destruct (one_frame _ _ _ _ _ _ _ _ _ _ _ _ O e V) as [x1 ->].
      destruct o1 as [x|e1]; [|injection H as <- <- <-; eauto].
      destruct (each q gas eps d guess r kfs (S i) n (h ++ x1) w1) as [[o2 h2] w2] eqn:E.
      destruct (IH _ _ _ _ _ _ E) as [x2 ->]; [now apply view_app|].
      exists (x1 ++ x2). rewrite app_assoc. destruct o2; injection H as <- <- <-; reflexivity.
  Qed.

  (** The names and the lengths needed. *)

  Lemma raise_defined h c name i eps b l : dget c name = Some b -> nth_error h b = Some l -> i < length l ->
    exists h', raise_at h c name i eps = Ok h'.
  Proof.
    intros Cb Nb Li. unfold raise_at, dindex. rewrite Cb. cbn [bind]. rewrite Nb.
    destruct (add_at_defined l i eps Li) as [l' ->]. cbn. eauto.
  Qed.

  Lemma one_copy d h e i eps n : view h d = Ok e -> complete e n -> i < n ->
    exists c h1 h2 h3, deepcopy [] d h = Ok (c, h1) /\ raise_at h1 c (L "Gaf") i eps = Ok h2 /\
      raise_at h2 c (L "Gar") i eps = Ok h3.
  Proof.
    intros V (f & r & Ef & Er & Lf & Lr) Hi.
    destruct (deepcopy_defined d [] h (view_addresses h d e V)) as (c & h1 & DC).
    destruct (deepcopy_ok (length h) d [] h c h1 (le_n _)) as (memo & extra & -> & [G1 G2] & _ & F); auto.
    { split; intros; discriminate. }
    destruct (copy_get _ _ _ F) as [MC GC]. destruct (view_get _ _ _ V) as [ME GE].
    pose proof (GC (L "Gaf")) as GA. pose proof (GC (L "Gar")) as GB.
    rewrite GE in Ef, Er.
    destruct (dget d (L "Gaf")) as [af|] eqn:Af; [|discriminate]. destruct (dget d (L "Gar")) as [ar|] eqn:Ar; [|discriminate].
    destruct GA as (bf & Cf & Lkf). destruct GB as (br & Cr & Lkr).
    destruct (G1 _ _ Lkf) as ([Bf1 Bf2] & yf & Yf1 & Yf2). destruct (G1 _ _ Lkr) as ([Br1 Br2] & yr & Yr1 & Yr2).
    rewrite nth_error_app1 in Yf1, Yr1 by (apply nth_error_Some; congruence).
    assert (yf = f) by congruence. assert (yr = r) by congruence. subst yf yr.
    destruct (raise_defined (h ++ extra) c (L "Gaf") i eps bf f Cf Yf2) as [h2 R1]; [lia|].
    assert (Hr : exists l, nth_error h2 br = Some l /\ i < length l).
    { unfold raise_at, dindex in R1. rewrite Cf in R1. cbn [bind] in R1. rewrite Yf2 in R1.
      destruct (add_at f i eps) as [f'|] eqn:P; [|discriminate]. cbn [bind] in R1.
      assert (h2 = store (h ++ extra) bf f') as -> by congruence. rewrite store_nth, Yr2.
      destruct (bf =? br); [exists f'; split; auto; rewrite (proj1 (add_at_ok _ _ _ _ P)); lia|exists r; split; auto; lia]. }
    destruct Hr as (l & Nl & Li).
    destruct (raise_defined h2 c (L "Gar") i eps br l Cr Nl Li) as [h3 R2].
    exists c, (h ++ extra), h2, h3. auto.
  Qed.

  Lemma lindex_some {A} (l : list A) i x : lindex l i = Ok x <-> nth_error l i = Some x.
  Proof. unfold lindex. destruct (nth_error l i); split; intro H; congruence. Qed.

  Lemma each_ok gas eps d guess r kfs e N : NoDup (map fst d) -> complete e N ->
    forall n i h w l w', view h d = Ok e -> i + n <= N ->
    ((exists h', each q gas eps d guess r kfs i n h w = (Ok l, h', w')) <->
     controls q gas eps d e guess r kfs i n w l w').
  Proof.
    intros ND CE. induction n as [|n IH]; intros i h w l w' V Hn.
    - cbn [each]. split.
      + intros [h' H]. injection H as <- <- <-. constructor.
      + intro H. inversion H; subst. eauto.
    - destruct (one_copy d h e i eps N V CE) as (c & h1 & h2 & h3 & DC & R1 & R2); [lia|].
      destruct (perturbed d h e i eps V c h1 h2 h3 DC R1 R2) as ([extra X3] & e' & V' & Ra).
      assert (NE : NoDup (map fst e)) by (rewrite (proj1 (view_get _ _ _ V)); exact ND).
      assert (V3 : view h3 d = Ok e) by (rewrite X3; now apply view_app). clear X3.
      cbn [each]. unfold one. rewrite DC, R1, R2. split.
      + intros [h' H]. destruct (lindex kfs i) as [k|] eqn:K; [|discriminate]. rewrite V' in H.
        destruct (t_constants q e' w) as [[ks|] w1] eqn:TC; [|discriminate].
        destruct (lindex ks i) as [k'|] eqn:K'; [|discriminate].
        destruct (t_search q guess e' w1) as [[cv|] w2] eqn:TS; [|discriminate].
        destruct (t_tof q cv e' gas w2) as [[r'|] w3] eqn:TT; [|discriminate].
        destruct (each q gas eps d guess r kfs (S i) n h3 w3) as [[[l'|e1] h4] w4] eqn:E; [|discriminate].
        injection H as <- <- <-. apply lindex_some in K, K'.
        eapply next; eauto; [apply control_ok|]. apply (IH (S i) h3); auto; [lia|eauto].
      + intro H. inversion H as [|? ? ? e2 k ks k' cv r' x l' w1 w2 w3 w4 Ra2 K TC K' TS TT IC Rest]; subst.
        assert (e2 = e') by (eapply raised_unique; eauto). subst e2.
        apply lindex_some in K, K'. rewrite K, V', TC, K', TS, TT.
        assert (exists h4, each q gas eps d guess r kfs (S i) n h3 w3 = (Ok l', h4, w')) as [h4 E].
        { apply (IH (S i) h3); auto. lia. }
        rewrite E. exists h4. do 3 f_equal. rewrite (control_unique _ _ _ _ _ _ IC (control_ok k r k' r')). reflexivity.
  Qed.

  Lemma single_ok gas eps given h w l w' e :
    let d := match given with Some d => d | None => t_own q end in
    NoDup (map fst d) -> view h d = Ok e -> complete e (t_rxns q) ->
    ((exists h', single_xrc q gas eps given h w = (Ok l, h', w')) <->
     rate_control q gas (match eps with Some x => x | None => t_size q end) d e w l w').
  Proof.
    intros d ND V CE. unfold single_xrc, rate_control. fold d. rewrite V. split.
    - intros [h' H]. destruct (t_stored q w) as [guess|] eqn:ST; [|discriminate].
      destruct (t_tof q (Some guess) e gas w) as [[r|] w1] eqn:TT; [|discriminate].
      destruct (t_constants q e w1) as [[kfs|] w2] eqn:TC; [|discriminate].
      exists guess, r, kfs, w1, w2. repeat split; auto.
      apply (each_ok gas _ d guess r kfs e (t_rxns q) ND CE (t_rxns q) 0 h w2 l w' V (le_n _)). eauto.
    - intros (guess & r & kfs & w1 & w2 & -> & -> & -> & H).
      apply (each_ok gas _ d guess r kfs e (t_rxns q) ND CE (t_rxns q) 0 h w2 l w' V (le_n _)) in H. exact H.
  Qed.

  Lemma each_err gas eps d guess r kfs e N : NoDup (map fst d) -> complete e N ->
    forall n i h w x h' w', view h d = Ok e -> i + n <= N ->
    each q gas eps d guess r kfs i n h w = (Err x, h', w') ->
    exists m l w1, i + m < N /\ controls q gas eps d e guess r kfs i m w l w1 /\ stops q gas eps d e guess kfs (i + m) w1 x w'.
  Proof.
    intros ND CE. induction n as [|n IH]; intros i h w x h' w' V Hn H; [discriminate|].
    destruct (one_copy d h e i eps N V CE) as (c & h1 & h2 & h3 & DC & R1 & R2); [lia|].
    destruct (perturbed d h e i eps V c h1 h2 h3 DC R1 R2) as ([extra X3] & e' & V' & Ra).
    assert (V3 : view h3 d = Ok e) by (rewrite X3; now apply view_app). clear X3.
    assert (Now : forall w', stops q gas eps d e guess kfs i w x w' -> exists m l w1, i + m < N /\
      controls q gas eps d e guess r kfs i m w l w1 /\ stops q gas eps d e guess kfs (i + m) w1 x w').
    { intros u S. exists 0, [], w. rewrite Nat.add_0_r. split; [lia|]. split; [constructor|exact S]. }
    cbn [each] in H. unfold one in H. rewrite DC, R1, R2 in H.
    destruct (lindex kfs i) as [k|] eqn:K.
    2:{ unfold lindex in K. destruct (nth_error kfs i) eqn:K2; [discriminate|]. injection K as <-. injection H as <- <- <-.
        apply Now. now constructor. }
    rewrite V' in H. destruct (t_constants q e' w) as [[ks|x1] w1] eqn:TC.
    2:{ injection H as <- <- <-. apply Now. econstructor; eauto. }
    destruct (lindex ks i) as [k'|] eqn:K'.
    2:{ unfold lindex in K'. destruct (nth_error ks i) eqn:K2; [discriminate|]. injection K' as <-. injection H as <- <- <-.
        apply Now. eapply no_new_constant; eauto. }
    destruct (t_search q guess e' w1) as [[cv|x1] w2] eqn:TS.
    2:{ injection H as <- <- <-. apply Now. eapply search_fails; eauto. }
    destruct (t_tof q cv e' gas w2) as [[r'|x1] w3] eqn:TT.
    2:{ injection H as <- <- <-. apply Now. eapply tof_fails; eauto. }
    destruct (each q gas eps d guess r kfs (S i) n h3 w3) as [[[l'|e1] h4] w4] eqn:E; [discriminate|].
    injection H as <- <- <-. apply lindex_some in K, K'.
    destruct (IH (S i) h3 w3 e1 h4 w4 V3) as (m & l & u & Hm & C & S); auto; [lia|].
    exists (Datatypes.S m), (control k r (r' - r) (k' - k) :: l), u. split; [lia|]. split.
    - eapply next; eauto. apply control_ok.
    - now replace (i + Datatypes.S m) with (Datatypes.S i + m) by lia.
  Qed.

  Lemma single_err gas eps given h w x h' w' e :
    let d := match given with Some d => d | None => t_own q end in
    let eps' := match eps with Some x => x | None => t_size q end in
    NoDup (map fst d) -> view h d = Ok e -> complete e (t_rxns q) ->
    single_xrc q gas eps given h w = (Err x, h', w') ->
    t_stored q w = None /\ x = AttributeError /\ w' = w \/
    exists guess, t_stored q w = Some guess /\
    (t_tof q (Some guess) e gas w = (Err x, w') \/
     exists r w1, t_tof q (Some guess) e gas w = (Ok r, w1) /\
     (t_constants q e w1 = (Err x, w') \/
      exists kfs w2 m l w3, t_constants q e w1 = (Ok kfs, w2) /\ m < t_rxns q /\
        controls q gas eps' d e guess r kfs 0 m w2 l w3 /\ stops q gas eps' d e guess kfs m w3 x w')).
  Proof.
    intros d eps' ND V CE H. unfold single_xrc in H. fold d in H. rewrite V in H.
    destruct (t_stored q w) as [guess|] eqn:ST; [|injection H as <- <- <-; now left]. right.
    exists guess. split; [reflexivity|].
    destruct (t_tof q (Some guess) e gas w) as [[r|x1] w1] eqn:TT; [|injection H as <- <- <-; now left]. right.
    exists r, w1. split; [reflexivity|].
    destruct (t_constants q e w1) as [[kfs|x1] w2] eqn:TC; [|injection H as <- <- <-; now left]. right.
    destruct (each_err gas _ d guess r kfs e (t_rxns q) ND CE (t_rxns q) 0 h w2 x h' w' V (le_n _) H) as (m & l & u & A & B & C).
    exists kfs, w2, m, l, u. auto.
  Qed.

  (** The lists of the caller. *)
  Lemma single_frame gas eps given h w o h' w' e :
    view h (match given with Some d => d | None => t_own q end) = Ok e ->
    single_xrc q gas eps given h w = (o, h', w') -> exists extra, h' = h ++ extra.
  Proof.
    intros V H. unfold single_xrc in H. rewrite V in H.
    assert (Z : exists x : heap, h = h ++ x) by (exists []; now rewrite app_nil_r).
    destruct (t_stored q w) as [guess|]; [|injection H as <- <- <-; exact Z].
    destruct (t_tof q (Some guess) e gas w) as [[r|] w1]; [|injection H as <- <- <-; exact Z].
    destruct (t_constants q e w1) as [[kfs|] w2]; [|injection H as <- <- <-; exact Z].
    eapply each_frame; eauto.
  Qed.

  (** Failures. *)
  Lemma no_coverages gas eps given h w : t_stored q w = None ->
    single_xrc q gas eps given h w = (Err AttributeError, h, w).
  Proof. intro E. unfold single_xrc. now rewrite E. Qed.

  (** What the solver has stored afterwards. *)
  Lemma controls_stored gas eps d e guess r kfs : (forall c x w cv w', t_search q c x w = (Ok cv, w') -> t_stored q w' = cv) ->
    (forall x w o w', t_constants q x w = (o, w') -> t_stored q w' = t_stored q w) ->
    (forall c x g w o w', t_tof q c x g w = (o, w') -> t_stored q w' = t_stored q w) ->
    forall n i w l w', controls q gas eps d e guess r kfs i (S n) w l w' ->
    exists e' w1 w2 cv, raised d (i + n) eps e e' /\ t_search q guess e' w1 = (Ok cv, w2) /\ t_stored q w' = cv.
  Proof.
    intros HS HC HT. induction n as [|n IH]; intros i w l w' H;
      inversion H as [|? ? ? e2 k ks k' cv r' x l' w1 w2 w3 w4 Ra2 K TC K' TS TT IC Rest]; subst.
    - inversion Rest; subst. rewrite Nat.add_0_r. exists e2, w1, w2, cv. repeat split; try apply Ra2; auto.
      rewrite (HT _ _ _ _ _ _ TT). eauto.
    - destruct (IH _ _ _ _ Rest) as (e' & u1 & u2 & cv' & A & B & C). exists e', u1, u2, cv'.
      replace (i + S n) with (S i + n) by lia. auto.
  Qed.
  Lemma xrc_stored gas eps d e w l w' : (forall c x w cv w', t_search q c x w = (Ok cv, w') -> t_stored q w' = cv) ->
    (forall x w o w', t_constants q x w = (o, w') -> t_stored q w' = t_stored q w) ->
    (forall c x g w o w', t_tof q c x g w = (o, w') -> t_stored q w' = t_stored q w) ->
    rate_control q gas eps d e w l w' -> 0 < t_rxns q ->
    exists guess e' w1 w2 cv, t_stored q w = Some guess /\ raised d (t_rxns q - 1) eps e e' /\
      t_search q guess e' w1 = (Ok cv, w2) /\ t_stored q w' = cv.
  Proof.
    intros HS HC HT (guess & r & kfs & w1 & w2 & ST & TT & TC & H) N.
    destruct (t_rxns q) as [|n]; [lia|].
    destruct (controls_stored _ _ _ _ _ _ _ HS HC HT n 0 w2 l w' H) as (e' & u1 & u2 & cv & A & B & C).
    exists guess, e', u1, u2, cv. replace (S n - 1) with (0 + n) by lia. auto.
  Qed.
End Each.

Lemma separate_times d : separate d -> forall n,
  (n = L "Gaf" \/ n = L "Gar" -> (exists a, dget d n = Some a) -> times d n = 1) /\
  (n <> L "Gaf" -> n <> L "Gar" -> times d n = 0).
Proof.
  intros S n. unfold times. split.
  - intros H [a Da]. rewrite Da. destruct H as [-> | ->].
    + rewrite Da, Nat.eqb_refl. destruct (dget d (L "Gar")) as [b|] eqn:B; auto.
      destruct (a =? b) eqn:Q; auto. apply Nat.eqb_eq in Q. subst b. specialize (S _ _ _ Da B). discriminate.
    + rewrite Da, Nat.eqb_refl. destruct (dget d (L "Gaf")) as [b|] eqn:B; auto.
      destruct (a =? b) eqn:Q; auto. apply Nat.eqb_eq in Q. subst b. specialize (S _ _ _ Da B). discriminate.
  - intros N1 N2. destruct (dget d n) as [a|] eqn:Da; auto.
    assert (forall m, n <> m -> match dget d m with Some b => if a =? b then 1 else 0 | None => 0 end = 0) as H.
    { intros m Hm. destruct (dget d m) as [b|] eqn:B; auto. destruct (a =? b) eqn:Q; auto.
      apply Nat.eqb_eq in Q. subst b. exfalso. apply Hm. eauto. }
    rewrite (H _ N1), (H _ N2). reflexivity.
Qed.

(** Success needs the names and long enough lists. *)
Section Needs.
  Context {W : Type}.
  Variable q : tools W.

  Lemma one_needs gas eps d guess r kfs i h w x h' w' e : view h d = Ok e ->
    one q gas eps d guess r kfs i h w = (Ok x, h', w') ->
    exists f g, dget e (L "Gaf") = Some f /\ dget e (L "Gar") = Some g /\ i < length f /\ i < length g.
  Proof.
    intros V H. unfold one in H.
    destruct (deepcopy_defined d [] h (view_addresses h d e V)) as (c & h1 & DC). rewrite DC in H.
    destruct (raise_at h1 c (L "Gaf") i eps) as [h2|] eqn:R1; [|discriminate].
    destruct (raise_at h2 c (L "Gar") i eps) as [h3|] eqn:R2; [|discriminate]. clear H.
    destruct (deepcopy_ok (length h) d [] h c h1 (le_n _)) as (memo & extra & -> & [G1 G2] & _ & F); auto.
    { split; intros; discriminate. }
    destruct (copy_get _ _ _ F) as [MC GC]. destruct (view_get _ _ _ V) as [ME GE].
    pose proof (GC (L "Gaf")) as GA. pose proof (GC (L "Gar")) as GB. rewrite !GE.
    unfold raise_at, dindex in R1, R2.
    destruct (dget d (L "Gaf")) as [af|] eqn:Af; [|rewrite GA in R1; discriminate].
    destruct (dget d (L "Gar")) as [ar|] eqn:Ar; [|rewrite GB in R2; discriminate].
    destruct GA as (bf & Cf & Lkf). destruct GB as (br & Cr & Lkr). rewrite Cf in R1. rewrite Cr in R2. cbn [bind] in R1, R2.
    destruct (G1 _ _ Lkf) as ([Bf1 Bf2] & f & Yf1 & Yf2). destruct (G1 _ _ Lkr) as ([Br1 Br2] & g & Yr1 & Yr2).
    assert (Dm : forall n a, dget d n = Some a -> a < length h).
    { intros n a Da. apply (view_addresses h d e V n a). clear -Da. induction d as [|[m b] d IH]; [discriminate|]. cbn in Da.
      destruct (str_eqb n m) eqn:Q; [apply str_eqb_eq in Q; subst; injection Da as ->; now left|right; auto]. }
    rewrite nth_error_app1 in Yf1, Yr1 by eauto.
    exists f, g. split; [exact Yf1|]. split; [exact Yr1|].
    rewrite Yf2 in R1. destruct (add_at f i eps) as [f'|] eqn:P1; [|discriminate]. cbn [bind] in R1.
    assert (h2 = store (h ++ extra) bf f') by congruence. subst h2. clear R1.
    assert (Li : i < length f).
    { destruct (le_lt_dec (length f) i) as [Q|Q]; auto. rewrite add_at_short in P1 by auto. discriminate. }
    split; [exact Li|]. rewrite store_nth, Yr2 in R2.
    destruct (bf =? br) eqn:Q.
    - apply Nat.eqb_eq in Q. subst br. assert (g = f) as -> by congruence. exact Li.
    - destruct (add_at g i eps) as [g'|] eqn:P2; [|discriminate].
      destruct (le_lt_dec (length g) i) as [Q2|Q2]; auto. rewrite add_at_short in P2 by auto. discriminate.
  Qed.

  Lemma each_needs gas eps d guess r kfs e : forall n i h w l h' w', view h d = Ok e ->
    each q gas eps d guess r kfs i n h w = (Ok l, h', w') -> 0 < n -> complete e (i + n).
  Proof.
    induction n as [|n IH]; intros i h w l h' w' V H N; [lia|]. cbn [each] in H.
    destruct (one q gas eps d guess r kfs i h w) as [[[x|] h1] w1] eqn:O; [|discriminate].
    destruct (one_frame q _ _ _ _ _ _ _ _ _ _ _ _ O e V) as [x1 ->].
    destruct (one_needs _ _ _ _ _ _ _ _ _ _ _ _ e V O) as (f & g & A & B & C & D).
    destruct (each q gas eps d guess r kfs (S i) n (h ++ x1) w1) as [[[l'|] h2] w2] eqn:E; [|discriminate].
    destruct n as [|n].
    - exists f, g. repeat split; auto; lia.
    - specialize (IH (S i) (h ++ x1) w1 l' h2 w2 (view_app _ _ _ _ V) E). replace (i + S (S n)) with (S i + S n) by lia. apply IH. lia.
  Qed.

  Lemma single_needs gas eps given h w l h' w' e : view h (match given with Some d => d | None => t_own q end) = Ok e ->
    single_xrc q gas eps given h w = (Ok l, h', w') -> 0 < t_rxns q -> complete e (t_rxns q).
  Proof.
    intros V H N. unfold single_xrc in H. rewrite V in H.
    destruct (t_stored q w) as [guess|]; [|discriminate].
    destruct (t_tof q (Some guess) e gas w) as [[r|] w1]; [|discriminate].
    destruct (t_constants q e w1) as [[kfs|] w2]; [|discriminate].
    exact (each_needs _ _ _ _ _ _ _ _ _ _ _ _ _ _ V H N).
  Qed.

  Lemma missing gas eps given h w e guess r w1 kfs w2 : view h (match given with Some d => d | None => t_own q end) = Ok e ->
    t_stored q w = Some guess -> t_tof q (Some guess) e gas w = (Ok r, w1) -> t_constants q e w1 = (Ok kfs, w2) -> 0 < t_rxns q ->
    dget e (L "Gaf") = None \/ (exists f, dget e (L "Gaf") = Some f /\ f <> []) /\ dget e (L "Gar") = None ->
    exists h', single_xrc q gas eps given h w = (Err KeyError, h', w2).
  Proof.
    intros V ST TT TC N M. unfold single_xrc. rewrite ST, V, TT, TC.
    set (d := match given with Some d => d | None => t_own q end) in *.
    destruct (t_rxns q) as [|n]; [lia|]. cbn [each]. unfold one.
    destruct (deepcopy_defined d [] h (view_addresses h d e V)) as (c & h1 & DC). rewrite DC.
    destruct (deepcopy_ok (length h) d [] h c h1 (le_n _)) as (memo & extra & -> & [G1 G2] & _ & F); auto.
    { split; intros; discriminate. }
    destruct (copy_get _ _ _ F) as [MC GC]. destruct (view_get _ _ _ V) as [ME GE].
    assert (Dm : forall n a, dget d n = Some a -> a < length h).
    { intros m a Da. apply (view_addresses h d e V m a). clear -Da. induction d as [|[p b] t IH]; [discriminate|]. cbn in Da.
      destruct (str_eqb m p) eqn:Q; [apply str_eqb_eq in Q; subst; injection Da as ->; now left|right; auto]. }
    assert (Ab : forall m, dget e m = None -> dget c m = None).
    { intros m Hm. pose proof (GC m) as Q. rewrite GE in Hm. destruct (dget d m) as [a|] eqn:Da; auto.
      apply nth_error_None in Hm. apply Dm in Da. lia. }
    set (eps' := match eps with Some e0 => e0 | None => t_size q end).
    destruct M as [M|[(f & M1 & M2) M]].
    - unfold raise_at at 1, dindex at 1. rewrite (Ab _ M). cbn [bind]. eauto.
    - destruct (raise_at (h ++ extra) c (L "Gaf") 0 eps') as [h2|] eqn:R1.
      + unfold raise_at, dindex. rewrite (Ab _ M). cbn [bind]. eauto.
      + exfalso. pose proof (GC (L "Gaf")) as Q. rewrite GE in M1. destruct (dget d (L "Gaf")) as [a|] eqn:Da; [|discriminate].
        destruct Q as (b & Cb & Lb). destruct (G1 _ _ Lb) as (_ & y & Y1 & Y2).
        rewrite nth_error_app1 in Y1 by eauto. assert (y = f) by congruence. subst y.
        destruct (raise_defined (h ++ extra) c (L "Gaf") 0 eps' b f Cb Y2) as [h2 R2]; [destruct f; [congruence|cbn; lia]|]. congruence.
  Qed.
End Needs.
