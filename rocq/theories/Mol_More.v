(** Proofs for C14: texts with unclosed parentheses. *)
From Coq Require Import String Ascii List ZArith NArith QArith Bool Arith Lia.
Import ListNotations.
From Verif Require Import PyBase PyBaseFacts Mol_Model Mol_Spec Mol_Proofs.
Open Scope list_scope.
Open Scope nat_scope.

(** ** Fuel. *)
Lemma s2s_fuel : forall k k' s, length s < k -> length s < k' -> s2s k s = s2s k' s.
Proof.
  induction k as [|k IH]; intros k' s H H'; [lia|]. destruct k' as [|k']; [lia|].
  destruct s as [|c t]; [reflexivity|]. cbn [length] in H, H'. cbn [s2s].
  destruct (is_digit c); [|destruct (Ascii.eqb c "("); [|destruct (is_upper c); [|reflexivity]]].
  - rewrite (IH k'); [reflexivity| |]; cbn [skipn]; rewrite skipn_length; lia.
  - set (i := scan 0 0 0 (c :: t)). rewrite (IH k' (firstn (i - 1) t)).
    + rewrite (IH k' (skipn (S i + _) (c :: t))); [reflexivity| |]; cbn [Nat.add skipn];
        rewrite skipn_length; lia.
    + rewrite firstn_length. lia.
    + rewrite firstn_length. lia.
  - set (i := match t with c1 :: _ => if is_lower c1 then 2 else 1 | [] => 1 end).
    assert (1 <= i) by (unfold i; destruct t as [|c1 t']; [lia|destruct (is_lower c1); lia]).
    rewrite (IH k' (skipn (i + _) (c :: t))); [reflexivity| |]; rewrite skipn_length; cbn [length]; lia.
Qed.

(** ** Depths. *)
Lemma closes_false p s :
  closes p s = false <-> (forall a b, s = a ++ b -> (1 <= depth (Z.of_nat p) a)%Z).
Proof.
  split.
  - intros H a b E. destruct (Z.leb_spec 1 (depth (Z.of_nat p) a)) as [|C]; auto. exfalso.
    assert (closes p a = true) by (apply depth_closes; lia).
    clear C. subst s. revert p H H0. induction a as [|c a IH]; intros [|p] H H0;
      cbn [app closes] in H, H0; try (destruct b; discriminate); try discriminate. destruct (Ascii.eqb c "("), (Ascii.eqb c ")"); eapply IH; eauto.
  - intro H. destruct (closes p s) eqn:E; auto. exfalso. destruct p as [|p].
    + specialize (H [] s eq_refl). cbn in H. lia.
    + destruct (closes_stop p 0 0 s E) as (w & rest & -> & _ & D & _).
      specialize (H (w ++ [")"%char]) rest ltac:(now rewrite <- app_assoc)).
      rewrite depth_app, D in H. cbn in H. lia.
Qed.

Lemma closes_app p a b : closes p a = true -> closes p (a ++ b) = true.
Proof.
  intro H. destruct (closes p (a ++ b)) eqn:E; auto. rewrite <- H. symmetry.
  apply closes_false. intros x y E'. eapply (proj1 (closes_false _ _) E x (y ++ b)).
  rewrite E'. now rewrite app_assoc.
Qed.

Lemma closes_false_prefix p a b : closes p (a ++ b) = false -> closes p a = false.
Proof. intro H. destruct (closes p a) eqn:E; auto. now rewrite (closes_app p a b E) in H. Qed.

Lemma depth_one s : depth 1 s = (depth 0 s + 1)%Z.
Proof. apply (depth_shift 0 1). Qed.
Lemma depth_from p s : depth p s = (depth 0 s + p)%Z.
Proof. apply (depth_shift 0 p). Qed.

Lemma all_closed_depth : forall n s, length s <= n -> all_closed s -> forall p, (depth p s <= p)%Z.
Proof.
  induction n as [|n IH]; intros s Hn C p; (destruct s as [|c t]; [cbn; lia|]); cbn [length] in Hn; [lia|].
  cbn [depth]. assert (Ct : all_closed t) by (apply (all_closed_suffix [c] t); auto).
  destruct (Ascii.eqb c "(") eqn:E1.
  - apply Ascii.eqb_eq in E1. subst c. pose proof (C [] t eq_refl) as K.
    destruct (closes_stop 0 0 0 t K) as (w & rest & -> & _ & D & _).
    change (w ++ ")"%char :: rest) with (w ++ [")"%char] ++ rest) in *.
    rewrite !depth_app. change (depth (depth (p + 1) w) [")"%char]) with (depth (p + 1) w - 1)%Z.
    rewrite app_assoc in Ct. apply all_closed_suffix in Ct.
    rewrite !app_length in Hn. cbn [length] in Hn.
    pose proof (IH rest ltac:(lia) Ct (depth (p + 1) w - 1)%Z) as Hr.
    change (Z.of_nat 1) with 1%Z in D. rewrite depth_one in D.
    assert (Ew : depth (p + 1) w = (p + 1)%Z) by (rewrite depth_from; lia).
    rewrite Ew in Hr |- *. lia.
  - destruct (Ascii.eqb c ")").
    + pose proof (IH t ltac:(lia) Ct (p - 1)%Z). lia.
    + apply IH; auto. lia.
Qed.

(** ** The first parenthesis that is not closed. *)
Lemma first_open s : all_closed s \/
  (exists a b, s = a ++ "("%char :: b /\ all_closed a /\ closes 1 b = false).
Proof.
  induction s as [|c t IH].
  - left. intros a b E. now destruct a.
  - destruct (Ascii.eqb c "(") eqn:E.
    + apply Ascii.eqb_eq in E. subst c. destruct (closes 1 t) eqn:K.
      * destruct IH as [C|(a & b & -> & C & O)].
        -- left. intros [|x a] b E'; cbn [app] in E'; [injection E' as E2; now subst|].
           injection E' as E1 E2. eapply C. exact E2.
        -- right. exists ("("%char :: a), b. repeat split; auto.
           intros [|x a'] b' E'; cbn [app] in E'; [|injection E' as E1 E2; eapply C; exact E2].
           injection E' as E2. subst b'. destruct (closes 1 a) eqn:Ka; auto. exfalso.
           assert (F : closes 1 (a ++ "("%char :: b) = false); [|congruence].
           apply closes_false. intros x y Exy.
           pose proof (proj1 (closes_false 1 a) Ka) as Da. pose proof (proj1 (closes_false 1 b) O) as Db.
           apply app_eq_app in Exy as (l & [(E3 & E4)|(E3 & E4)]).
           ++ eapply Da. exact E3.
           ++ subst x. destruct l as [|c l].
              ** rewrite app_nil_r. apply (Da a []). now rewrite app_nil_r.
              ** cbn [app] in E4. injection E4 as <- E4. rewrite depth_app. cbn [depth].
                 change (Ascii.eqb "(" "(") with true. cbv iota.
                 specialize (Da a [] ltac:(now rewrite app_nil_r)). specialize (Db l y E4).
                 change (Z.of_nat 1) with 1%Z in *. rewrite depth_from. rewrite depth_one in Db. lia.
      * right. exists [], t. repeat split; auto. intros a b E'. now destruct a.
    + assert (P : forall u, all_closed u -> all_closed (c :: u)).
      { intros u C [|x a] b E'; cbn [app] in E'; injection E' as E1 E2; [|eapply C; exact E2].
        subst c. discriminate. }
      destruct IH as [C|(a & b & -> & C & O)]; [left; auto|right; exists (c :: a), b; auto].
Qed.

(** ** The scan. *)
Lemma scan_prefix X s : forall p i last, closes (S p) s = true ->
  scan (Z.of_nat (S p)) i last (s ++ X) = scan (Z.of_nat (S p)) i last s.
Proof.
  induction s as [|c s IH]; intros p i last H; [discriminate|].
  cbn [app scan]. cbn [closes] in H. destruct (Ascii.eqb c "(").
  - replace (Z.of_nat (S p) + 1)%Z with (Z.of_nat (S (S p))) by lia. now apply IH.
  - destruct (Ascii.eqb c ")").
    + destruct p as [|p]; [reflexivity|].
      replace (Z.of_nat (S (S p)) - 1)%Z with (Z.of_nat (S p)) by lia.
      destruct (Z.of_nat (S p) =? 0)%Z; auto.
    + now apply IH.
Qed.

Lemma scan_open s : forall p i last, closes (S p) s = false ->
  scan (Z.of_nat (S p)) i last s = match s with [] => last | _ => i + length s - 1 end.
Proof.
  induction s as [|c s IH]; intros p i last H; [reflexivity|].
  cbn [scan length]. cbn [closes] in H.
  assert (E : match s with [] => i | _ => S i + length s - 1 end = i + S (length s) - 1)
    by (destruct s; cbn [length]; lia).
  destruct (Ascii.eqb c "(").
  - replace (Z.of_nat (S p) + 1)%Z with (Z.of_nat (S (S p))) by lia. rewrite IH; auto.
  - destruct (Ascii.eqb c ")").
    + destruct p as [|p]; [destruct s; discriminate|].
      replace (Z.of_nat (S (S p)) - 1)%Z with (Z.of_nat (S p)) by lia.
      replace (Z.of_nat (S p) =? 0)%Z with false by (symmetry; apply Z.eqb_neq; lia).
      rewrite IH; auto.
    + rewrite IH; auto.
Qed.

Lemma scan_end s : forall p i last, closes (S p) s = false ->
  scan (Z.of_nat (S p)) i last (s ++ [")"%char]) = i + length s.
Proof.
  induction s as [|c s IH]; intros p i last H.
  - cbn [app scan length]. change (Ascii.eqb ")" "(") with false. change (Ascii.eqb ")" ")") with true.
    cbv iota. destruct (Z.of_nat (S p) - 1 =? 0)%Z; lia.
  - cbn [app scan length]. cbn [closes] in H. destruct (Ascii.eqb c "(").
    + replace (Z.of_nat (S p) + 1)%Z with (Z.of_nat (S (S p))) by lia. rewrite IH; auto; lia.
    + destruct (Ascii.eqb c ")").
      * destruct p as [|p]; [destruct s; discriminate|].
        replace (Z.of_nat (S (S p)) - 1)%Z with (Z.of_nat (S p)) by lia.
        replace (Z.of_nat (S p) =? 0)%Z with false by (symmetry; apply Z.eqb_neq; lia).
        rewrite IH; auto; lia.
      * rewrite IH; auto; lia.
Qed.

(** ** What an unclosed parenthesis does. *)
Lemma s2s_open k b : closes 1 b = false -> 0 < k ->
  s2s (S k) ("("%char :: b) = (do inner <- s2s k (removelast b); Ok (inner ++ [])).
Proof.
  intros O Hk. cbn [s2s]. change (is_digit "(") with false. change (Ascii.eqb "(" "(") with true. cbv iota.
  assert (E : scan 0 0 0 ("("%char :: b) = length b).
  { cbn [scan]. change (Ascii.eqb "(" "(") with true. cbv iota.
    change (0 + 1)%Z with (Z.of_nat 1). rewrite scan_open; auto. destruct b; cbn [length]; lia. }
  rewrite E. cbn [skipn Nat.add]. rewrite skipn_all. cbn [count_digits firstn].
  rewrite Nat.add_0_r, skipn_all. rewrite removelast_firstn_len, <- Nat.sub_1_r.
  destruct k as [|k]; [lia|]. rewrite (s2s_nil k).
  destruct (s2s (S k) (firstn (length b - 1) b)); auto. cbn [bind].
  match goal with |- context [times_list (mult_of []) ?x] => change (times_list (mult_of []) x) with (x ++ []) end.
  now rewrite !app_nil_r.
Qed.

Lemma s2s_repaired k b : closes 1 b = false -> 0 < k ->
  s2s (S k) ("("%char :: b ++ [")"%char]) = (do inner <- s2s k b; Ok (inner ++ [])).
Proof.
  intros O Hk. cbn [s2s]. change (is_digit "(") with false. change (Ascii.eqb "(" "(") with true. cbv iota.
  assert (E : scan 0 0 0 ("("%char :: b ++ [")"%char]) = S (length b)).
  { cbn [scan]. change (Ascii.eqb "(" "(") with true. cbv iota.
    change (0 + 1)%Z with (Z.of_nat 1). rewrite scan_end; auto. }
  rewrite E. replace (S (length b) - 1) with (length b) by lia. rewrite firstn_app_exact.
  assert (A : skipn (S (length b)) (b ++ [")"%char]) = []).
  { apply skipn_all2. rewrite app_length. cbn [length]. lia. }
  cbn [skipn Nat.add]. cbn [skipn] in A. rewrite A. cbn [count_digits firstn]. rewrite Nat.add_0_r.
  change (match b ++ [")"%char] with [] => [] | _ :: l => skipn (length b) l end)
    with (skipn (S (length b)) (b ++ [")"%char])) in *. rewrite A.
  destruct k as [|k]; [lia|]. rewrite (s2s_nil k).
  destruct (s2s (S k) b); auto. cbn [bind].
  match goal with |- context [times_list (mult_of []) ?x] => change (times_list (mult_of []) x) with (x ++ []) end.
  now rewrite !app_nil_r.
Qed.

Lemma count_digits_before s X : starts_digit X = false -> count_digits (s ++ X) = count_digits s.
Proof.
  intro H. induction s as [|c s IH]; cbn [app count_digits].
  - destruct X as [|c X]; auto. cbn [starts_digit] in H. cbn. now rewrite H.
  - now rewrite IH.
Qed.
Lemma count_digits_le s : count_digits s <= length s.
Proof. induction s as [|c s IH]; cbn; [lia|]. destruct (is_digit c); lia. Qed.
Lemma skipn_before {A} n (a b : list A) : n <= length a -> skipn n (a ++ b) = skipn n a ++ b.
Proof. intro H. rewrite skipn_app. now replace (n - length a) with 0 by lia. Qed.
Lemma firstn_before {A} n (a b : list A) : n <= length a -> firstn n (a ++ b) = firstn n a.
Proof. intro H. rewrite firstn_app. replace (n - length a) with 0 by lia. cbn. apply app_nil_r. Qed.

(** Texts behind a prefix with closed parentheses that begin with a parenthesis and are
    read alike. *)
Lemma s2s_context X Y :
  (forall k k', S (length X) < k -> S (length Y) < k' -> s2s k ("("%char :: X) = s2s k' ("("%char :: Y)) ->
  forall n a k k', length a <= n -> all_closed a ->
  S (length a + length X) < k -> S (length a + length Y) < k' ->
  s2s k (a ++ "("%char :: X) = s2s k' (a ++ "("%char :: Y).
Proof.
  intro HXY. induction n as [|n IH]; intros a k k' Hn C Hk Hk';
    (destruct a as [|c t]; [apply HXY; cbn in *; lia|]); cbn [length] in *; [lia|].
  assert (Ct : all_closed t) by (apply (all_closed_suffix [c] t); auto).
  destruct k as [|k]; [lia|]. destruct k' as [|k']; [lia|].
  assert (NX : forall Z, starts_digit ("("%char :: Z) = false) by reflexivity.
  cbn [app s2s]. destruct (is_digit c) eqn:Ed.
  - rewrite !count_digits_before by apply NX. pose proof (count_digits_le t).
    cbn [skipn firstn]. rewrite !skipn_before, !firstn_before by lia.
    rewrite (IH (skipn (count_digits t) t) k k'); try (rewrite skipn_length; lia); auto.
    apply (all_closed_suffix (firstn (count_digits t) t)). now rewrite firstn_skipn.
  - destruct (Ascii.eqb c "(") eqn:Eo.
    + apply Ascii.eqb_eq in Eo. subst c. pose proof (C [] t eq_refl) as K.
      assert (Sc : forall Z, scan 0 0 0 ("("%char :: t ++ Z) = scan 0 0 0 ("("%char :: t)).
      { intro Z. cbn [scan]. change (Ascii.eqb "(" "(") with true. cbv iota.
        change (0 + 1)%Z with (Z.of_nat 1). now apply scan_prefix. }
      rewrite !Sc. clear Sc.
      assert (E : scan 0 0 0 ("("%char :: t) <= length t).
      { cbn [scan]. change (Ascii.eqb "(" "(") with true. cbv iota.
        change (0 + 1)%Z with (Z.of_nat 1).
        destruct (closes_stop 0 1 0 t K) as (w & rest & -> & -> & _). rewrite app_length. cbn [length]. lia. }
      set (i := scan 0 0 0 ("("%char :: t)) in *. clearbody i.
      cbn [skipn Nat.add]. rewrite !(skipn_before i) by lia.
      rewrite !count_digits_before by apply NX.
      pose proof (count_digits_le (skipn i t)) as Hd. rewrite skipn_length in Hd.
      set (d := count_digits (skipn i t)) in *.
      rewrite !(skipn_before (i + d)) by lia. rewrite !(firstn_before (i - 1)) by lia.
      rewrite !(firstn_before d) by (rewrite skipn_length; lia).
      rewrite (s2s_fuel k k' (firstn (i - 1) t)) by (rewrite firstn_length; lia).
      rewrite (IH (skipn (i + d) t) k k'); try (rewrite skipn_length; lia); auto.
      apply (all_closed_suffix (firstn (i + d) t)). now rewrite firstn_skipn.
    + destruct (is_upper c); [|reflexivity].
      assert (Ei : forall Z, match t ++ "("%char :: Z with c1 :: _ => if is_lower c1 then 2 else 1 | [] => 1 end
                  = match t with c1 :: _ => if is_lower c1 then 2 else 1 | [] => 1 end) by (intro Z; now destruct t).
      rewrite !Ei. clear Ei.
      assert (Hi : match t with c1 :: _ => if is_lower c1 then 2 else 1 | [] => 1 end <= length (c :: t)).
      { destruct t as [|c1 t']; cbn [length]; [lia|]. destruct (is_lower c1); lia. }
      assert (Hi' : 1 <= match t with c1 :: _ => if is_lower c1 then 2 else 1 | [] => 1 end).
      { destruct t as [|c1 t']; [lia|]. destruct (is_lower c1); lia. }
      set (i := match t with c1 :: _ => if is_lower c1 then 2 else 1 | [] => 1 end) in *. clearbody i.
      change (c :: t ++ "("%char :: X) with ((c :: t) ++ "("%char :: X).
      change (c :: t ++ "("%char :: Y) with ((c :: t) ++ "("%char :: Y).
      rewrite !(skipn_before i) by lia. rewrite !count_digits_before by apply NX.
      pose proof (count_digits_le (skipn i (c :: t))) as Hd. rewrite skipn_length in Hd.
      set (d := count_digits (skipn i (c :: t))) in *.
      rewrite !(skipn_before (i + d)) by lia. rewrite !(firstn_before i) by lia.
      rewrite !(firstn_before d) by (rewrite skipn_length; lia).
      cbn [length] in *.
      rewrite (IH (skipn (i + d) (c :: t)) k k'); try (rewrite skipn_length; cbn [length]; lia); auto.
      apply (all_closed_suffix (firstn (i + d) (c :: t))). now rewrite firstn_skipn.
Qed.

(** ** The relation. *)
Lemma removelast_prefix {A} (l : list A) : exists r, l = removelast l ++ r.
Proof.
  destruct l as [|x l]; [now exists []|]. exists [last (x :: l) x]. apply app_removelast_last. discriminate.
Qed.

Lemma stands_closes s s' : stands_for s s' -> forall p, closes (S p) s = false -> closes (S p) s' = false.
Proof.
  induction 1 as [s C|a b b' C O H IH]; intros p Hp; auto.
  assert (O' : closes 1 b' = false).
  { apply IH. destruct (removelast_prefix b) as (r & E). rewrite E in O. now apply closes_false_prefix in O. }
  pose proof (proj1 (closes_false _ _) Hp) as Da. pose proof (proj1 (closes_false _ _) O') as Db.
  assert (A : forall x y, a = x ++ y -> (1 <= depth (Z.of_nat (S p)) x)%Z).
  { intros x y E. apply (Da x (y ++ "("%char :: b)). rewrite E. now rewrite <- app_assoc. }
  change (Z.of_nat 1) with 1%Z in Db.
  apply closes_false. intros x y Exy. apply app_eq_app in Exy as (l & [(E3 & E4)|(E3 & E4)]); [eapply A; exact E3|].
  subst x. pose proof (A a [] ltac:(now rewrite app_nil_r)) as Aa. destruct l as [|c l]; [now rewrite app_nil_r|].
  cbn [app] in E4. injection E4 as <- E4. rewrite depth_app. cbn [depth].
  change (Ascii.eqb "(" "(") with true. cbv iota.
  assert (Hcase : (0 <= depth 0 l)%Z \/ l = b' ++ [")"%char]).
  { apply app_eq_app in E4 as (r & [(E5 & E6)|(E5 & E6)]).
    - left. specialize (Db l r E5). rewrite depth_one in Db. lia.
    - subst l. destruct r as [|z r].
      + left. rewrite app_nil_r. specialize (Db b' [] ltac:(now rewrite app_nil_r)). rewrite depth_one in Db. lia.
      + right. cbn [app] in E6. injection E6 as <- E6. symmetry in E6. apply app_eq_nil in E6 as [-> _]. reflexivity. }
  destruct Hcase as [Hl| ->].
  - rewrite depth_from. lia.
  - rewrite depth_app. specialize (Db b' [] ltac:(now rewrite app_nil_r)). rewrite depth_one in Db.
    rewrite (depth_from _ b'). cbn [depth].
    change (Ascii.eqb ")" "(") with false. change (Ascii.eqb ")" ")") with true. cbv iota. lia.
Qed.

Lemma stands_all_closed s s' : stands_for s s' -> all_closed s'.
Proof.
  induction 1 as [s C|a b b' C O H IH]; auto.
  assert (O' : closes 1 b' = false).
  { eapply stands_closes; [exact H|]. destruct (removelast_prefix b) as (r & E). rewrite E in O.
    now apply closes_false_prefix in O. }
  assert (K : closes 1 (b' ++ [")"%char]) = true).
  { apply depth_closes. rewrite depth_app.
    pose proof (all_closed_depth _ b' (le_n _) IH 1%Z) as D. cbn [depth].
    change (Z.of_nat 1) with 1%Z. change (Ascii.eqb ")" "(") with false. change (Ascii.eqb ")" ")") with true.
    cbv iota. lia. }
  intros x y Exy. apply app_eq_app in Exy as (l & [(E3 & E4)|(E3 & E4)]).
  - destruct l as [|c l].
    + cbn [app] in E4. injection E4 as E4. subst y. exact K.
    + cbn [app] in E4. injection E4 as E5 E4. subst c y. apply closes_app. eapply C. exact E3.
  - destruct l as [|c l].
    + cbn [app] in E4. injection E4 as E4. subst y. exact K.
    + cbn [app] in E4. injection E4 as _ E4. apply app_eq_app in E4 as (r & [(E5 & E6)|(E5 & E6)]).
      * destruct r as [|z r]; cbn [app] in E6; [discriminate|]. injection E6 as E7 E6. subst z y.
        apply closes_app. eapply IH. exact E5.
      * destruct r as [|z r]; cbn [app] in E6; [discriminate|]. injection E6 as E7 E6.
        now destruct r.
Qed.

Lemma stands_exists : forall n s, length s <= n -> exists s', stands_for s s'.
Proof.
  induction n as [|n IH]; intros s Hn.
  - destruct s; [|cbn in Hn; lia]. exists []. constructor. intros a b E. now destruct a.
  - destruct (first_open s) as [C|(a & b & -> & C & O)]; [exists s; now constructor|].
    rewrite app_length in Hn. cbn [length] in Hn.
    destruct (IH (removelast b)) as (b' & H).
    { rewrite removelast_firstn_len, firstn_length. lia. }
    eexists. apply StandsOpen; eauto.
Qed.

Lemma stands_unique s s1 : stands_for s s1 -> forall s2, stands_for s s2 -> s2 = s1.
Proof.
  induction 1 as [s C|a b b' C O H IH]; intros s2 H2.
  - inversion H2 as [? ?|a b b' C' O' H']; subst; auto.
    exfalso. specialize (C a b eq_refl). congruence.
  - inversion H2 as [s C'|a2 b2 b2' C' O' H' E].
    + exfalso. specialize (C' a b eq_refl). congruence.
    + assert (a2 = a /\ b2 = b) as [-> ->].
      { symmetry in E. apply app_eq_app in E as (l & [(E3 & E4)|(E3 & E4)]); destruct l as [|c l]; cbn [app] in E4.
        - injection E4 as ->. rewrite app_nil_r in E3. auto.
        - injection E4 as <- E4. exfalso. assert (closes 1 l = true) by (eapply C; exact E3).
          subst b2. rewrite (closes_app _ _ _ H0) in O'. discriminate.
        - injection E4 as ->. rewrite app_nil_r in E3. auto.
        - injection E4 as <- E4. exfalso. assert (closes 1 l = true) by (eapply C'; exact E3).
          subst b. rewrite (closes_app _ _ _ H0) in O. discriminate. }
      now rewrite (IH _ H').
Qed.

Lemma stands_reads s s' : stands_for s s' -> string2symbols s = string2symbols s'.
Proof.
  induction 1 as [s C|a b b' C O H IH]; auto.
  unfold string2symbols in *.
  assert (O' : closes 1 b' = false).
  { eapply stands_closes; [exact H|]. destruct (removelast_prefix b) as (r & E). rewrite E in O.
    now apply closes_false_prefix in O. }
  assert (Lb : length (removelast b) <= length b) by (rewrite removelast_firstn_len, firstn_length; lia).
  apply (s2s_context b (b' ++ [")"%char])) with (n := length a); auto;
    rewrite ?app_length; cbn [length]; rewrite ?app_length; cbn [length]; try lia.
  intros k k' Hk Hk'. rewrite ?app_length in Hk'. cbn [length] in Hk'.
  destruct k as [|k]; [lia|]. destruct k' as [|k']; [lia|].
  rewrite s2s_open, s2s_repaired by (auto; lia).
  rewrite (s2s_fuel k (S (length (removelast b)))), IH by lia.
  now rewrite (s2s_fuel k' (S (length b'))) by lia.
Qed.

Lemma acceptance s : exists s',
  stands_for s s' /\ (forall s2, stands_for s s2 -> s2 = s') /\ all_closed s' /\
  ((exists l, string2symbols s = Ok l) <-> (exists m, mol_ok m /\ write_mol m = s')) /\
  (forall m, mol_ok m -> write_mol m = s' ->
     exists l, string2symbols s = Ok l /\ forall x, occurrences x l = mol_count x m) /\
  (~ (exists m, mol_ok m /\ write_mol m = s') -> string2symbols s = Err ValueError).
Proof.
  destruct (stands_exists _ s (le_n _)) as (s' & H). exists s'.
  pose proof (stands_all_closed _ _ H) as C. pose proof (stands_reads _ _ H) as E.
  destruct (accept_iff s' C) as (A & B).
  split; [auto|]. split; [eapply stands_unique; eauto|]. split; [auto|]. rewrite E.
  split; [exact A|]. split; [|exact B].
  intros m M W. rewrite <- W. now apply read_molecule.
Qed.

(** Texts without an opening parenthesis behind which another one is open: what is lost is
    the last character. *)
Lemma one_open a b : all_closed a -> closes 1 b = false -> all_closed (removelast b) ->
  string2symbols (a ++ "("%char :: b) = string2symbols (a ++ "("%char :: removelast b ++ [")"%char]).
Proof. intros A B C. apply stands_reads. apply StandsOpen; auto. now constructor. Qed.

Lemma mass_stands s s' absolute : stands_for s s' -> molecular_mass s absolute = molecular_mass s' absolute.
Proof. intro H. unfold molecular_mass. now rewrite (stands_reads _ _ H). Qed.
