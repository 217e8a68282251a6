(** Proofs about molecular formulas (C14). *)
From Coq Require Import String Ascii List ZArith NArith QArith Bool Arith Lia.
Import ListNotations.
From Verif Require Import PyBase PyBaseFacts Mol_Model Mol_Spec.
Open Scope list_scope.
Open Scope nat_scope.

Scheme mol_mut := Induction for mol Sort Prop
with items_mut := Induction for items Sort Prop.
Combined Scheme mol_items_ind from mol_mut, items_mut.

Lemma occurrences_app x a b : occurrences x (a ++ b) = (occurrences x a + occurrences x b)%Z.
Proof. induction a as [|y a IH]; cbn [app occurrences]; lia. Qed.

Lemma occurrences_repeat x n l : occurrences x (repeat_list n l) = (Z.of_nat n * occurrences x l)%Z.
Proof. induction n as [|n IH]; cbn [repeat_list]; [reflexivity|]. rewrite occurrences_app, IH. lia. Qed.

Lemma occurrences_times x m l : (0 <= m)%Z -> occurrences x (times_list m l) = (m * occurrences x l)%Z.
Proof. intro H. unfold times_list. rewrite occurrences_repeat, Z2Nat.id; auto. Qed.

Lemma number_nonneg n : digits n -> (0 <= number n)%Z.
Proof. intro D. destruct n; cbn [number]; [lia|]. now apply int_of_nonneg. Qed.

Definition starts_digit (s : str) : bool := match s with c :: _ => is_digit c | [] => false end.

Lemma count_digits_app n rest : digits n -> starts_digit rest = false -> count_digits (n ++ rest) = length n.
Proof.
  unfold digits. induction n as [|c n IH]; cbn [app forallb length]; intros D S.
  - destruct rest as [|c rest]; auto. cbn in S. cbn. now rewrite S.
  - apply andb_true_iff in D as [D1 D2]. cbn [count_digits]. rewrite D1, IH; auto.
Qed.

Lemma skipn_app_exact {A} (a b : list A) : skipn (length a) (a ++ b) = b.
Proof. induction a; auto. Qed.
Lemma firstn_app_exact {A} (a b : list A) : firstn (length a) (a ++ b) = a.
Proof. induction a; cbn; auto. now f_equal. Qed.

Lemma skipn_skipn {A} n m (l : list A) : skipn n (skipn m l) = skipn (n + m) l.
Proof.
  revert l; induction m as [|m IH]; intro l; [now rewrite Nat.add_0_r|].
  rewrite Nat.add_succ_r. destruct l; [now rewrite !skipn_nil|]. cbn [skipn]. apply IH.
Qed.

Lemma upper_not_digit c : is_upper c = true -> is_digit c = false.
Proof. all_ascii c. Qed.
Lemma upper_not_open c : is_upper c = true -> Ascii.eqb c "(" = false.
Proof. all_ascii c. Qed.
Lemma upper_not_close c : is_upper c = true -> Ascii.eqb c ")" = false.
Proof. all_ascii c. Qed.
Lemma lower_not_open c : is_lower c = true -> Ascii.eqb c "(" = false.
Proof. all_ascii c. Qed.
Lemma lower_not_close c : is_lower c = true -> Ascii.eqb c ")" = false.
Proof. all_ascii c. Qed.
Lemma digit_not_open c : is_digit c = true -> Ascii.eqb c "(" = false.
Proof. all_ascii c. Qed.
Lemma digit_not_close c : is_digit c = true -> Ascii.eqb c ")" = false.
Proof. all_ascii c. Qed.
Lemma digit_not_lower c : is_digit c = true -> is_lower c = false.
Proof. all_ascii c. Qed.
Lemma upper_not_lower c : is_upper c = true -> is_lower c = false.
Proof. all_ascii c. Qed.

Lemma items_start its : items_ok its ->
  match write_items its with
  | [] => its = INil
  | c :: _ => is_digit c = false /\ is_lower c = false
  end.
Proof.
  destruct its as [|u l n rest|g n rest]; cbn [write_items items_ok].
  - reflexivity.
  - intros (U & _). cbn. split; [now apply upper_not_digit|now apply upper_not_lower].
  - intros _. cbn. auto.
Qed.

Lemma items_not_digit its : items_ok its -> starts_digit (write_items its) = false.
Proof.
  intro H. pose proof (items_start its H). destruct (write_items its); auto. now destruct H0.
Qed.

(** Texts that leave the parenthesis depth unchanged. *)
Definition neutral (w : str) : Prop :=
  forall p i last rest, (1 <= p)%Z ->
    exists last', scan p i last (w ++ rest) = scan p (i + length w) last' rest.

Lemma neutral_nil : neutral [].
Proof. intros p i last rest _. exists last. cbn [app length]. now rewrite Nat.add_0_r. Qed.

Lemma neutral_app a b : neutral a -> neutral b -> neutral (a ++ b).
Proof.
  intros A B p i last rest H. rewrite <- app_assoc.
  destruct (A p i last (b ++ rest) H) as (l1 & ->).
  destruct (B p (i + length a) l1 rest H) as (l2 & ->).
  exists l2. f_equal. rewrite app_length. lia.
Qed.

Lemma neutral_char c : Ascii.eqb c "(" = false -> Ascii.eqb c ")" = false -> neutral [c].
Proof.
  intros H1 H2 p i last rest _. exists i. cbn [app scan length]. rewrite H1, H2. f_equal. lia.
Qed.

Lemma neutral_digits n : digits n -> neutral n.
Proof.
  induction n as [|c n IH]; intro D; [apply neutral_nil|].
  apply andb_true_iff in D as [D1 D2]. apply (neutral_app [c] n); auto.
  apply neutral_char; [now apply digit_not_open|now apply digit_not_close].
Qed.

Lemma neutral_group w : neutral w -> neutral (L "(" ++ w ++ L ")").
Proof.
  intros N p i last rest H. cbn [L list_ascii_of_string app scan].
  change (Ascii.eqb "(" "(") with true. cbv iota.
  rewrite <- app_assoc. cbn [app].
  destruct (N (p + 1)%Z (S i) i (")"%char :: rest) ltac:(lia)) as (l1 & ->).
  cbn [scan]. change (Ascii.eqb ")" "(") with false. change (Ascii.eqb ")" ")") with true. cbv iota.
  replace (p + 1 - 1)%Z with p by lia. replace (p =? 0)%Z with false by lia.
  eexists. f_equal. cbn [length]. rewrite app_length. cbn. lia.
Qed.

Lemma write_neutral : (forall m, mol_ok m -> neutral (write_mol m)) /\
                      (forall its, items_ok its -> neutral (write_items its)).
Proof.
  apply mol_items_ind; cbn [mol_ok items_ok write_mol write_items].
  - intros lead its IH (D & H). apply neutral_app; auto. now apply neutral_digits.
  - intros _. apply neutral_nil.
  - intros u l n rest IH (U & Lw & D & H).
    apply neutral_app; [|apply neutral_app; auto; now apply neutral_digits].
    unfold symbol. apply (neutral_app [u]).
    + apply neutral_char; [now apply upper_not_open|now apply upper_not_close].
    + destruct l as [c|]; [|apply neutral_nil].
      apply neutral_char; [now apply lower_not_open|now apply lower_not_close].
  - intros g IHg n rest IHr (G & D & H).
    replace (L "(" ++ write_mol g ++ L ")" ++ n ++ write_items rest)
      with ((L "(" ++ write_mol g ++ L ")") ++ n ++ write_items rest) by now rewrite <- !app_assoc.
    apply neutral_app; [now apply neutral_group, IHg|].
    apply neutral_app; auto. now apply neutral_digits.
Qed.

Lemma scan_group w rest : neutral w -> scan 0 0 0 ("("%char :: w ++ ")"%char :: rest) = S (length w).
Proof.
  intro N. cbn [scan]. change (Ascii.eqb "(" "(") with true. cbv iota.
  destruct (N (0 + 1)%Z 1 0 (")"%char :: rest) ltac:(lia)) as (l & ->).
  cbn [scan]. reflexivity.
Qed.

(** One step of the reader, case by case. *)
Lemma s2s_nil k : s2s (S k) [] = Ok [].
Proof. reflexivity. Qed.

Lemma s2s_lead k c n rest :
  digits (c :: n) -> starts_digit rest = false ->
  s2s (S k) ((c :: n) ++ rest)
  = (do l <- s2s k rest; Ok (times_list (int_of (c :: n)) l)).
Proof.
  intros D SD0. pose proof D as D'. apply andb_true_iff in D' as [D1 D2].
  cbn [app s2s]. rewrite D1. rewrite count_digits_app by auto.
  change (c :: n ++ rest) with ((c :: n) ++ rest).
  change (S (length n)) with (length (c :: n)).
  now rewrite skipn_app_exact, firstn_app_exact.
Qed.

Lemma s2s_elem k u l n rest :
  is_upper u = true -> match l with Some c => is_lower c = true | None => True end ->
  digits n -> match rest with [] => True | c :: _ => is_digit c = false /\ is_lower c = false end ->
  s2s (S k) (symbol u l ++ n ++ rest)
  = (do r <- s2s k rest; Ok (times_list (mult_of n) [symbol u l] ++ r)).
Proof.
  intros U Lw D Sr. unfold symbol. cbn [app s2s].
  rewrite (upper_not_digit u U), (upper_not_open u U), U.
  assert (SD : starts_digit rest = false) by (destruct rest; auto; now destruct Sr).
  destruct l as [c|]; cbn [app].
  - rewrite Lw. cbn [skipn firstn]. rewrite count_digits_app by auto.
    change (2 + length n) with (S (S (length n))). cbn [skipn].
    rewrite skipn_app_exact, firstn_app_exact. reflexivity.
  - assert (E : (match n ++ rest with c1 :: _ => if is_lower c1 then 2 else 1 | [] => 1 end) = 1).
    { destruct n as [|d n]; cbn [app].
      - destruct rest; auto. destruct Sr as [_ ->]. reflexivity.
      - apply andb_true_iff in D as [D1 _]. now rewrite (digit_not_lower d D1). }
    rewrite E. cbn [skipn firstn]. rewrite count_digits_app by auto.
    change (1 + length n) with (S (length n)). cbn [skipn].
    rewrite skipn_app_exact, firstn_app_exact. reflexivity.
Qed.

Lemma s2s_group k w n rest :
  neutral w -> digits n -> starts_digit rest = false ->
  s2s (S k) (L "(" ++ w ++ L ")" ++ n ++ rest)
  = (do inner <- s2s k w; do r <- s2s k rest; Ok (times_list (mult_of n) inner ++ r)).
Proof.
  intros N D SD0. cbn [L list_ascii_of_string app s2s].
  change (is_digit "(") with false. change (Ascii.eqb "(" "(") with true. cbv iota.
  rewrite (scan_group w (n ++ rest) N).
  assert (E1 : firstn (Datatypes.S (length w) - 1) (w ++ ")"%char :: n ++ rest) = w).
  { replace (Datatypes.S (length w) - 1) with (length w) by lia. apply firstn_app_exact. }
  rewrite E1.
  assert (E2 : skipn (Datatypes.S (Datatypes.S (length w))) ("("%char :: w ++ ")"%char :: n ++ rest) = n ++ rest).
  { change (skipn (Datatypes.S (length w)) (w ++ ")"%char :: n ++ rest) = n ++ rest).
    replace (w ++ ")"%char :: n ++ rest) with ((w ++ [")"%char]) ++ n ++ rest) by (rewrite <- app_assoc; reflexivity).
    replace (Datatypes.S (length w)) with (length (w ++ [")"%char])) by (rewrite app_length; cbn; lia).
    apply skipn_app_exact. }
  rewrite E2. rewrite count_digits_app by auto. rewrite firstn_app_exact.
  assert (E3 : skipn (Datatypes.S (Datatypes.S (length w)) + length n) ("("%char :: w ++ ")"%char :: n ++ rest) = rest).
  { rewrite Nat.add_comm. rewrite <- skipn_skipn, E2. apply skipn_app_exact. }
  rewrite E3. reflexivity.
Qed.

Lemma mult_of_number n : mult_of n = number n.
Proof. reflexivity. Qed.

Lemma read_written :
  (forall m, mol_ok m -> forall k, length (write_mol m) < k ->
     exists l, s2s k (write_mol m) = Ok l /\ forall x, occurrences x l = mol_count x m) /\
  (forall its, items_ok its -> forall k, length (write_items its) < k ->
     exists l, s2s k (write_items its) = Ok l /\ forall x, occurrences x l = items_count x its).
Proof.
  apply mol_items_ind; cbn [mol_ok items_ok write_mol write_items mol_count items_count].
  - intros lead its IH (D & H) k Hk. destruct lead as [|c n].
    + destruct (IH H k Hk) as (l & E & C). exists l. split; auto. intro x. rewrite C. cbn [number]. lia.
    + destruct k as [|k]; [lia|]. rewrite app_length in Hk. cbn [length] in Hk.
      destruct (IH H k ltac:(lia)) as (l & E & C).
      rewrite s2s_lead; auto; [|now apply items_not_digit]. rewrite E. cbn [bind].
      eexists. split; [reflexivity|]. intro x. rewrite occurrences_times, C; [reflexivity|].
      now apply int_of_nonneg.
  - intros _ k Hk. destruct k as [|k]; [lia|]. exists []. split; reflexivity.
  - intros u l n rest IH (U & Lw & D & H) k Hk. destruct k as [|k]; [lia|].
    rewrite !app_length in Hk. unfold symbol in Hk. cbn [length] in Hk.
    destruct (IH H k ltac:(lia)) as (r & E & C).
    rewrite s2s_elem; auto.
    + rewrite E. cbn [bind]. eexists. split; [reflexivity|]. intro x.
      rewrite occurrences_app, occurrences_times, C, mult_of_number; [|now apply number_nonneg].
      cbn [occurrences]. destruct (str_eqb (symbol u l) x); lia.
    + pose proof (items_start rest H) as St. destruct (write_items rest); auto.
  - intros g IHg n rest IHr (G & D & H) k Hk. destruct k as [|k]; [lia|].
    rewrite !app_length in Hk. cbn [L list_ascii_of_string length] in Hk.
    destruct (IHg G k ltac:(lia)) as (lg & Eg & Cg).
    destruct (IHr H k ltac:(lia)) as (r & E & C).
    rewrite s2s_group; auto; [|now apply (proj1 write_neutral)|now apply items_not_digit].
    rewrite Eg. cbn [bind]. rewrite E. cbn [bind]. eexists. split; [reflexivity|]. intro x.
    rewrite occurrences_app, occurrences_times, Cg, C, mult_of_number; [lia|now apply number_nonneg].
Qed.

Lemma read_molecule m : mol_ok m ->
  exists l, string2symbols (write_mol m) = Ok l /\ forall x, occurrences x l = mol_count x m.
Proof. intro H. apply (proj1 read_written); auto. Qed.

(** ** The converse: what is accepted. *)

Lemma count_digits_split s : exists r, s = firstn (count_digits s) s ++ r /\
  digits (firstn (count_digits s) s) /\ starts_digit r = false /\ skipn (count_digits s) s = r.
Proof.
  induction s as [|c s IH].
  - exists []. repeat split.
  - cbn [count_digits]. destruct (is_digit c) eqn:E.
    + destruct IH as (r & E1 & D & S & K). exists r. cbn [firstn skipn app]. repeat split; auto.
      * now rewrite <- E1.
      * unfold digits in *. cbn [forallb]. now rewrite E, D.
    + exists (c :: s). repeat split. exact E.
Qed.

(** If the depth comes back to zero, the loop stops at the closing parenthesis of a
    text in which every parenthesis is closed. *)
Fixpoint depth (p : Z) (s : str) : Z :=
  match s with
  | [] => p
  | c :: t => if Ascii.eqb c "(" then depth (p + 1) t
              else if Ascii.eqb c ")" then depth (p - 1) t else depth p t
  end.

Lemma depth_app p a b : depth p (a ++ b) = depth (depth p a) b.
Proof.
  revert p; induction a as [|c a IH]; intro p; cbn [app depth]; auto.
  destruct (Ascii.eqb c "("), (Ascii.eqb c ")"); auto.
Qed.

Lemma depth_shift p q s : depth (p + q) s = (depth p s + q)%Z.
Proof.
  revert p; induction s as [|c s IH]; intro p; cbn [depth]; auto.
  destruct (Ascii.eqb c "("), (Ascii.eqb c ")"); rewrite <- IH; f_equal; lia.
Qed.

Lemma closes_stop p i last s :
  closes (S p) s = true ->
  exists w rest, s = w ++ ")"%char :: rest /\ scan (Z.of_nat (S p)) i last s = i + length w /\
    depth (Z.of_nat (S p)) w = 1%Z /\
    (forall a b, w = a ++ b -> (1 <= depth (Z.of_nat (S p)) a)%Z).
Proof.
  revert p i last; induction s as [|c s IH]; intros p i last; [discriminate|].
  cbn [closes scan]. destruct (Ascii.eqb_spec c "(") as [->|N1].
  - intro H. destruct (IH (S p) (S i) i H) as (w & rest & E & Sc & D & M).
    exists ("("%char :: w), rest. rewrite E. repeat split.
    + replace (Z.of_nat (S p) + 1)%Z with (Z.of_nat (S (S p))) by lia. rewrite <- E, Sc. cbn. lia.
    + cbn [depth]. change (Ascii.eqb "(" "(") with true. cbv iota.
      replace (Z.of_nat (S p) + 1)%Z with (Z.of_nat (S (S p))) by lia. exact D.
    + intros [|x a] b Eab; cbn [app] in Eab; [cbn; lia|]. injection Eab as <- Eab.
      cbn [depth]. change (Ascii.eqb "(" "(") with true. cbv iota.
      replace (Z.of_nat (S p) + 1)%Z with (Z.of_nat (S (S p))) by lia. eapply M; eauto.
  - destruct (Ascii.eqb_spec c ")") as [->|N2].
    + destruct p as [|p].
      * intros _. exists [], s. repeat split; [cbn; lia|].
        intros a b Eab. symmetry in Eab. apply app_eq_nil in Eab as [-> _]. cbn. lia.
      * intro H. destruct (IH p (S i) i H) as (w & rest & E & Sc & D & M).
        exists (")"%char :: w), rest. rewrite E. repeat split.
        -- replace (Z.of_nat (S (S p)) - 1)%Z with (Z.of_nat (S p)) by lia.
           replace (Z.of_nat (S p) =? 0)%Z with false by (symmetry; apply Z.eqb_neq; lia). rewrite <- E, Sc. cbn. lia.
        -- cbn [depth]. change (Ascii.eqb ")" "(") with false. change (Ascii.eqb ")" ")") with true. cbv iota.
           replace (Z.of_nat (S (S p)) - 1)%Z with (Z.of_nat (S p)) by lia. exact D.
        -- intros [|x a] b Eab; cbn [app] in Eab; [cbn; lia|]. injection Eab as <- Eab.
           cbn [depth]. change (Ascii.eqb ")" "(") with false. change (Ascii.eqb ")" ")") with true. cbv iota.
           replace (Z.of_nat (S (S p)) - 1)%Z with (Z.of_nat (S p)) by lia. eapply M; eauto.
    + intro H. destruct (IH p (S i) i H) as (w & rest & E & Sc & D & M).
      apply Ascii.eqb_neq in N1, N2.
      exists (c :: w), rest. rewrite E. repeat split.
      * rewrite <- E, Sc. cbn. lia.
      * cbn [depth]. now rewrite N1, N2.
      * intros [|x a] b Eab; cbn [app] in Eab; [cbn; lia|]. injection Eab as <- Eab.
        cbn [depth]. rewrite N1, N2. eapply M; eauto.
Qed.

(** A depth that falls to zero or below has been zero. *)
Lemma depth_closes s : forall p, (depth (Z.of_nat p) s <= 0)%Z -> closes p s = true.
Proof.
  induction s as [|c s IH]; intros [|p] H; try reflexivity; cbn [closes]; cbn [depth] in H.
  - exfalso. lia.
  - destruct (Ascii.eqb c "("); [|destruct (Ascii.eqb c ")")]; apply IH.
    + now replace (Z.of_nat (S (S p))) with (Z.of_nat (S p) + 1)%Z by lia.
    + now replace (Z.of_nat p) with (Z.of_nat (S p) - 1)%Z by lia.
    + exact H.
Qed.

Lemma all_closed_suffix a b : all_closed (a ++ b) -> all_closed b.
Proof. intros H x y E. apply (H (a ++ x) y). rewrite E. now rewrite app_assoc. Qed.

Lemma all_closed_inner w :
  depth 1 w = 1%Z -> (forall a b, w = a ++ b -> (1 <= depth 1 a)%Z) -> all_closed w.
Proof.
  intros D M a b E. apply depth_closes.
  assert (H1 : (1 <= depth 1 a)%Z) by (eapply M; eauto).
  rewrite E, depth_app in D. cbn [depth] in D. change (Ascii.eqb "(" "(") with true in D. cbv iota in D.
  replace (depth 1 a + 1)%Z with (1 + depth 1 a)%Z in D by lia. rewrite depth_shift in D.
  change (Z.of_nat 1) with 1%Z. lia.
Qed.

(** ** Outcome of every call *)
Lemma scan_bound s : forall p i last, last <= i -> scan p i last s <= i + length s /\ last <= scan p i last s.
Proof.
  induction s as [|c s IH]; intros p i last H; cbn [scan length]; [lia|].
  destruct (Ascii.eqb c "("); [|destruct (Ascii.eqb c ")"); [destruct (p - 1 =? 0)%Z|]];
    try (destruct (IH (p + 1)%Z (S i) i ltac:(lia)); lia);
    try (destruct (IH (p - 1)%Z (S i) i ltac:(lia)); lia);
    try (destruct (IH p (S i) i ltac:(lia)); lia); lia.
Qed.

Lemma skipn_short {A} n (l : list A) : length (skipn n l) = length l - n.
Proof. apply skipn_length. Qed.

Lemma s2s_outcome : forall k s, length s < k ->
  (exists l, s2s k s = Ok l) \/ s2s k s = Err ValueError.
Proof.
  induction k as [|k IH]; intros s Hk; [lia|]. destruct s as [|c t]; [left; exists []; reflexivity|].
  cbn [s2s]. cbn [length] in Hk. destruct (is_digit c) eqn:Ed.
  - destruct (IH (skipn (S (count_digits t)) (c :: t))) as [[l ->]| ->].
    + rewrite skipn_length. cbn [length]. lia.
    + left. eexists. reflexivity.
    + right. reflexivity.
  - destruct (Ascii.eqb c "(") eqn:Ep.
    + set (i := scan 0 0 0 (c :: t)).
      assert (Hi : i < S k).
      { unfold i. cbn [scan]. rewrite Ep. destruct (scan_bound t 1 1 0 ltac:(lia)). cbn in *. lia. }
      destruct (IH (firstn (i - 1) t)) as [[l ->]| ->].
      * rewrite firstn_length. lia.
      * cbn [bind]. destruct (IH (skipn (S i + count_digits (skipn (S i) (c :: t))) (c :: t))) as [[r ->]| ->].
        -- rewrite skipn_length. cbn [length]. lia.
        -- left. eexists. reflexivity.
        -- right. reflexivity.
      * right. reflexivity.
    + destruct (is_upper c).
      * set (i := match t with c1 :: _ => if is_lower c1 then 2 else 1 | [] => 1 end).
        assert (1 <= i) by (unfold i; destruct t as [|c1 t']; [|destruct (is_lower c1)]; lia).
        destruct (IH (skipn (i + count_digits (skipn i (c :: t))) (c :: t))) as [[r ->]| ->].
        -- rewrite skipn_length. cbn [length]. lia.
        -- left. eexists. reflexivity.
        -- right. reflexivity.
      * right. reflexivity.
Qed.

Lemma string2symbols_outcome s :
  (exists l, string2symbols s = Ok l) \/ string2symbols s = Err ValueError.
Proof. apply s2s_outcome. lia. Qed.

(** Accepted texts with closed parentheses are written molecules. *)
Lemma s2s_accept : forall k s l, length s < k -> all_closed s -> s2s k s = Ok l ->
  (exists m, mol_ok m /\ write_mol m = s) /\
  (starts_digit s = false -> exists its, items_ok its /\ write_items its = s).
Proof.
  induction k as [|k IH]; intros s l Hk C; [lia|].
  destruct s as [|c t].
  - intros _. split; [exists (Mol [] INil)|intros _; exists INil]; repeat split; reflexivity.
  - cbn [s2s length] in *. destruct (is_digit c) eqn:Ed.
    + destruct (count_digits_split t) as (r & E1 & D & S & K).
      cbn [skipn]. rewrite K. destruct (s2s k r) as [lr|] eqn:Er; cbn [bind]; [|discriminate].
      intros _. assert (Hr : length r < k).
      { rewrite E1 in Hk. rewrite app_length in Hk. lia. }
      assert (Cr : all_closed r).
      { apply (all_closed_suffix (c :: firstn (count_digits t) t)). cbn [app]. now rewrite <- E1. }
      destruct (IH r lr Hr Cr Er) as [_ I]. destruct (I S) as (its & O & W).
      split; [|cbn; congruence].
      exists (Mol (c :: firstn (count_digits t) t) its). split.
      * split; auto. unfold digits in *. cbn [forallb]. now rewrite Ed, D.
      * cbn [write_mol]. rewrite W. cbn [app]. now rewrite <- E1.
    + assert (Wrap : (exists its, items_ok its /\ write_items its = c :: t) ->
        (exists m, mol_ok m /\ write_mol m = c :: t) /\
        (starts_digit (c :: t) = false -> exists its, items_ok its /\ write_items its = c :: t)).
      { intros (its & O & W). split; [exists (Mol [] its)|intros _; exists its]; repeat split; auto. }
      destruct (Ascii.eqb_spec c "(") as [->|Np].
      * assert (Cl : closes 1 t = true) by (apply (C []); reflexivity).
        destruct (closes_stop 0 1 0 t Cl) as (w & rest & Et & Sc & Dw & M).
        change (Z.of_nat 1) with 1%Z in *.
        assert (Ei : scan 0 0 0 ("("%char :: t) = S (length w)).
        { cbn [scan]. change (Ascii.eqb "(" "(") with true. cbv iota. exact Sc. }
        rewrite Ei.
        assert (E1 : firstn (S (length w) - 1) t = w).
        { rewrite Et. replace (S (length w) - 1) with (length w) by lia. apply firstn_app_exact. }
        rewrite E1.
        assert (E2 : skipn (S (S (length w))) ("("%char :: t) = rest).
        { change (skipn (S (length w)) t = rest). rewrite Et.
          replace (w ++ ")"%char :: rest) with ((w ++ [")"%char]) ++ rest) by (rewrite <- app_assoc; reflexivity).
          replace (S (length w)) with (length (w ++ [")"%char])) by (rewrite app_length; cbn; lia).
          apply skipn_app_exact. }
        rewrite E2. destruct (count_digits_split rest) as (r & E3 & D & S & K).
        assert (E4 : skipn (Datatypes.S (Datatypes.S (length w)) + count_digits rest) ("("%char :: t) = r).
        { rewrite Nat.add_comm, <- skipn_skipn, E2. exact K. }
        rewrite E4. destruct (s2s k w) as [lw|] eqn:Ew; cbn [bind]; [|discriminate].
        destruct (s2s k r) as [lr|] eqn:Er; cbn [bind]; [|discriminate]. intros _.
        assert (Hl : length t = length w + Datatypes.S (length rest)) by (rewrite Et, app_length; reflexivity).
        assert (Hr : length r <= length rest) by (rewrite E3, app_length; lia).
        assert (Cw : all_closed w) by now apply all_closed_inner.
        assert (Cr : all_closed r).
        { apply (all_closed_suffix ("("%char :: w ++ ")"%char :: firstn (count_digits rest) rest)).
          cbn [app]. rewrite <- app_assoc. cbn [app]. rewrite <- E3, <- Et. exact C. }
        destruct (IH w lw ltac:(lia) Cw Ew) as [(m & Om & Wm) _].
        destruct (IH r lr ltac:(lia) Cr Er) as [_ I]. destruct (I S) as (its & O & W).
        apply Wrap. exists (IGroup m (firstn (count_digits rest) rest) its). split.
        -- repeat split; auto.
        -- cbn [write_items]. rewrite Wm, W, Et. cbn [L list_ascii_of_string app]. now rewrite <- E3.
      * destruct (is_upper c) eqn:Eu; [|discriminate].
        assert (G : exists lo, match lo with Some x => is_lower x = true | None => True end /\
                    let i := match t with c1 :: _ => if is_lower c1 then 2 else 1 | [] => 1 end in
                    firstn i (c :: t) = symbol c lo /\ length (symbol c lo) = i /\ c :: t = symbol c lo ++ skipn i (c :: t)).
        { destruct t as [|c1 t']; [exists None; repeat split|].
          destruct (is_lower c1) eqn:El; [exists (Some c1)|exists None]; repeat split; auto. }
        destruct G as (lo & Lo & G). cbv zeta in G.
        set (i := match t with c1 :: _ => if is_lower c1 then 2 else 1 | [] => 1 end) in *.
        destruct G as (G1 & G2 & G3).
        destruct (count_digits_split (skipn i (c :: t))) as (r & E3 & D & S & K).
        assert (E4 : skipn (i + count_digits (skipn i (c :: t))) (c :: t) = r).
        { rewrite Nat.add_comm, <- skipn_skipn. exact K. }
        rewrite E4. destruct (s2s k r) as [lr|] eqn:Er; cbn [bind]; [|discriminate]. intros _.
        assert (Hs : c :: t = symbol c lo ++ firstn (count_digits (skipn i (c :: t))) (skipn i (c :: t)) ++ r)
          by (rewrite <- E3; exact G3).
        assert (Hl : length r < k).
        { apply (f_equal (@length ascii)) in Hs. cbn [length] in Hs. rewrite !app_length in Hs.
          unfold symbol in Hs. cbn [length] in Hs. lia. }
        assert (Cr : all_closed r).
        { rewrite Hs in C. apply all_closed_suffix in C. now apply all_closed_suffix in C. }
        destruct (IH r lr Hl Cr Er) as [_ I]. destruct (I S) as (its & O & W).
        apply Wrap. eexists (IElem c lo _ its). split; [|cbn [write_items]; rewrite W; symmetry; exact Hs].
        repeat split; auto.
Qed.

Lemma accept_iff s : all_closed s ->
  ((exists l, string2symbols s = Ok l) <-> (exists m, mol_ok m /\ write_mol m = s)) /\
  (~ (exists m, mol_ok m /\ write_mol m = s) -> string2symbols s = Err ValueError).
Proof.
  intro C.
  assert (A : (exists l, string2symbols s = Ok l) <-> (exists m, mol_ok m /\ write_mol m = s)).
  { split.
    - intros (l & E). destruct (s2s_accept (S (length s)) s l ltac:(lia) C E) as [M _]. exact M.
    - intros (m & O & <-). destruct (read_molecule m O) as (l & E & _). eauto. }
  split; [exact A|]. intro N. destruct (string2symbols_outcome s) as [O|O]; auto. exfalso. apply N, A, O.
Qed.

(** ** Masses *)
Lemma known_table e : dget chem_elements e = dget (known_masses : dict Q) e.
Proof. reflexivity. Qed.

Lemma mass_of_ext f g : (forall x, f x = g x) -> (mass_of f == mass_of g)%Q.
Proof.
  intro H. unfold mass_of. induction known_masses as [|em l IH]; cbn [map sum_Q]; [reflexivity|].
  now rewrite IH, H.
Qed.

Lemma dget_sum (tab : list (str * Q)) e m :
  NoDup (map fst tab) -> dget (tab : dict Q) e = Some m ->
  (sum_Q (map (fun em => inject_Z (if str_eqb e (fst em) then 1 else 0) * snd em) tab) == m)%Q.
Proof.
  induction tab as [|[k v] tab IH]; intros N H; [discriminate|]. cbn [dget map fst snd sum_Q] in *.
  inversion N as [|? ? Ni Nd]; subst.
  destruct (str_eqb_spec e k) as [->|Hne].
  - injection H as ->.
    assert (Z0 : (sum_Q (map (fun em => inject_Z (if str_eqb k (fst em) then 1 else 0) * snd em) tab) == 0)%Q).
    { clear -Ni. induction tab as [|[a b] tab IH]; cbn [map sum_Q fst snd]; [reflexivity|].
      cbn [map fst] in Ni. rewrite IH by (intro; apply Ni; now right).
      destruct (str_eqb_spec k a) as [->|]; [exfalso; apply Ni; now left|]. ring. }
    rewrite Z0. change (inject_Z 1) with 1%Q. ring.
  - rewrite IH by auto. ring.
Qed.

Lemma mass_of_plus f g : (mass_of (fun x => f x + g x)%Z == mass_of f + mass_of g)%Q.
Proof.
  unfold mass_of. induction known_masses as [|em l IH]; cbn [map sum_Q]; [reflexivity|].
  rewrite IH, inject_Z_plus. ring.
Qed.

Lemma mass_of_scale z f : (mass_of (fun x => z * f x)%Z == inject_Z z * mass_of f)%Q.
Proof.
  unfold mass_of. induction known_masses as [|em l IH]; cbn [map sum_Q]; [ring|].
  rewrite IH, inject_Z_mult. ring.
Qed.

Lemma add_masses_spec els : forall acc,
  (Forall (fun e => In e (map fst known_masses)) els ->
     exists m, add_masses acc els = Ok m /\ (m == acc + mass_of (fun x => occurrences x els))%Q) /\
  (~ Forall (fun e => In e (map fst known_masses)) els -> add_masses acc els = Err ElementSearchingError).
Proof.
  induction els as [|e els IH]; intro acc.
  - split; [|intro N; exfalso; apply N; constructor]. intros _. exists acc. split; [reflexivity|].
    unfold mass_of. cbn [occurrences]. cbn. ring.
  - cbn [add_masses]. destruct (dget chem_elements e) as [v|] eqn:Ev.
    + assert (Ik : In e (map fst known_masses)).
      { rewrite known_table in Ev. clear -Ev. revert Ev. generalize known_masses as tab.
        induction tab as [|[a b] tab IH]; cbn [dget]; [discriminate|].
        destruct (str_eqb_spec e a) as [->|]; [now left|]. intro H. right. now apply IH. }
      destruct (IH (acc + v)%Q) as [I1 I2]. split.
      * intro F. inversion F; subst. destruct (I1 H2) as (m & E & Em). exists m. split; auto.
        rewrite Em. cbn [occurrences].
        rewrite (mass_of_plus (fun x => if str_eqb e x then 1 else 0)%Z (fun x => occurrences x els)).
        assert (G : (mass_of (fun x => if str_eqb e x then 1 else 0)%Z == v)%Q).
        { apply (dget_sum known_masses e v); [|exact Ev].
          vm_compute. repeat constructor; cbn; intuition discriminate. }
        rewrite G. ring.
      * intro N. apply I2. intro F. apply N. constructor; auto.
    + split; [|reflexivity]. intro F. inversion F as [|? ? Ik F']; subst. exfalso.
      rewrite known_table in Ev. clear -Ev Ik. revert Ev Ik. generalize known_masses as tab.
      induction tab as [|[a b] tab IH]; cbn [dget map In fst]; auto.
      destruct (str_eqb_spec e a) as [->|Hn]; [discriminate|]. intros E [H|H]; [congruence|]. now apply IH.
Qed.

Lemma occurrences_In x l : In x l <-> (0 < occurrences x l)%Z.
Proof.
  assert (NN : forall l, (0 <= occurrences x l)%Z).
  { clear l. induction l as [|y l IH]; cbn [occurrences]; [lia|]. destruct (str_eqb y x); lia. }
  induction l as [|y l IH]; cbn [In occurrences]; [lia|].
  destruct (str_eqb_spec y x) as [->|Hn].
  - split; [intros _; specialize (NN l); lia|auto].
  - rewrite IH. specialize (NN l). split; [intros [H|H]; [congruence|lia]|right; lia].
Qed.

Lemma mass_molecule m absolute : mol_ok m ->
  ((forall x, (0 < mol_count x m)%Z -> In x (map fst known_masses)) ->
     exists q, molecular_mass (write_mol m) absolute = Ok q /\
       (q == (if absolute then 1.66053904e-27 else 1) * mass_of (fun x => mol_count x m))%Q) /\
  ((exists x, (0 < mol_count x m)%Z /\ ~ In x (map fst known_masses)) ->
     molecular_mass (write_mol m) absolute = Err ElementSearchingError).
Proof.
  intro O. destruct (read_molecule m O) as (l & E & C). unfold molecular_mass. rewrite E. cbn [bind].
  destruct (add_masses_spec l 0%Q) as [A1 A2]. split.
  - intro K. destruct A1 as (q & Eq & Em).
    { apply Forall_forall. intros x I. apply K. rewrite <- C. now apply occurrences_In. }
    rewrite Eq. cbn [bind]. eexists. split; [reflexivity|].
    rewrite (mass_of_ext (fun x => mol_count x m) (fun x => occurrences x l)) by (intro; now rewrite C).
    destruct absolute; rewrite Em; [|ring].
    change (1.66053904e-27)%Q with amu. ring.
  - intros (x & P & N). rewrite A2; [reflexivity|]. intro F. rewrite Forall_forall in F. apply N, F.
    apply occurrences_In. now rewrite C.
Qed.
