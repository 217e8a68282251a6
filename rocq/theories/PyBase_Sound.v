(** The built-in operations of PyBase.v meet PyBase_Spec.v. *)
From Coq Require Import String Ascii List ZArith NArith Bool Arith Lia Sorted.
Import ListNotations.
From Verif Require Import PyBase PyBaseFacts PyExpr_Spec PyExpr_Sound PyBase_Spec.
Local Open Scope list_scope.

(** ** Classes *)
Lemma code_nat c : code c = N.of_nat (nat_of_ascii c).
Proof. unfold code, nat_of_ascii. now rewrite N2Nat.id. Qed.

Lemma in_range_nat lo hi c : in_range lo hi c = true <-> (N.to_nat lo <= nat_of_ascii c <= N.to_nat hi)%nat.
Proof.
  unfold in_range. rewrite andb_true_iff, !N.leb_le, code_nat. lia.
Qed.

Lemma digit_iff c : is_digit c = true <-> digit_char_ok c.
Proof. exact (in_range_nat 48 57 c). Qed.
Lemma upper_iff c : is_upper c = true <-> upper_ok c.
Proof. exact (in_range_nat 65 90 c). Qed.
Lemma lower_iff c : is_lower c = true <-> lower_ok c.
Proof. exact (in_range_nat 97 122 c). Qed.
Lemma letter_iff c : is_letter c = true <-> upper_ok c \/ lower_ok c.
Proof. unfold is_letter. now rewrite orb_true_iff, upper_iff, lower_iff. Qed.
Lemma word_iff c : is_word c = true <-> upper_ok c \/ lower_ok c \/ digit_char_ok c \/ c = "_"%char.
Proof. unfold is_word. rewrite !orb_true_iff, letter_iff, digit_iff, Ascii.eqb_eq. tauto. Qed.
Lemma blank_iff c : is_space c = true <-> blank_ok c.
Proof.
  unfold is_space, blank_ok. rewrite orb_true_iff, !in_range_nat.
  change (N.to_nat 9) with 9. change (N.to_nat 13) with 13.
  change (N.to_nat 28) with 28. change (N.to_nat 32) with 32. cbn [In]. lia.
Qed.

Lemma classes c : (is_digit c = true <-> digit_char_ok c) /\ (is_upper c = true <-> upper_ok c) /\
  (is_lower c = true <-> lower_ok c) /\ (is_letter c = true <-> upper_ok c \/ lower_ok c) /\
  (is_word c = true <-> upper_ok c \/ lower_ok c \/ digit_char_ok c \/ c = "_"%char) /\
  (is_space c = true <-> blank_ok c).
Proof.
  exact (conj (digit_iff c) (conj (upper_iff c) (conj (lower_iff c) (conj (letter_iff c) (conj (word_iff c) (blank_iff c)))))).
Qed.

(** ** strip *)
Lemma blanks_forallb a : forallb is_space a = true <-> Forall blank_ok a.
Proof.
  rewrite forallb_forall, Forall_forall. split; intros H x Hx; apply blank_iff; auto.
Qed.

Lemma no_lead_iff t : no_lead t <-> forall c r, t = c :: r -> ~ blank_ok c.
Proof.
  destruct t as [|c t]; cbn [no_lead]; split; auto.
  - intros _ c r E. discriminate E.
  - intros H c' r E. injection E as <- <-. rewrite <- blank_iff, H. discriminate.
  - intro H. specialize (H c t eq_refl). rewrite <- blank_iff in H. now destruct (is_space c).
Qed.

Lemma no_lead_rev_iff t : no_lead (rev t) <-> forall c r, t = r ++ [c] -> ~ blank_ok c.
Proof.
  rewrite no_lead_iff. split; intros H c r E.
  - apply (H c (rev r)). rewrite E, rev_app_distr. reflexivity.
  - apply (H c (rev r)). rewrite <- (rev_involutive t), E. reflexivity.
Qed.

Lemma strip_iff s t : strip s = t <-> stripped_of s t.
Proof.
  split.
  - intros <-. destruct (lstrip_suffix s) as (a & Ea & Ba).
    destruct (lstrip_suffix (rev (lstrip s))) as (b & Eb & Bb).
    exists a, (rev b). repeat split.
    + unfold strip. rewrite <- rev_app_distr, <- Eb, rev_involutive. exact Ea.
    + now apply blanks_forallb.
    + apply blanks_forallb. now rewrite forallb_rev.
    + apply no_lead_iff. apply strip_stripped.
    + apply no_lead_rev_iff. apply strip_stripped.
  - intros (a & b & -> & Ba & Bb & H1 & H2). apply strip_padded.
    + now apply blanks_forallb.
    + now apply blanks_forallb.
    + split; [now apply no_lead_iff|now apply no_lead_rev_iff].
Qed.

(** ** split and join *)
Lemma join_snoc sep l x : l <> [] -> join sep (l ++ [x]) = join sep l ++ sep ++ x.
Proof.
  induction l as [|y l IH]; intro H; [now destruct H|]. destruct l as [|z l].
  - reflexivity.
  - change (join sep ((y :: z :: l) ++ [x])) with (y ++ sep ++ join sep ((z :: l) ++ [x])).
    rewrite IH by discriminate. change (join sep (y :: z :: l)) with (y ++ sep ++ join sep (z :: l)).
    now rewrite <- !app_assoc.
Qed.

Lemma join_iff sep l s : join sep l = s <-> joined sep l s.
Proof.
  split.
  - intros <-. induction l as [|x l IH] using rev_ind; [constructor|].
    destruct l as [|y l]; [constructor|]. rewrite join_snoc by discriminate. now constructor.
  - induction 1 as [|x|l s x N J IH]; auto. now rewrite join_snoc, IH.
Qed.

Lemma split_iff c s l : split_on c s = l <->
  l <> [] /\ Forall (fun w => ~ In c w) l /\ joined [c] l s.
Proof.
  split.
  - intros <-. repeat split; [apply split_on_nonnil|apply split_on_no_sep|]. apply join_iff, join_split_on.
  - intros (N & F & J). apply join_iff in J as <-. now apply split_on_join.
Qed.

(** ** Numbers *)
Lemma whole_bounds s : Forall digit_char_ok s -> (0 <= whole s < 10 ^ Z.of_nat (length s))%Z.
Proof.
  induction 1 as [|c s Hc H IH]; [cbn; lia|]. cbn [whole length].
  rewrite Nat2Z.inj_succ, Z.pow_succ_r by lia. unfold digit_char_ok, digit_of in *.
  assert (0 < 10 ^ Z.of_nat (length s))%Z by (apply Z.pow_pos_nonneg; lia). nia.
Qed.

Lemma whole_low c s : Forall digit_char_ok (c :: s) -> c <> "0"%char ->
  (10 ^ Z.of_nat (length s) <= whole (c :: s))%Z.
Proof.
  intros H N. inversion H as [|? ? Hc Hs]; subst. pose proof (whole_bounds s Hs). cbn [whole].
  assert (1 <= digit_of c)%Z.
  { unfold digit_of, digit_char_ok in *. assert (nat_of_ascii c <> 48).
    { intro E. apply N. rewrite <- (ascii_nat_embedding c), E. reflexivity. } lia. }
  assert (0 < 10 ^ Z.of_nat (length s))%Z by (apply Z.pow_pos_nonneg; lia). nia.
Qed.

Lemma whole_inj s : forall t, length s = length t -> Forall digit_char_ok s -> Forall digit_char_ok t ->
  whole s = whole t -> s = t.
Proof.
  induction s as [|c s IH]; intros [|d t] El Hs Ht E; try discriminate El; auto.
  injection El as El. inversion Hs as [|? ? Hc Hs']; inversion Ht as [|? ? Hd Ht']; subst.
  cbn [whole] in E. rewrite El in E. pose proof (whole_bounds s Hs') as B1. pose proof (whole_bounds t Ht') as B2.
  rewrite El in B1. assert (digit_of c = digit_of d) by nia.
  assert (c = d).
  { unfold digit_of in H. assert (nat_of_ascii c = nat_of_ascii d) as E' by lia.
    rewrite <- (ascii_nat_embedding c), E', ascii_nat_embedding. reflexivity. }
  subst d. f_equal. apply IH; auto. lia.
Qed.

Lemma numeral_unique c s d t : Forall digit_char_ok (c :: s) -> Forall digit_char_ok (d :: t) ->
  c <> "0"%char -> d <> "0"%char -> whole (c :: s) = whole (d :: t) -> c :: s = d :: t.
Proof.
  intros Hs Ht Nc Nd E. apply whole_inj; auto.
  pose proof (whole_bounds _ Hs) as [_ B1]. pose proof (whole_bounds _ Ht) as [_ B2].
  pose proof (whole_low _ _ Hs Nc) as L1. pose proof (whole_low _ _ Ht Nd) as L2.
  cbn [length] in *.
  assert (~ (length s < length t)).
  { intro H. assert (10 ^ Z.of_nat (S (length s)) <= 10 ^ Z.of_nat (length t))%Z by (apply Z.pow_le_mono_r; lia). lia. }
  assert (~ (length t < length s)).
  { intro H'. assert (10 ^ Z.of_nat (S (length t)) <= 10 ^ Z.of_nat (length s))%Z by (apply Z.pow_le_mono_r; lia). lia. }
  lia.
Qed.

Lemma forallb_digits s : forallb is_digit s = true <-> Forall digit_char_ok s.
Proof.
  rewrite forallb_forall, Forall_forall. split; intros H x Hx; apply digit_iff; auto.
Qed.

Lemma dec_aux_head fuel : forall n acc, (0 < n)%N -> (n < 2 ^ N.of_nat fuel)%N ->
  exists c r, dec_aux (S fuel) n acc = c :: r /\ c <> "0"%char.
Proof.
  induction fuel as [|f IH]; intros n acc P B.
  - cbn in B. lia.
  - cbn [dec_aux]. destruct (N.eqb_spec (n / 10) 0) as [E|E].
    + eexists; eexists; split; [reflexivity|]. apply N.div_small_iff in E; [|lia].
      rewrite N.mod_small by exact E. unfold digit_char. intro H.
      apply (f_equal N_of_ascii) in H. rewrite N_ascii_embedding in H by lia.
      change (N_of_ascii "0") with 48%N in H. lia.
    + apply IH; [now apply N.neq_0_lt_0|]. rewrite Nat2N.inj_succ, N.pow_succ_r in B by lia.
      apply N.div_lt_upper_bound; lia.
Qed.

Lemma dec_head n : (0 < n)%N -> exists c r, dec n = c :: r /\ c <> "0"%char /\ Forall digit_char_ok (c :: r) /\
  whole (c :: r) = Z.of_N n.
Proof.
  intro P. destruct (dec_aux_head (N.size_nat n) n [] P (size_nat_bound n)) as (c & r & E & N0).
  exists c, r. fold (dec n) in E. repeat split; auto.
  - apply forallb_digits. rewrite <- E. apply dec_digits.
  - rewrite whole_int, <- E. apply int_of_dec.
Qed.

Lemma decimal_of z : decimal z (str_of_Z z).
Proof.
  destruct z as [|p|p].
  - left. split; reflexivity.
  - right. destruct (dec_head (Npos p) ltac:(lia)) as (c & r & E & N0 & F & W).
    exists c, r. split; [exact F|]. split; [exact N0|]. left. split; [exact E|]. rewrite W. reflexivity.
  - right. destruct (dec_head (Npos p) ltac:(lia)) as (c & r & E & N0 & F & W).
    exists c, r. split; [exact F|]. split; [exact N0|]. right. split; [|rewrite W; reflexivity].
    unfold str_of_Z. rewrite E. reflexivity.
Qed.

Lemma decimal_unique z t t' : decimal z t -> decimal z t' -> t = t'.
Proof.
  assert (Pos : forall c r, Forall digit_char_ok (c :: r) -> c <> "0"%char -> (0 < whole (c :: r))%Z).
  { intros c r F N0. pose proof (whole_low c r F N0). assert (0 < 10 ^ Z.of_nat (length r))%Z by (apply Z.pow_pos_nonneg; lia). lia. }
  intros [[-> ->]|(c & r & F & N0 & [[-> ->]|[-> ->]])] [[E ->]|(d & u & G & M0 & [[-> E]|[-> E]])]; auto;
    try (pose proof (Pos _ _ F N0)); try (pose proof (Pos _ _ G M0)); try lia.
  - now apply numeral_unique.
  - f_equal. apply numeral_unique; auto. lia.
Qed.

Lemma str_of_Z_iff z t : str_of_Z z = t <-> decimal z t.
Proof. split; [intros <-; apply decimal_of|]. apply decimal_unique, decimal_of. Qed.

(** ** Dictionaries *)
Section Dict.
  Context {V : Type}.
  Implicit Types d : dict V.

  Lemma dget_iff d k v : dget d k = Some v <-> exists a b, d = a ++ (k, v) :: b /\ ~ In k (map fst a).
  Proof.
    induction d as [|[k' v'] d IH]; cbn [dget].
    - split; [discriminate|]. intros (a & b & E & _). now destruct a.
    - destruct (str_eqb_spec k k') as [->|N].
      + split.
        * intro H. injection H as ->. exists [], d. auto.
        * intros (a & b & E & NI). destruct a as [|[k1 v1] a]; injection E.
          -- now intros _ ->.
          -- intros _ _ <-. cbn in NI. tauto.
      + rewrite IH. split.
        * intros (a & b & -> & NI). exists ((k', v') :: a), b. cbn. intuition congruence.
        * intros (a & b & E & NI). destruct a as [|[k1 v1] a]; injection E as E1 E2 E3; [congruence|]. subst.
          exists a, b. cbn in NI. intuition.
  Qed.

  Lemma dindex_iff d k : (forall v, dindex d k = Ok v <-> exists a b, d = a ++ (k, v) :: b /\ ~ In k (map fst a)) /\
    (forall e, dindex d k = Err e <-> e = KeyError /\ ~ In k (map fst d)).
  Proof.
    split.
    - intro v. rewrite <- dget_iff. unfold dindex. destruct (dget d k); split; intro H; try discriminate H; now injection H as ->.
    - intro e. pose proof (dget_None d k) as N. unfold dindex. destruct (dget d k).
      + split; [discriminate|]. intros (_ & H). apply N in H. discriminate H.
      + split; [intro H; injection H as <-; split; auto; now apply N|now intros (-> & _)].
  Qed.

  Lemma dset_assigned d k v : assigned d k v (dset d k v).
  Proof.
    induction d as [|[k' v'] d IH]; cbn [dset].
    - right. split; [intros []|reflexivity].
    - destruct (str_eqb_spec k k') as [->|N].
      + left. exists [], v', d. auto.
      + destruct IH as [(a & w & b & -> & NI & E)|(NI & E)]; rewrite E.
        * left. exists ((k', v') :: a), w, b. cbn. intuition congruence.
        * right. cbn. intuition congruence.
  Qed.

  Lemma assigned_unique d k v d1 d2 : assigned d k v d1 -> assigned d k v d2 -> d1 = d2.
  Proof.
    assert (NK : forall a w (b : dict V), In k (map fst (a ++ (k, w) :: b))).
    { intros. rewrite map_app, in_app_iff. right. now left. }
    assert (U : forall a w b a' w' b', a ++ (k, w) :: b = a' ++ (k, w') :: b' ->
       ~ In k (map fst a) -> ~ In k (map fst a') -> a = a' /\ w = w' /\ (b : dict V) = b').
    { induction a as [|[x y] a IH]; intros w b [|[x' y'] a'] w' b' E N1 N2; cbn in *.
      - injection E. intros -> ->. auto.
      - injection E. intros _ _ <-. tauto.
      - injection E. intros _ _ ->. tauto.
      - injection E as -> -> E. destruct (IH w b a' w' b' E) as (-> & -> & ->); tauto. }
    intros [(a & w & b & -> & NI & ->)|(NI & ->)] [(a' & w' & b' & E & NI' & ->)|(NI' & ->)]; auto.
    - apply U in E as (-> & _ & ->); auto.
    - exfalso. apply NI'. apply NK.
    - exfalso. apply NI. rewrite E. apply NK.
  Qed.

  Lemma dset_iff d k v d' : dset d k v = d' <-> assigned d k v d'.
  Proof. split; [intros <-; apply dset_assigned|]. apply assigned_unique, dset_assigned. Qed.
End Dict.

(** ** Order *)
Lemma str_lt_before a : forall b, str_lt a b <-> before a b.
Proof.
  unfold str_lt, before. induction a as [|x a IH]; intros [|y b]; cbn [str_compare].
  - split; [discriminate|]. intros [(c & t & E)|(p & x & y & s & t & E & _)]; [discriminate E|now destruct p].
  - split; auto. intros _. left. exists y, b. reflexivity.
  - split; [discriminate|]. intros [(c & t & E)|(p & x' & y & s & t & _ & E & _)]; [discriminate E|now destruct p].
  - destruct (N.compare_spec (code x) (code y)) as [E|E|E].
    + apply code_inj in E as ->. rewrite IH. split.
      * intros [(c & t & ->)|(p & x' & y' & s & t & -> & -> & Lt)].
        -- left. exists c, t. reflexivity.
        -- right. exists (y :: p), x', y', s, t. auto.
      * intros [(c & t & E)|(p & x' & y' & s & t & E1 & E2 & Lt)].
        -- injection E as ->. left. eauto.
        -- destruct p as [|z p]; cbn in *; [injection E1 as <- <-; injection E2 as <- <-; lia|].
           injection E1 as -> ->. injection E2 as ->. right. exists p, x', y', s, t. auto.
    + split; auto. intros _. right. exists [], x, y, a, b. repeat split. rewrite !code_nat in E. lia.
    + rewrite !code_nat in E. split; [discriminate|].
      intros [(c & t & E')|(p & x' & y' & s & t & E1 & E2 & Lt)].
      * injection E' as -> _. lia.
      * destruct p as [|z p]; cbn in *; [injection E1 as <- <-; injection E2 as <- <-; lia|].
        injection E1 as -> ->. injection E2 as ->. lia.
Qed.

Lemma StronglySorted_iff {A} (R S : A -> A -> Prop) l : (forall x y, R x y <-> S x y) ->
  (StronglySorted R l <-> StronglySorted S l).
Proof.
  intro H. split; induction 1 as [|x l Hs IH Hx]; constructor; auto;
    eapply Forall_impl; try exact Hx; intros y; apply H.
Qed.

Lemma sorted_set_iff l r : sorted_set l = r <-> StronglySorted before r /\ forall x, In x r <-> In x l.
Proof.
  rewrite <- (StronglySorted_iff str_lt before r) by (intros; apply str_lt_before). split.
  - intros <-. split; [apply sorted_set_sorted|]. intro x. apply sorted_set_In.
  - intros (S1 & E). apply StronglySorted_unique; auto; [apply sorted_set_sorted|].
    intro x. now rewrite sorted_set_In, E.
Qed.

(** ** Lists *)
Lemma index_of_iff x l i : index_of x l = Some i <-> first_place x l i.
Proof.
  unfold first_place. revert i. induction l as [|y l IH]; intro i; cbn [index_of].
  - split; [discriminate|]. intros (a & b & E & _). now destruct a.
  - destruct (str_eqb_spec x y) as [->|N].
    + split.
      * intro H. injection H as <-. exists [], l. auto.
      * intros (a & b & E & NI & ->). destruct a as [|z a]; [reflexivity|]. injection E as -> _. cbn in NI. tauto.
    + split.
      * destruct (index_of x l) as [j|] eqn:E; [|discriminate]. intro H. injection H as <-.
        destruct (proj1 (IH j) eq_refl) as (a & b & -> & NI & ->). exists (y :: a), b. cbn. intuition congruence.
      * intros (a & b & E & NI & ->). destruct a as [|z a]; injection E as -> E; [congruence|].
        cbn in NI. rewrite (proj2 (IH (length a))) by (exists a, b; intuition). reflexivity.
Qed.

Lemma lindex_iff {A} (l : list A) i : (forall x, lindex l i = Ok x <-> exists a b, l = a ++ x :: b /\ length a = i) /\
  (forall e, lindex l i = Err e <-> e = IndexError /\ (length l <= i)%nat).
Proof.
  unfold lindex. split.
  - intro x. split.
    + destruct (nth_error l i) as [y|] eqn:E; [|discriminate]. intro H. injection H as ->.
      apply nth_error_split in E as (a & b & -> & H). eauto.
    + intros (a & b & -> & <-). rewrite nth_error_app2, Nat.sub_diag by lia. reflexivity.
  - intro e. destruct (nth_error l i) as [y|] eqn:E.
    + split; [discriminate|]. intros (_ & H). apply nth_error_None in H. congruence.
    + apply nth_error_None in E. split; [intro H; injection H as <-; auto|now intros (-> & _)].
Qed.

Lemma lfirst_iff {A} (l : list A) : (forall x, lfirst l = Ok x <-> exists b, l = x :: b) /\
  (forall e, lfirst l = Err e <-> e = IndexError /\ l = []).
Proof.
  destruct l as [|y l]; cbn; split; intro x; split; try discriminate.
  - intros (b & E). discriminate E.
  - intro H. injection H as <-. auto.
  - now intros (-> & _).
  - intro H. injection H as ->. eauto.
  - intros (b & E). now injection E as ->.
  - intros (_ & E). discriminate E.
Qed.

Lemma llast_iff {A} (l : list A) : (forall x, llast l = Ok x <-> exists a, l = a ++ [x]) /\
  (forall e, llast l = Err e <-> e = IndexError /\ l = []).
Proof.
  destruct l as [|y l] using rev_ind; [cbn; split; intro x; split; try discriminate|].
  - intros (a & E). now destruct a.
  - intro H. injection H as <-. auto.
  - now intros (-> & _).
  - rewrite llast_app. clear IHl. split; intro x; split; try discriminate.
    + intro H. injection H as ->. eauto.
    + intros (a & E). apply app_inj_tail in E as (_ & ->). reflexivity.
    + intros (_ & E). now destruct l.
Qed.

Lemma repeat_list_iff {A} n (l : list A) : repeat_list n l = concat (repeat l n).
Proof. induction n as [|n IH]; cbn; [reflexivity|now rewrite IH]. Qed.

Lemma mapM_err_iff {A B} (f : A -> res B) l e : mapM f l = Err e <->
  exists a x b ys, l = a ++ x :: b /\ Forall2 (fun x y => f x = Ok y) a ys /\ f x = Err e.
Proof.
  induction l as [|x l IH]; cbn [mapM].
  - split; [discriminate|]. intros (a & x & b & ys & E & _). now destruct a.
  - destruct (f x) as [y|e'] eqn:F; cbn [bind].
    + split.
      * destruct (mapM f l) as [ys|e'] eqn:M; [discriminate|]. cbn. intro H. injection H as ->.
        destruct (proj1 IH eq_refl) as (a & x' & b & ys & -> & G & F').
        exists (x :: a), x', b, (y :: ys). repeat split; auto.
      * intros (a & x' & b & ys & E & G & F'). destruct a as [|z a]; injection E as -> E; [congruence|].
        inversion G; subst. rewrite (proj2 IH); [reflexivity|]. exists a, x', b, l'. auto.
    + split.
      * intro H. injection H as ->. exists [], x, l, []. auto.
      * intros (a & x' & b & ys & E & G & F'). destruct a as [|z a]; injection E as -> E; [congruence|].
        inversion G; subst. congruence.
Qed.
