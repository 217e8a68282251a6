(** Lemmas about the Python built-ins of PyBase.v. *)
From Coq Require Import String Ascii List ZArith NArith Bool Lia Sorting.Sorted Permutation.
Import ListNotations.
From Verif Require Import PyBase.

(** Facts about single characters are checked on all 256 of them. *)
Ltac all_ascii c := destruct c as [[] [] [] [] [] [] [] []]; vm_compute; try discriminate; auto.

Lemma str_eqb_eq a b : str_eqb a b = true <-> a = b.
Proof.
  revert b; induction a as [|x a IH]; destruct b as [|y b]; simpl; split; intro H;
    try discriminate; auto.
  - apply andb_true_iff in H as [H1 H2]. apply Ascii.eqb_eq in H1. apply IH in H2. congruence.
  - injection H as -> ->. rewrite Ascii.eqb_refl. now apply IH.
Qed.

Lemma str_eqb_refl a : str_eqb a a = true.
Proof. now apply str_eqb_eq. Qed.

Lemma str_eqb_neq a b : str_eqb a b = false <-> a <> b.
Proof.
  rewrite <- str_eqb_eq. destruct (str_eqb a b); split; intro H; congruence.
Qed.

Lemma str_eqb_sym a b : str_eqb a b = str_eqb b a.
Proof.
  destruct (str_eqb a b) eqn:E; symmetry.
  - apply str_eqb_eq in E; subst; apply str_eqb_refl.
  - apply str_eqb_neq in E. apply str_eqb_neq. congruence.
Qed.

Lemma str_eqb_spec a b : reflect (a = b) (str_eqb a b).
Proof. apply iff_reflect. symmetry. apply str_eqb_eq. Qed.

Definition str_dec (a b : str) : {a = b} + {a <> b} := list_eq_dec ascii_dec a b.

Lemma has_char_In c s : has_char c s = true <-> In c s.
Proof.
  unfold has_char. rewrite existsb_exists. split.
  - intros (x & Hx & E). apply Ascii.eqb_eq in E. now subst.
  - intro H. exists c. split; auto. apply Ascii.eqb_refl.
Qed.

Lemma str_mem_In s l : str_mem s l = true <-> In s l.
Proof.
  unfold str_mem. rewrite existsb_exists. split.
  - intros (x & Hx & E). apply str_eqb_eq in E. now subst.
  - intro H. exists s. split; auto. apply str_eqb_refl.
Qed.

Lemma str_mem_not_In s l : str_mem s l = false <-> ~ In s l.
Proof. rewrite <- str_mem_In. destruct (str_mem s l); split; intro; congruence. Qed.

(** strip *)
Lemma lstrip_incl s c : In c (lstrip s) -> In c s.
Proof.
  induction s as [|x t IH]; simpl; auto.
  destruct (is_space x); simpl; auto.
Qed.

Lemma strip_incl s c : In c (strip s) -> In c s.
Proof.
  unfold strip. rewrite <- in_rev. intro H. apply lstrip_incl in H.
  rewrite <- in_rev in H. now apply lstrip_incl in H.
Qed.

Definition no_lead (s : str) : Prop := match s with [] => True | c :: _ => is_space c = false end.

Lemma lstrip_no_lead s : no_lead (lstrip s).
Proof.
  induction s as [|x t IH]; simpl; auto. destruct (is_space x) eqn:E; auto.
Qed.

Lemma lstrip_id s : no_lead s -> lstrip s = s.
Proof. destruct s; simpl; auto. intros ->. reflexivity. Qed.

Lemma lstrip_app_nonblank a b : lstrip a <> [] -> lstrip (a ++ b) = lstrip a ++ b.
Proof.
  induction a as [|x t IH]; simpl; [congruence|].
  destruct (is_space x); auto.
Qed.

Lemma lstrip_blank a b : forallb is_space a = true -> lstrip (a ++ b) = lstrip b.
Proof.
  induction a as [|x t IH]; simpl; auto.
  intro H. apply andb_true_iff in H as [H1 H2]. rewrite H1. auto.
Qed.

Lemma lstrip_suffix s : exists p, s = p ++ lstrip s /\ forallb is_space p = true.
Proof.
  induction s as [|x t IH]; simpl.
  - exists []. auto.
  - destruct (is_space x) eqn:E.
    + destruct IH as (p & Hp & Hs). exists (x :: p). simpl. rewrite E, Hs. split; auto.
      now rewrite <- Hp.
    + exists []. auto.
Qed.

Lemma forallb_rev {A} (p : A -> bool) l : forallb p (rev l) = forallb p l.
Proof.
  induction l as [|x l IH]; simpl; auto.
  rewrite forallb_app, IH. simpl. rewrite andb_true_r. apply andb_comm.
Qed.

(** A stripped text starts and ends with a non-blank. *)
Definition stripped (s : str) : Prop := no_lead s /\ no_lead (rev s).

Lemma no_lead_rev_lstrip s : no_lead (rev s) -> no_lead (rev (lstrip s)).
Proof.
  destruct (lstrip_suffix s) as (p & Hp & _).
  intro H. rewrite Hp in H at 1. rewrite rev_app_distr in H.
  destruct (rev (lstrip s)) as [|x t]; simpl in *; auto.
Qed.

Lemma strip_stripped s : stripped (strip s).
Proof.
  unfold strip, stripped. rewrite rev_involutive. split.
  - apply no_lead_rev_lstrip. rewrite rev_involutive. apply lstrip_no_lead.
  - apply lstrip_no_lead.
Qed.

Lemma stripped_strip s : stripped s -> strip s = s.
Proof.
  intros [H1 H2]. unfold strip. rewrite (lstrip_id s H1), (lstrip_id (rev s) H2).
  apply rev_involutive.
Qed.

Lemma strip_idem s : strip (strip s) = strip s.
Proof. apply stripped_strip, strip_stripped. Qed.

(** Blanks around a stripped text disappear. *)
Lemma strip_padded a s b :
  forallb is_space a = true -> forallb is_space b = true -> stripped s ->
  strip (a ++ s ++ b) = s.
Proof.
  intros Ha Hb [H1 H2]. unfold strip. rewrite (lstrip_blank a) by auto.
  destruct s as [|x t].
  - simpl. replace (lstrip b) with (@nil ascii). reflexivity.
    rewrite <- (app_nil_r b). now rewrite lstrip_blank.
  - rewrite (lstrip_id ((x :: t) ++ b)) by exact H1.
    rewrite rev_app_distr, lstrip_blank by now rewrite forallb_rev.
    rewrite lstrip_id by auto. apply rev_involutive.
Qed.

(** split / join *)
Lemma split_on_nonnil c s : split_on c s <> [].
Proof.
  destruct s as [|x t]; simpl; [discriminate|].
  destruct (Ascii.eqb x c); [discriminate|].
  destruct (split_on c t); discriminate.
Qed.

Lemma split_on_none c s : ~ In c s -> split_on c s = [s].
Proof.
  induction s as [|x t IH]; simpl; intro H; auto.
  destruct (Ascii.eqb_spec x c) as [->|Hx]; [tauto|].
  rewrite IH by tauto. reflexivity.
Qed.

Lemma split_on_app c a b : ~ In c a -> split_on c (a ++ c :: b) = a :: split_on c b.
Proof.
  induction a as [|x t IH]; simpl; intro H.
  - now rewrite Ascii.eqb_refl.
  - destruct (Ascii.eqb_spec x c) as [->|Hx]; [tauto|].
    rewrite IH by tauto. reflexivity.
Qed.

Lemma split_on_join c l :
  l <> [] -> Forall (fun s => ~ In c s) l -> split_on c (join [c] l) = l.
Proof.
  induction l as [|x t IH]; [congruence|].
  intros _ H. inversion H as [|? ? Hx Ht]; subst.
  destruct t as [|y t'].
  - simpl. now apply split_on_none.
  - change (join [c] (x :: y :: t')) with (x ++ c :: join [c] (y :: t')).
    rewrite split_on_app by auto. f_equal. apply IH; [discriminate|auto].
Qed.

Lemma split_on_no_sep c s : Forall (fun w => ~ In c w) (split_on c s).
Proof.
  induction s as [|x t IH]; simpl.
  - constructor; auto.
  - destruct (Ascii.eqb_spec x c) as [->|Hx].
    + constructor; auto.
    + destruct (split_on c t) as [|w ws].
      * constructor; auto. simpl. intuition.
      * inversion IH; subst. constructor; auto. simpl. intuition.
Qed.

Lemma join_split_on c s : join [c] (split_on c s) = s.
Proof.
  induction s as [|x t IH]; simpl; auto.
  destruct (Ascii.eqb_spec x c) as [->|Hx].
  - destruct (split_on c t) as [|w ws] eqn:E; [now apply split_on_nonnil in E|].
    change (join [c] ([] :: w :: ws)) with ([] ++ [c] ++ join [c] (w :: ws)).
    now rewrite IH.
  - destruct (split_on c t) as [|w ws] eqn:E; [now apply split_on_nonnil in E|].
    destruct ws; simpl in *; now rewrite IH.
Qed.

(** decimal numbers *)
Lemma code_digit_char d : (d < 10)%N -> code (digit_char d) = (48 + d)%N.
Proof. intro H. unfold code, digit_char. apply N_ascii_embedding. lia. Qed.

Lemma digit_char_is_digit d : (d < 10)%N -> is_digit (digit_char d) = true.
Proof.
  intro H. unfold is_digit, in_range. rewrite code_digit_char by auto.
  apply andb_true_iff. split; apply N.leb_le; lia.
Qed.

Lemma digit_val_char d : (d < 10)%N -> digit_val (digit_char d) = Z.of_N d.
Proof. intro H. unfold digit_val. rewrite code_digit_char by auto. lia. Qed.

Lemma dec_aux_digits fuel n acc :
  forallb is_digit acc = true -> forallb is_digit (dec_aux fuel n acc) = true.
Proof.
  revert n acc; induction fuel as [|f IH]; intros n acc H; simpl; auto.
  assert (Hd : is_digit (digit_char (n mod 10)) = true)
    by (apply digit_char_is_digit, N.mod_lt; lia).
  destruct (n / 10 =? 0)%N.
  - simpl. now rewrite Hd.
  - apply IH. simpl. now rewrite Hd.
Qed.

Lemma dec_digits n : forallb is_digit (dec n) = true.
Proof. now apply dec_aux_digits. Qed.

Lemma int_fold_acc s a b :
  fold_left (fun acc c => acc * 10 + digit_val c)%Z s (a + b)%Z
  = (a * 10 ^ Z.of_nat (length s) + fold_left (fun acc c => acc * 10 + digit_val c) s b)%Z.
Proof.
  revert a b; induction s as [|c s IH]; intros a b.
  - simpl fold_left. simpl length. change (10 ^ Z.of_nat 0)%Z with 1%Z. lia.
  - cbn [fold_left].
    replace ((a + b) * 10 + digit_val c)%Z with (a * 10 + (b * 10 + digit_val c))%Z by lia.
    rewrite IH. cbn [length]. rewrite Nat2Z.inj_succ, Z.pow_succ_r by lia. lia.
Qed.

Lemma int_of_cons c s :
  int_of (c :: s) = (digit_val c * 10 ^ Z.of_nat (length s) + int_of s)%Z.
Proof.
  unfold int_of. cbn [fold_left].
  replace (0 * 10 + digit_val c)%Z with (digit_val c + 0)%Z by lia.
  now rewrite int_fold_acc.
Qed.

Lemma dec_aux_val fuel n acc :
  (n < 2 ^ N.of_nat fuel)%N ->
  int_of (dec_aux (S fuel) n acc)
  = (Z.of_N n * 10 ^ Z.of_nat (length acc) + int_of acc)%Z.
Proof.
  revert n acc; induction fuel as [|f IH]; intros n acc Hn.
  - assert (n = 0)%N by (simpl in Hn; lia). subst n.
    replace (dec_aux 1 0 acc) with (digit_char 0 :: acc) by reflexivity.
    rewrite int_of_cons. rewrite digit_val_char by lia. reflexivity.
  - cbn [dec_aux]. destruct (N.eqb_spec (n / 10) 0) as [E|E].
    + assert (Hs : (n < 10)%N).
      { apply N.div_small_iff in E; lia. }
      rewrite int_of_cons. rewrite N.mod_small by auto.
      rewrite digit_val_char by auto. reflexivity.
    + assert (Hd : (n / 10 < 2 ^ N.of_nat f)%N).
      { apply N.div_lt_upper_bound; [lia|].
        rewrite Nat2N.inj_succ, N.pow_succ_r in Hn by lia. lia. }
      specialize (IH (n / 10)%N (digit_char (n mod 10) :: acc) Hd).
      cbn [dec_aux] in IH. rewrite IH. rewrite int_of_cons.
      rewrite digit_val_char by (apply N.mod_lt; lia).
      cbn [length]. rewrite Nat2Z.inj_succ, Z.pow_succ_r by lia.
      pose proof (N.div_mod n 10 ltac:(lia)) as D.
      assert (D' : (Z.of_N n = 10 * Z.of_N (n / 10) + Z.of_N (n mod 10))%Z) by lia.
      rewrite D'. ring.
Qed.

Lemma size_nat_bound n : (n < 2 ^ N.of_nat (N.size_nat n))%N.
Proof.
  destruct n as [|p]; simpl N.size_nat; [simpl; lia|].
  induction p as [p IH|p IH|]; cbn [Pos.size_nat];
    [rewrite Nat2N.inj_succ, N.pow_succ_r' .. | reflexivity].
  - remember (2 ^ N.of_nat (Pos.size_nat p))%N as q. lia.
  - remember (2 ^ N.of_nat (Pos.size_nat p))%N as q. lia.
Qed.

Lemma int_of_dec n : int_of (dec n) = Z.of_N n.
Proof.
  unfold dec. rewrite dec_aux_val by apply size_nat_bound.
  cbn. lia.
Qed.

Lemma dec_aux_nonnil fuel n acc : acc <> [] -> dec_aux fuel n acc <> [].
Proof.
  revert n acc; induction fuel as [|f IH]; intros n acc H; simpl; auto.
  destruct (n / 10 =? 0)%N; [discriminate|]. apply IH. discriminate.
Qed.

Lemma dec_nonnil n : dec n <> [].
Proof.
  unfold dec. cbn [dec_aux]. destruct (n / 10 =? 0)%N; [discriminate|].
  apply dec_aux_nonnil. discriminate.
Qed.

Lemma digit_val_bound c : is_digit c = true -> (0 <= digit_val c <= 9)%Z.
Proof.
  unfold is_digit, in_range, digit_val. intro H.
  apply andb_true_iff in H as [H1 H2]. apply N.leb_le in H1, H2. lia.
Qed.

Lemma int_of_nonneg s : forallb is_digit s = true -> (0 <= int_of s)%Z.
Proof.
  induction s as [|c s IH]; intro H; [cbn; lia|].
  simpl in H. apply andb_true_iff in H as [H1 H2].
  rewrite int_of_cons. pose proof (digit_val_bound c H1). specialize (IH H2).
  pose proof (Z.pow_nonneg 10 (Z.of_nat (length s)) ltac:(lia)). nia.
Qed.

(** mapM *)
Lemma mapM_ok_iff {A B} (f : A -> res B) l ys :
  mapM f l = Ok ys <-> Forall2 (fun x y => f x = Ok y) l ys.
Proof.
  revert ys; induction l as [|x l IH]; intros ys; simpl.
  - split; intro H.
    + injection H as <-. constructor.
    + inversion H. reflexivity.
  - destruct (f x) as [y|e] eqn:E; simpl.
    + destruct (mapM f l) as [zs|e] eqn:El; simpl.
      * split; intro H.
        -- injection H as <-. constructor; auto. now apply IH.
        -- inversion H as [|? y' ? ys' H1 H2]; subst. rewrite E in H1. injection H1 as ->.
           apply IH in H2. congruence.
      * split; intro H; [discriminate|].
        inversion H as [|? y' ? ys' H1 H2]; subst. apply IH in H2. discriminate.
    + split; intro H; [discriminate|].
      inversion H; subst. congruence.
Qed.

Lemma mapM_app {A B} (f : A -> res B) l1 l2 :
  mapM f (l1 ++ l2) = do a <- mapM f l1; do b <- mapM f l2; Ok (a ++ b).
Proof.
  induction l1 as [|x l1 IH]; simpl.
  - destruct (mapM f l2); reflexivity.
  - destruct (f x); simpl; auto. rewrite IH.
    destruct (mapM f l1); simpl; auto. destruct (mapM f l2); simpl; auto.
Qed.

Lemma Forall2_length {A B} (R : A -> B -> Prop) l l' : Forall2 R l l' -> length l = length l'.
Proof. induction 1; simpl; auto. Qed.

Lemma mapM_length {A B} (f : A -> res B) l ys : mapM f l = Ok ys -> length ys = length l.
Proof.
  intro H. apply mapM_ok_iff in H. symmetry. now apply Forall2_length in H.
Qed.

(** dictionaries *)
Section Dict.
  Context {V : Type}.
  Implicit Types d : dict V.

  Definition keys d : list str := map fst d.

  Lemma dget_In d k v : dget d k = Some v -> In (k, v) d.
  Proof.
    induction d as [|[k' v'] d IH]; simpl; [discriminate|].
    destruct (str_eqb_spec k k') as [->|Hk]; intro H.
    - injection H as ->. auto.
    - auto.
  Qed.

  Lemma dget_None d k : dget d k = None <-> ~ In k (keys d).
  Proof.
    induction d as [|[k' v'] d IH]; simpl; [tauto|].
    destruct (str_eqb_spec k k') as [->|Hk].
    - split; [discriminate|tauto].
    - rewrite IH. intuition.
  Qed.

  Lemma dget_Some_In d k : In k (keys d) <-> exists v, dget d k = Some v.
  Proof.
    split.
    - intro H. destruct (dget d k) eqn:E; eauto. now apply dget_None in E.
    - intros [v E]. destruct (in_dec str_dec k (keys d)) as [|n]; auto.
      apply dget_None in n. congruence.
  Qed.

  Lemma In_dget d k v : NoDup (keys d) -> In (k, v) d -> dget d k = Some v.
  Proof.
    induction d as [|[k' v'] d IH]; simpl; intros Hn H; [tauto|].
    destruct H as [H|H].
    - injection H as -> ->. now rewrite str_eqb_refl.
    - inversion Hn; subst. destruct (str_eqb_spec k k') as [->|Hk]; auto.
      exfalso. apply H2. change k' with (fst (k', v)). now apply in_map.
  Qed.

  Lemma dget_dset d k v k' :
    dget (dset d k v) k' = if str_eqb k' k then Some v else dget d k'.
  Proof.
    induction d as [|[k0 v0] d IH]; simpl.
    - reflexivity.
    - destruct (str_eqb_spec k k0) as [->|Hk]; simpl.
      + destruct (str_eqb_spec k' k0); auto.
      + rewrite IH. destruct (str_eqb_spec k' k0) as [->|Hk'].
        * destruct (str_eqb_spec k0 k); congruence.
        * reflexivity.
  Qed.

  Lemma keys_dset_In d k v x : In x (keys (dset d k v)) <-> x = k \/ In x (keys d).
  Proof.
    induction d as [|[k0 v0] d IH]; simpl.
    - intuition.
    - destruct (str_eqb_spec k k0) as [->|Hk]; simpl.
      + intuition.
      + rewrite IH. intuition.
  Qed.

  Lemma NoDup_dset d k v : NoDup (keys d) -> NoDup (keys (dset d k v)).
  Proof.
    induction d as [|[k0 v0] d IH]; simpl; intro H.
    - constructor; auto.
    - inversion H; subst. destruct (str_eqb_spec k k0) as [->|Hk]; simpl.
      + constructor; auto.
      + constructor; auto. change (map fst (dset d k v)) with (keys (dset d k v)).
        rewrite keys_dset_In. intuition.
  Qed.
End Dict.

Lemma dict_eqb_spec {V} (veqb : V -> V -> bool) (d1 d2 : dict V) :
  (forall a b, veqb a b = true <-> a = b) ->
  NoDup (keys d1) -> NoDup (keys d2) ->
  (dict_eqb veqb d1 d2 = true <-> forall k, dget d1 k = dget d2 k).
Proof.
  intros Hv N1 N2. unfold dict_eqb. rewrite andb_true_iff, Nat.eqb_eq, forallb_forall. split.
  - intros [Hl Hf].
    assert (Hincl : incl (keys d1) (keys d2)).
    { intros k Hk. apply dget_Some_In in Hk as [v E]. apply dget_In in E.
      specialize (Hf _ E). simpl in Hf. apply dget_Some_In.
      destruct (dget d2 k); [eauto|discriminate]. }
    assert (Hincl2 : incl (keys d2) (keys d1)).
    { apply NoDup_length_incl; auto. unfold keys. rewrite !map_length. lia. }
    intro k. destruct (dget d1 k) eqn:E.
    + pose proof (dget_In _ _ _ E) as Hin. specialize (Hf _ Hin). simpl in Hf.
      destruct (dget d2 k) eqn:E2; [|discriminate]. apply Hv in Hf. congruence.
    + apply dget_None in E. symmetry. apply dget_None. intro H. now apply E, Hincl2.
  - intro H.
    assert (Hk : forall k, In k (keys d1) <-> In k (keys d2)).
    { intro k. rewrite !dget_Some_In. now rewrite H. }
    split.
    + assert (length (keys d1) = length (keys d2)).
      { apply Nat.le_antisymm; apply NoDup_incl_length; auto; intros k; apply Hk. }
      unfold keys in *. now rewrite !map_length in *.
    + intros [k v] Hin. simpl. rewrite <- H. rewrite (In_dget d1 k v) by auto. now apply Hv.
Qed.

Lemma dict_eqb_Z (d1 d2 : dict Z) :
  NoDup (keys d1) -> NoDup (keys d2) ->
  (dict_eqb Z.eqb d1 d2 = true <-> forall k, dget d1 k = dget d2 k).
Proof. apply dict_eqb_spec. intros. apply Z.eqb_eq. Qed.

(** text comparison *)
Lemma code_inj a b : code a = code b -> a = b.
Proof.
  intro H. unfold code in H. rewrite <- (ascii_N_embedding a), <- (ascii_N_embedding b).
  now rewrite H.
Qed.

Lemma str_compare_eq a b : str_compare a b = Eq <-> a = b.
Proof.
  revert b; induction a as [|x a IH]; destruct b as [|y b]; simpl; split; intro H;
    try discriminate; auto.
  - destruct (N.compare_spec (code x) (code y)) as [E|E|E]; try discriminate.
    apply code_inj in E. apply IH in H. congruence.
  - injection H as -> ->. rewrite N.compare_refl. now apply IH.
Qed.

Lemma str_compare_antisym a b : str_compare b a = CompOpp (str_compare a b).
Proof.
  revert b; induction a as [|x a IH]; destruct b as [|y b]; simpl; auto.
  rewrite (N.compare_antisym (code x)). destruct (N.compare (code x) (code y)); simpl; auto.
Qed.

Definition str_lt (a b : str) : Prop := str_compare a b = Lt.

Lemma str_lt_trans a b c : str_lt a b -> str_lt b c -> str_lt a c.
Proof.
  unfold str_lt. revert b c; induction a as [|x a IH]; destruct b as [|y b], c as [|z c];
    simpl; try discriminate; auto.
  destruct (N.compare_spec (code x) (code y)) as [E|E|E]; try discriminate;
  destruct (N.compare_spec (code y) (code z)) as [F|F|F]; try discriminate;
  intros H1 H2.
  - rewrite E, F, N.compare_refl. eauto.
  - rewrite E. apply N.compare_lt_iff in F. now rewrite F.
  - rewrite <- F. apply N.compare_lt_iff in E. now rewrite E.
  - assert (G : (code x < code z)%N) by lia. apply N.compare_lt_iff in G. now rewrite G.
Qed.

Lemma str_lt_irrefl a : ~ str_lt a a.
Proof.
  unfold str_lt. rewrite (proj2 (str_compare_eq a a) eq_refl). discriminate.
Qed.

Lemma insert_uniq_In x l y : In y (insert_uniq x l) <-> y = x \/ In y l.
Proof.
  induction l as [|z l IH]; simpl; [intuition|].
  destruct (str_compare x z) eqn:E; simpl.
  - apply str_compare_eq in E. subst. intuition.
  - intuition.
  - rewrite IH. intuition.
Qed.

Lemma insert_uniq_sorted x l :
  StronglySorted str_lt l -> StronglySorted str_lt (insert_uniq x l).
Proof.
  induction 1 as [|y l Hs IH Hy]; simpl.
  - repeat constructor.
  - destruct (str_compare x y) eqn:E.
    + constructor; auto.
    + constructor.
      * constructor; auto.
      * constructor; auto. eapply Forall_impl; [|exact Hy].
        intros z Hz. eapply str_lt_trans; eauto.
    + constructor; auto.
      apply Forall_forall. intros z Hz. apply insert_uniq_In in Hz as [->|Hz].
      * unfold str_lt. rewrite str_compare_antisym, E. reflexivity.
      * rewrite Forall_forall in Hy. auto.
Qed.

Lemma sorted_set_In l y : In y (sorted_set l) <-> In y l.
Proof.
  induction l as [|x l IH]; simpl; [tauto|].
  rewrite insert_uniq_In, IH. intuition.
Qed.

Lemma sorted_set_sorted l : StronglySorted str_lt (sorted_set l).
Proof.
  induction l as [|x l IH]; simpl; [constructor|]. now apply insert_uniq_sorted.
Qed.

Lemma StronglySorted_NoDup l : StronglySorted str_lt l -> NoDup l.
Proof.
  induction 1 as [|y l Hs IH Hy]; constructor; auto.
  intro Hin. rewrite Forall_forall in Hy. apply (str_lt_irrefl y). auto.
Qed.

Lemma sorted_set_NoDup l : NoDup (sorted_set l).
Proof. apply StronglySorted_NoDup, sorted_set_sorted. Qed.

Lemma StronglySorted_unique l1 l2 :
  StronglySorted str_lt l1 -> StronglySorted str_lt l2 ->
  (forall x, In x l1 <-> In x l2) -> l1 = l2.
Proof.
  intro H1. revert l2. induction H1 as [|x l1 Hs IH Hx]; intros l2 H2 Heq.
  - destruct l2 as [|y l2]; auto. exfalso. apply (Heq y). now left.
  - destruct H2 as [|y l2 Hs2 Hy].
    + exfalso. apply (Heq x). now left.
    + rewrite Forall_forall in Hx, Hy.
      assert (x = y).
      { destruct (proj1 (Heq x) (or_introl eq_refl)) as [E|Hin]; auto.
        destruct (proj2 (Heq y) (or_introl eq_refl)) as [E|Hin2]; auto.
        exfalso. apply (str_lt_irrefl x). eapply str_lt_trans; eauto. }
      subst y. f_equal. apply IH; auto.
      intro z. split; intro Hz.
      * destruct (proj1 (Heq z) (or_intror Hz)) as [E|]; auto.
        subst z. exfalso. apply (str_lt_irrefl x). auto.
      * destruct (proj2 (Heq z) (or_intror Hz)) as [E|]; auto.
        subst z. exfalso. apply (str_lt_irrefl x). auto.
Qed.

Lemma sorted_set_ext l1 l2 : (forall x, In x l1 <-> In x l2) -> sorted_set l1 = sorted_set l2.
Proof.
  intro H. apply StronglySorted_unique; try apply sorted_set_sorted.
  intro x. now rewrite !sorted_set_In.
Qed.

(** index *)
Lemma index_of_Some x l i : index_of x l = Some i -> nth_error l i = Some x.
Proof.
  revert i; induction l as [|y l IH]; simpl; [discriminate|]; intros i.
  destruct (str_eqb_spec x y) as [->|Hx].
  - intro H; injection H as <-. reflexivity.
  - destruct (index_of x l); [|discriminate]. intro H; injection H as <-. simpl. auto.
Qed.

Lemma index_of_None x l : index_of x l = None <-> ~ In x l.
Proof.
  induction l as [|y l IH]; simpl; [tauto|].
  destruct (str_eqb_spec x y) as [->|Hx].
  - split; [discriminate|tauto].
  - destruct (index_of x l).
    + split; [discriminate|]. intro H. exfalso.
      assert (E : ~ In x l) by tauto. apply IH in E. discriminate.
    + split; auto. intros _ [H|H]; [congruence|]. now apply IH.
Qed.

Lemma index_of_nth l i x : NoDup l -> nth_error l i = Some x -> index_of x l = Some i.
Proof.
  revert i; induction l as [|y l IH]; intros i Hn H.
  - destruct i; discriminate.
  - inversion Hn; subst. destruct i as [|i]; simpl in *.
    + injection H as ->. now rewrite str_eqb_refl.
    + destruct (str_eqb_spec x y) as [->|Hx].
      * exfalso. apply H2. eapply nth_error_In; eauto.
      * now rewrite (IH i).
Qed.

Lemma llast_app {A} (l : list A) x : llast (l ++ [x]) = Ok x.
Proof.
  induction l as [|y l IH]; auto. simpl. destruct (l ++ [x]) eqn:E; auto.
  destruct l; discriminate.
Qed.

Lemma llast_rev {A} (l : list A) : llast (rev l) = lfirst l.
Proof. destruct l; simpl; auto. apply llast_app. Qed.

Lemma lfirst_rev {A} (l : list A) : lfirst (rev l) = llast l.
Proof. rewrite <- (rev_involutive l) at 2. now rewrite llast_rev. Qed.

Lemma repeat_list_length {A} n (l : list A) : length (repeat_list n l) = n * length l.
Proof. induction n; simpl; auto. rewrite app_length. lia. Qed.
