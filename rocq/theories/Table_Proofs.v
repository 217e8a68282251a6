(** Tables of the log read back. *)
From Coq Require Import String Ascii List ZArith NArith Bool Arith Lia.
Import ListNotations.
From Verif Require Import PyBase PyBaseFacts Log_Model Table_Model Table_Spec.
Local Open Scope list_scope.
Local Open Scope nat_scope.

Lemma lines_cons l t : ~ In newline l -> lines_of (l ++ newline :: t) = l :: lines_of t.
Proof.
  induction l as [|c l IH]; intro N.
  - reflexivity.
  - cbn [app lines_of]. destruct (ascii_dec c newline) as [->|E]; [exfalso; apply N; now left|].
    rewrite IH by (intro H; apply N; now right). reflexivity.
Qed.

Lemma not_in_app {A} (x : A) l m : ~ In x l -> ~ In x m -> ~ In x (l ++ m).
Proof. intros H1 H2 H. apply in_app_or in H. tauto. Qed.
Lemma not_in_repeat {A} (x y : A) n : x <> y -> ~ In x (repeat y n).
Proof. intros H1 H2. apply repeat_spec in H2. auto. Qed.
Lemma nl_left w s : ~ In newline s -> ~ In newline (left w s).
Proof. intro H. apply not_in_app; auto. apply not_in_repeat. discriminate. Qed.

Lemma left_length w s : length s <= w -> length (left w s) = w.
Proof. intro H. unfold left. rewrite app_length, repeat_length. lia. Qed.

Lemma unpadded_blanks n : unpadded (repeat " "%char n) = [].
Proof. induction n; cbn; auto. now rewrite IHn. Qed.
Lemma unpadded_keep s n : last s "x"%char <> " "%char -> unpadded (s ++ repeat " "%char n) = s.
Proof.
  induction s as [|c s IH]; intro H; [apply unpadded_blanks|]. cbn [app unpadded].
  destruct s as [|d s].
  - cbn [app]. rewrite unpadded_blanks. cbn [last] in H. destruct (ascii_dec c " "); [contradiction|reflexivity].
  - rewrite IH by exact H. reflexivity.
Qed.
Lemma unpadded_left w s : fits w s -> unpadded (left w s) = s.
Proof. intros (_ & _ & H). now apply unpadded_keep. Qed.

(** A cell that stands behind [p]. *)
Lemma cell_at p w s t : fits w s -> cell (length p) w (p ++ left w s ++ t) = s.
Proof.
  intro F. unfold cell. rewrite skipn_app, skipn_all, Nat.sub_diag. cbn [app skipn].
  rewrite firstn_app, left_length by apply F. rewrite Nat.sub_diag, firstn_O, app_nil_r.
  rewrite firstn_all2 by (rewrite left_length; [lia|apply F]). now apply unpadded_left.
Qed.
Lemma cell_of a p w s t : fits w s -> length p = a -> cell a w (p ++ left w s ++ t) = s.
Proof. intros F <-. now apply cell_at. Qed.

(** Three and two cells after a margin. *)
Lemma three m a b c x y z : fits a x -> fits b y -> fits c z ->
  let line := m ++ left a x ++ left b y ++ left c z in
  length line = length m + a + b + c /\
  cell (length m) a line = x /\ cell (length m + a) b line = y /\ cell (length m + a + b) c line = z.
Proof.
  intros F1 F2 F3 line.
  assert (L1 := left_length a x (proj1 (proj2 F1))). assert (L2 := left_length b y (proj1 (proj2 F2))).
  assert (L3 := left_length c z (proj1 (proj2 F3))).
  split; [unfold line; rewrite !app_length; lia|]. split; [now apply cell_at|]. split.
  - unfold line. rewrite app_assoc. apply cell_of; auto. rewrite app_length. lia.
  - unfold line. rewrite <- (app_nil_r (left c z)), app_assoc, (app_assoc (m ++ left a x)). apply cell_of; auto.
    rewrite !app_length. lia.
Qed.

Lemma dec_aux_length fuel : forall n acc k, (n < 10 ^ N.of_nat (S k))%N -> length (dec_aux fuel n acc) <= S k + length acc.
Proof.
  induction fuel as [|fuel IH]; intros n acc k H; cbn [dec_aux]; [lia|].
  destruct (N.eqb_spec (n / 10) 0) as [E|E]; [cbn [length]; lia|].
  destruct k as [|k].
  - exfalso. apply E. apply N.div_small. exact H.
  - assert (Q : (n / 10 < 10 ^ N.of_nat (S k))%N).
    { apply N.div_lt_upper_bound; [discriminate|]. rewrite <- N.pow_succ_r'. now rewrite <- Nat2N.inj_succ. }
    specialize (IH (n / 10)%N (digit_char (n mod 10) :: acc) k Q). cbn [length] in IH. lia.
Qed.
Lemma dec_length n k : (n < 10 ^ N.of_nat (S k))%N -> length (dec n) <= S k.
Proof. intro H. pose proof (dec_aux_length (S (N.size_nat n)) n [] k H). unfold dec. cbn [length] in *. lia. Qed.

Lemma one_digit i : i < 10 -> length (dec (N.of_nat i)) = 1.
Proof. intro H. do 10 (destruct i as [|i]; [reflexivity|]). lia. Qed.
Lemma two_digits n : (10 <= n)%N -> 2 <= length (dec n).
Proof.
  intro H. destruct (le_lt_dec 2 (length (dec n))) as [|Q]; auto. exfalso.
  pose proof (int_of_dec n) as V. pose proof (dec_digits n) as G. pose proof (dec_nonnil n) as NN.
  destruct (dec n) as [|c [|d t]]; [contradiction| |cbn in Q; lia].
  cbn in G. rewrite andb_true_r in G. unfold is_digit, in_range in G. apply andb_prop in G as [G1 G2].
  apply N.leb_le in G1. apply N.leb_le in G2. unfold int_of, digit_val in V. cbn [fold_left] in V. lia.
Qed.
Lemma zfill2_number i : zfill2 (dec (N.of_nat i)) = row_number i.
Proof.
  unfold zfill2, row_number. destruct (Nat.ltb_spec i 10) as [H|H].
  - now rewrite one_digit by auto.
  - pose proof (two_digits (N.of_nat i) ltac:(lia)) as Q.
    replace (2 - length (dec (N.of_nat i))) with 0 by lia. reflexivity.
Qed.

Lemma digits_no c s : forallb is_digit s = true -> is_digit c = false -> ~ In c s.
Proof. intros H1 H2 H. rewrite forallb_forall in H1. rewrite (H1 c H) in H2. discriminate. Qed.
Lemma last_In {A} (l : list A) d : l = [] \/ In (last l d) l.
Proof. induction l as [|a l IH]; auto. right. destruct l; [now left|]. destruct IH; [discriminate|now right]. Qed.

Lemma number_digits i : forallb is_digit (row_number i) = true.
Proof. unfold row_number. destruct (i <? 10); [cbn|]; apply dec_digits. Qed.
Lemma number_fits i : (N.of_nat i < 10 ^ 10)%N -> fits 10 (row_number i).
Proof.
  intro H. pose proof (number_digits i) as G. split; [now apply digits_no|]. split.
  - unfold row_number. destruct (Nat.ltb_spec i 10) as [Q|Q]; [cbn [length]; rewrite one_digit by auto; lia|].
    now apply dec_length.
  - destruct (last_In (row_number i) "x"%char) as [->|I]; [discriminate|]. intro E. rewrite E in I.
    revert I. now apply digits_no.
Qed.

Lemma app_cons_nl (l t : str) : l ++ [nl] ++ t = l ++ newline :: t.
Proof. reflexivity. Qed.

Section Read.
  Variable D : Type.
  Variable num : D -> str.

  (** The lines of the rows. *)
  Fixpoint row_lines (w i : nat) (names : list str) (xs : list D) : list str :=
    match names, xs with
    | name :: names', x :: xs' =>
        (L " " ++ left 10 (zfill2 (dec (N.of_nat i))) ++ left w name ++ left 30 (num x)) :: row_lines w (S i) names' xs'
    | _, _ => []
    end.
  Lemma row_lines_length w : forall names i xs, length (row_lines w i names xs) = Nat.min (length names) (length xs).
  Proof. induction names as [|n names IH]; intros i [|x xs]; cbn; auto. Qed.
  Lemma row_lines_nth w : forall names i xs k name x, nth_error names k = Some name -> nth_error xs k = Some x ->
    nth_error (row_lines w i names xs) k
    = Some (L " " ++ left 10 (row_number (i + k)) ++ left w name ++ left 30 (num x)).
  Proof.
    induction names as [|n names IH]; intros i [|y xs] [|k] name x H1 H2; try discriminate; cbn [row_lines nth_error] in *.
    - injection H1 as ->. injection H2 as ->. now rewrite zfill2_number, Nat.add_0_r.
    - rewrite (IH (S i) xs k name x H1 H2). now rewrite Nat.add_succ_comm.
  Qed.
  Lemma rows_lines w : (forall x, ~ In newline (num x)) -> forall names i xs t,
    (forall n, In n names -> ~ In newline n) ->
    lines_of (rows D num w i names xs ++ t) = row_lines w i names xs ++ lines_of t.
  Proof.
    intro HN. induction names as [|n names IH]; intros i [|x xs] t H; cbn [rows row_lines app]; auto.
    unfold row. rewrite <- !app_assoc.
    replace (L " " ++ left 10 (zfill2 (dec (N.of_nat i))) ++ left w n ++ left 30 (num x) ++ [nl] ++ rows D num w (S i) names xs ++ t)
      with ((L " " ++ left 10 (zfill2 (dec (N.of_nat i))) ++ left w n ++ left 30 (num x)) ++ newline :: (rows D num w (S i) names xs ++ t))
      by (rewrite <- !app_assoc; reflexivity).
    rewrite lines_cons.
    - rewrite IH by (intros; apply H; now right). reflexivity.
    - apply not_in_app; [cbn; intros [E|[]]; discriminate|]. apply not_in_app.
      { apply nl_left. rewrite zfill2_number. apply digits_no; [apply number_digits|reflexivity]. }
      apply not_in_app; apply nl_left; auto. apply H. now left.
  Qed.

  Lemma dashes_lines n t : lines_of (dashes n ++ t) = rule n :: lines_of t.
  Proof.
    unfold dashes. rewrite <- app_assoc. cbn [app]. apply lines_cons. apply not_in_repeat. discriminate.
  Qed.

  Lemma table_reads title head1 head2 w len names xs :
    ~ In newline title -> fits w head1 -> fits 30 head2 -> (forall n, In n names -> fits w n) -> (forall x, fits 30 (num x)) ->
    (N.of_nat (length names) <= 10 ^ 10)%N ->
    table_of num title head1 head2 w len names xs (table D num title head1 head2 w len names xs).
  Proof.
    intros HT F1 F2 FN FX HL.
    set (heads := L " " ++ left 10 (L "index") ++ left w head1 ++ left 30 head2).
    assert (FI : fits 10 (L "index")).
    { split; [cbn; intros H; repeat destruct H as [H|H]; try discriminate; auto|]. split; [cbn; lia|cbn; discriminate]. }
    destruct (three (L " ") 10 w 30 _ _ _ FI F1 F2) as (_ & C1 & C2 & C3). fold heads in C1, C2, C3.
    change (length (L " ")) with 1 in C1, C2, C3. change (1 + 10) with 11 in C2, C3.
    exists heads, (row_lines w 0 names xs).
    split; [|split; [exact C1|split; [exact C2|split; [exact C3|split; [apply row_lines_length|]]]]].
    - unfold table. rewrite app_cons_nl, lines_cons by exact HT. cbn [app lines_of].
      f_equal. 
      destruct (ascii_dec nl newline) as [_|Q]; [|now contradiction Q].
      f_equal.
      match goal with |- lines_of ?t = _ =>
        replace t with (heads ++ newline :: (dashes len ++ rows D num w 0 names xs ++ dashes len)) end.
      2:{ unfold heads. rewrite <- !app_assoc. reflexivity. }
      rewrite lines_cons.
      2:{ unfold heads. apply not_in_app; [cbn; intros [E|[]]; discriminate|].
          apply not_in_app; [apply nl_left, FI|]. apply not_in_app; apply nl_left; [apply F1|apply F2]. }
      rewrite dashes_lines, rows_lines; [|intro; apply FX|intros; now apply (FN n)].
      rewrite <- (app_nil_r (dashes len)), dashes_lines. reflexivity.
    - intros i name x Hn Hx. pose proof (row_lines_nth w names 0 xs i name x Hn Hx) as N. cbn [Nat.add] in N.
      eexists. split; [exact N|].
      assert (Hi : (N.of_nat i < 10 ^ 10)%N).
      { assert (i < length names) by (apply nth_error_Some; congruence). lia. }
      destruct (three (L " ") 10 w 30 _ _ _ (number_fits i Hi) (FN name (nth_error_In _ _ Hn)) (FX x)) as (C0 & C4 & C5 & C6).
      change (length (L " ")) with 1 in *. change (1 + 10) with 11 in *.
      split; [rewrite C0; lia|]. split; [reflexivity|]. auto.
  Qed.
End Read.
