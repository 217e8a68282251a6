(** Texts that denote a value: closure lemmas for the evaluator of PyExpr_Model.v. *)
From Coq Require Import String Ascii List ZArith NArith Bool Arith Reals Lia Lra.
Import ListNotations.
From Verif Require Import PyBase PyBaseFacts PyExpr_Model.
From Verif Require Export PyExpr_Spec.
Open Scope list_scope.

Definition not_pow (ts : list tok) : Prop := match ts with TPow :: _ => False | _ => True end.
Definition not_star (ts : list tok) : Prop := match ts with TStar :: _ | TPow :: _ => False | _ => True end.
Definition not_op (ts : list tok) : Prop :=
  match ts with TStar :: _ | TPow :: _ | TPlus :: _ | TMinus :: _ => False | _ => True end.

Lemma not_minus_head_atom ts e : g_atom ts e -> exists t r, ts = t :: r /\ t <> TMinus.
Proof. intros []; eexists; eexists; split; try reflexivity; discriminate. Qed.

Lemma parse_complete :
  (forall ts e, g_atom ts e -> 1 <= length ts /\
     forall f rest, 8 * length ts <= f -> p_atom f (ts ++ rest) = Ok (e, rest)) /\
  (forall ts e, g_unary ts e -> 1 <= length ts /\
     forall f rest, 8 * length ts + 1 <= f -> not_pow rest -> p_unary f (ts ++ rest) = Ok (e, rest)) /\
  (forall ts e, g_prod ts e -> exists n, n <= length ts /\ 1 <= length ts /\
     forall f rest, 8 * (length ts - n) + 2 <= f -> not_pow rest ->
       p_prod (S (n + f)) (ts ++ rest) = p_prod_rest f e rest) /\
  (forall ts e, g_sum ts e -> exists n, n <= length ts /\ 1 <= length ts /\
     forall f rest, 8 * (length ts - n) + 4 <= f -> not_star rest ->
       p_sum (S (n + f)) (ts ++ rest) = p_sum_rest f e rest).
Proof.
  assert (PR : forall ts e, (exists n, n <= length ts /\ 1 <= length ts /\
     forall f rest, 8 * (length ts - n) + 2 <= f -> not_pow rest ->
       p_prod (S (n + f)) (ts ++ rest) = p_prod_rest f e rest) ->
     forall F rest, 8 * length ts + 3 <= F -> not_star rest -> p_prod F (ts ++ rest) = Ok (e, rest)).
  { intros ts e (n & Hn & H1 & H) F rest HF NS.
    replace F with (S (n + (F - 1 - n))) by lia. rewrite H by (try lia; destruct rest as [|[]]; cbn in *; auto).
    assert (exists f, F - 1 - n = S f) as [f ->] by (exists (F - 2 - n); lia).
    destruct rest as [|[] ?]; cbn in *; try contradiction; auto. }
  apply g_mutind.
  - intros s. split; [cbn; lia|]. intros f rest Hf. cbn in Hf. destruct f; [lia|]. reflexivity.
  - intros n k. split; [cbn; lia|]. intros f rest Hf. cbn in Hf. destruct f; [lia|]. reflexivity.
  - intros n i. split; [cbn; lia|]. intros f rest Hf. cbn in Hf. destruct f; [lia|]. reflexivity.
  - intros ts e _ (n & Hn & H1 & H). cbn [length]. rewrite app_length. cbn [length]. split; [lia|].
    intros f rest Hf. destruct f as [|f]; [lia|]. cbn [app p_atom].
    rewrite <- app_assoc. cbn [app].
    replace f with (S (n + (f - 1 - n))) by lia. rewrite H by (cbn; auto; lia).
    assert (exists g, f - 1 - n = S g) as [g ->] by (exists (f - 2 - n); lia). reflexivity.
  - intros ts e GA [H1 H]. split; auto. intros f rest Hf NP. destruct f as [|f]; [lia|].
    destruct (not_minus_head_atom ts e GA) as (t & r & -> & Ht).
    cbn [p_unary]. pose proof (H f rest ltac:(lia)) as A.
    destruct t; try congruence; rewrite A; cbn [bind]; destruct rest as [|[] ?]; cbn in NP; try contradiction; auto.
  - intros ts e n GA [H1 H] D. rewrite app_length. cbn [length]. split; [lia|].
    intros f rest Hf NP. destruct f as [|f]; [lia|].
    destruct (not_minus_head_atom ts e GA) as (t & r & -> & Ht).
    cbn [p_unary]. pose proof (H f ([TPow; TNum n] ++ rest) ltac:(cbn in *; lia)) as A.
    rewrite <- app_assoc in *. cbn [app] in *.
    destruct t; try congruence; rewrite A; cbn [bind]; now rewrite D.
  - intros ts e _ [H1 H]. cbn [length]. split; [lia|]. intros f rest Hf NP. destruct f as [|f]; [lia|].
    cbn [app p_unary]. rewrite H by (auto; lia). reflexivity.
  - intros ts e _ [H1 H]. exists 0. split; [lia|]. split; auto. intros f rest Hf NP. cbn [Nat.add p_prod].
    rewrite H by (auto; lia). reflexivity.
  - intros ts1 ts2 e1 e2 _ (n & Hn & L1 & H1) _ [L2 H2]. exists (S n). rewrite app_length. cbn [length].
    split; [lia|]. split; [lia|]. intros f rest Hf NP. rewrite <- app_assoc. cbn [app].
    replace (S (S n + f)) with (S (n + S f)) by lia. rewrite H1 by (cbn; auto; lia).
    cbn [p_prod_rest]. rewrite H2 by (auto; lia). reflexivity.
  - intros ts e _ H. exists 0. split; [lia|]. split; [destruct H as (? & ? & ? & ?); auto|].
    intros f rest Hf NS. cbn [Nat.add p_sum]. rewrite (PR ts e H) by (auto; lia). reflexivity.
  - intros ts1 ts2 e1 e2 _ (n & Hn & L1 & H1) _ H2.
    assert (L2 : 1 <= length ts2) by (destruct H2 as (? & ? & ? & ?); auto).
    exists (S n). rewrite app_length. cbn [length]. split; [lia|]. split; [lia|].
    intros f rest Hf NS. rewrite <- app_assoc. cbn [app].
    replace (S (S n + f)) with (S (n + S f)) by lia. rewrite H1 by (cbn; auto; lia).
    cbn [p_sum_rest]. rewrite (PR ts2 e2 H2) by (auto; lia). reflexivity.
  - intros ts1 ts2 e1 e2 _ (n & Hn & L1 & H1) _ H2.
    assert (L2 : 1 <= length ts2) by (destruct H2 as (? & ? & ? & ?); auto).
    exists (S n). rewrite app_length. cbn [length]. split; [lia|]. split; [lia|].
    intros f rest Hf NS. rewrite <- app_assoc. cbn [app].
    replace (S (S n + f)) with (S (n + S f)) by lia. rewrite H1 by (cbn; auto; lia).
    cbn [p_sum_rest]. rewrite (PR ts2 e2 H2) by (auto; lia). reflexivity.
Qed.

Lemma parse_expr_complete ts e : g_sum ts e -> parse_expr ts = Ok e.
Proof.
  intro G. destruct parse_complete as (_ & _ & _ & H). destruct (H ts e G) as (n & Hn & H1 & P).
  unfold parse_expr, parse_fuel.
  replace (8 * length ts + 8) with (S (n + (8 * length ts + 7 - n))) by lia.
  rewrite <- (app_nil_r ts) at 2. rewrite P by (cbn; auto; lia).
  assert (exists g, 8 * length ts + 7 - n = S g) as [g ->] by (exists (8 * length ts + 6 - n); lia).
  reflexivity.
Qed.

(** ** Lexing *)
(** [lexes s ts]: [s] reads as [ts] from the start state and ends in a state from which a
    new token can start. *)
Definition stop_state (st : lstate) : Prop := match st with LStart | LNum _ => True | _ => False end.
Definition lexes (s : str) (ts : list tok) : Prop :=
  exists o st p, lrun LStart s = Some (o, st) /\ stop_state st /\ lflush st = Some p /\ ts = o ++ p.

Lemma lexes_lex s ts : lexes s ts -> lex s = Ok ts.
Proof. intros (o & st & p & R & _ & F & ->). unfold lex. now rewrite R, F. Qed.

Lemma emit_emit a b r : emit a (emit b r) = emit (a ++ b) r.
Proof. destruct r as [[? ?]|]; cbn; auto. now rewrite app_assoc. Qed.
Lemma emit_nil r : emit [] r = r.
Proof. destruct r as [[? ?]|]; reflexivity. Qed.

Lemma lrun_app a b st : lrun st (a ++ b) =
  match lrun st a with Some (o, st') => emit o (lrun st' b) | None => None end.
Proof.
  revert st. induction a as [|c a IH]; intro st; cbn [app lrun].
  - now rewrite emit_nil.
  - destruct (lstep st c) as [[o st1]|]; cbn; auto. rewrite IH. destruct (lrun st1 a) as [[o2 st2]|]; cbn; auto.
    now rewrite emit_emit.
Qed.

(** Characters that end a number. *)
Definition separates (c : ascii) : bool :=
  negb (is_digit c || Ascii.eqb c "." || is_letter c || Ascii.eqb c "_").

Lemma step_stop st p c : stop_state st -> lflush st = Some p -> separates c = true ->
  lstep st c = emit p (lstep_start c).
Proof.
  intros S F C. destruct st; cbn in S; try contradiction; cbn in F; injection F as <-.
  - cbn. now rewrite emit_nil.
  - unfold separates in C. apply negb_true_iff in C. apply orb_false_iff in C as [C C4].
    apply orb_false_iff in C as [C C3]. apply orb_false_iff in C as [C1 C2].
    cbn [lstep]. now rewrite C1, C2, C3, C4.
Qed.

Lemma lexes_sep a c b ta o tb : lexes a ta -> separates c = true ->
  lstep_start c = Some (o, LStart) -> lexes b tb -> lexes (a ++ c :: b) (ta ++ o ++ tb).
Proof.
  intros (o1 & s1 & p1 & R1 & S1 & F1 & ->) C St (o2 & s2 & p2 & R2 & S2 & F2 & ->).
  exists (o1 ++ p1 ++ o ++ o2), s2, p2. split.
  - rewrite lrun_app, R1. cbn [lrun]. rewrite (step_stop s1 p1 c S1 F1 C), St. cbn [emit].
    rewrite R2. cbn. now rewrite <- !app_assoc.
  - split; auto. split; auto. now rewrite !app_assoc.
Qed.

Definition starts_ok (s : str) : Prop := match s with [] => False | c :: _ => c <> "*"%char end.

Lemma lexes_star a b ta tb : lexes a ta -> starts_ok b -> lexes b tb ->
  lexes (a ++ L "*" ++ b) (ta ++ TStar :: tb).
Proof.
  intros (o1 & s1 & p1 & R1 & S1 & F1 & ->) SB (o2 & s2 & p2 & R2 & S2 & F2 & ->).
  destruct b as [|c b]; [contradiction|]. cbn [starts_ok] in SB.
  exists (o1 ++ p1 ++ TStar :: o2), s2, p2. split.
  - cbn [L list_ascii_of_string app]. rewrite lrun_app, R1. cbn [lrun].
    rewrite (step_stop s1 p1 _ S1 F1) by reflexivity. cbn [lstep_start emit]. cbn.
    cbn [lrun] in R2. unfold lstep in R2 at 1.
    assert (Ascii.eqb c "*" = false) as -> by now apply Ascii.eqb_neq.
    destruct (lstep_start c) as [[o3 s3]|]; [|discriminate]. cbn [emit] in R2 |- *.
    destruct (lrun s3 b) as [[o4 s4]|]; [|discriminate]. cbn [emit] in R2 |- *.
    injection R2 as <- <-. cbn. now rewrite <- ?app_assoc, ?app_nil_r.
  - split; auto. split; auto. rewrite <- ?app_assoc. cbn. now rewrite <- ?app_assoc.
Qed.

Lemma lexes_pow a b ta tb : lexes a ta -> lexes b tb -> lexes (a ++ L "**" ++ b) (ta ++ TPow :: tb).
Proof.
  intros (o1 & s1 & p1 & R1 & S1 & F1 & ->) (o2 & s2 & p2 & R2 & S2 & F2 & ->).
  exists (o1 ++ p1 ++ TPow :: o2), s2, p2. split.
  - cbn [L list_ascii_of_string app]. rewrite lrun_app, R1. cbn [lrun].
    rewrite (step_stop s1 p1 _ S1 F1) by reflexivity. cbn [lstep_start emit]. cbn. rewrite R2. cbn.
    now rewrite ?app_nil_r, <- ?app_assoc.
  - split; auto. split; auto. rewrite <- ?app_assoc. cbn. now rewrite <- ?app_assoc.
Qed.

Lemma lexes_nil : lexes [] [].
Proof. exists [], LStart, []. repeat split. Qed.

Lemma lexes_pre c o b tb : lstep_start c = Some (o, LStart) -> lexes b tb -> lexes (c :: b) (o ++ tb).
Proof.
  intros St (o2 & s2 & p2 & R2 & S2 & F2 & ->). exists (o ++ o2), s2, p2.
  cbn [lrun lstep]. rewrite St. cbn [emit]. rewrite R2. cbn. rewrite <- app_assoc. auto.
Qed.

Lemma lrun_num s acc : forallb (fun c => is_digit c || Ascii.eqb c ".") s = true ->
  lrun (LNum acc) s = Some ([], LNum (acc ++ s)).
Proof.
  revert acc. induction s as [|c s IH]; intros acc H; cbn [lrun].
  - now rewrite app_nil_r.
  - cbn in H. apply andb_prop in H as [H1 H2]. cbn [lstep]. rewrite H1. rewrite IH by auto. cbn.
    now rewrite <- app_assoc.
Qed.

Definition num_text (s : str) : Prop :=
  match s with [] => False | c :: t => is_digit c = true /\ forallb (fun c => is_digit c || Ascii.eqb c ".") t = true end.

Lemma digit_char_cases c : is_digit c = true ->
  Ascii.eqb c " " = false /\ Ascii.eqb c "*" = false /\ Ascii.eqb c "[" = false /\ Ascii.eqb c "]" = false.
Proof. all_ascii c. Qed.

Lemma lexes_num s : num_text s -> lexes s [TNum s].
Proof.
  destruct s as [|c s]; [intros []|]. intros [H1 H2]. exists [], (LNum (c :: s)), [TNum (c :: s)].
  split; [|repeat split]. cbn [lrun lstep]. unfold lstep_start.
  destruct (digit_char_cases c H1) as (-> & _). rewrite H1. cbn. now rewrite lrun_num.
Qed.

Lemma lrun_name s acc : forallb is_word s = true -> lrun (LName acc) s = Some ([], LName (acc ++ s)).
Proof.
  revert acc. induction s as [|c s IH]; intros acc H; cbn [lrun].
  - now rewrite app_nil_r.
  - cbn in H. apply andb_prop in H as [H1 H2]. cbn [lstep]. rewrite H1. rewrite IH by auto. cbn.
    now rewrite <- app_assoc.
Qed.

Definition key_char (c : ascii) : bool := negb (Ascii.eqb c "'" || Ascii.eqb c "\").

Lemma lrun_str n s acc : forallb key_char s = true -> lrun (LStr n acc) s = Some ([], LStr n (acc ++ s)).
Proof.
  revert acc. induction s as [|c s IH]; intros acc H; cbn [lrun].
  - now rewrite app_nil_r.
  - cbn in H. apply andb_prop in H as [H1 H2]. unfold key_char in H1. apply negb_true_iff in H1.
    apply orb_false_iff in H1 as [H1 H3]. cbn [lstep]. rewrite H1, H3. rewrite IH by auto. cbn.
    now rewrite <- app_assoc.
Qed.

Lemma lrun_idx n s acc : forallb is_digit s = true -> lrun (LIdx n acc) s = Some ([], LIdx n (acc ++ s)).
Proof.
  revert acc. induction s as [|c s IH]; intros acc H; cbn [lrun].
  - now rewrite app_nil_r.
  - cbn in H. apply andb_prop in H as [H1 H2]. cbn [lstep]. rewrite H1. rewrite IH by auto. cbn.
    now rewrite <- app_assoc.
Qed.

Definition ident (n : str) : Prop :=
  match n with [] => False | c :: t => is_letter c = true /\ forallb is_word t = true end.

Lemma letter_cases c : is_letter c = true ->
  Ascii.eqb c " " = false /\ is_digit c = false /\ Ascii.eqb c "*" = false.
Proof. all_ascii c. Qed.

Lemma lrun_ident n s : ident n -> lrun LStart (n ++ L "[" ++ s) = lrun (LSub n) s.
Proof.
  destruct n as [|c t]; [intros []|]. intros [H1 H2]. cbn [app lrun lstep]. unfold lstep_start.
  destruct (letter_cases c H1) as (-> & -> & _). rewrite H1. cbn [orb emit].
  rewrite lrun_app, lrun_name by auto. cbn [emit app L list_ascii_of_string lrun].
  rewrite !emit_nil. change (lstep (LName (c :: t)) "[") with (Some (@nil tok, LSub (c :: t))).
  apply emit_nil.
Qed.

Lemma lexes_key n k : ident n -> forallb key_char k = true -> lexes (n ++ L "['" ++ k ++ L "']") [TKey n k].
Proof.
  intros I K. exists [TKey n k], LStart, []. split; [|repeat split].
  change (L "['" ++ k ++ L "']") with (L "[" ++ (L "'" ++ k ++ L "']")). rewrite lrun_ident by auto.
  cbn [L list_ascii_of_string app lrun lstep]. rewrite Ascii.eqb_refl. rewrite emit_nil.
  rewrite lrun_app, lrun_str by auto. cbn. reflexivity.
Qed.

Lemma lexes_idx n i : ident n -> forallb is_digit i = true -> i <> [] -> lexes (n ++ L "[" ++ i ++ L "]") [TIdx n i].
Proof.
  intros I D N. exists [TIdx n i], LStart, []. split; [|repeat split].
  rewrite lrun_ident by auto. destruct i as [|c i]; [congruence|]. cbn in D. apply andb_prop in D as [D1 D2].
  cbn [app lrun lstep].
  assert (Ascii.eqb c "'" = false) as -> by (clear -D1; revert D1; all_ascii c). rewrite D1, emit_nil.
  rewrite lrun_app, lrun_idx by auto. reflexivity.
Qed.

(** ** Texts with a value *)
Section Values.
  Variable v : env.
  Open Scope R_scope.

  Definition atom_val (s : str) (x : R) : Prop :=
    starts_ok s /\ exists ts e, lexes s ts /\ g_atom ts e /\ eval v e = Ok x.
  Definition unary_val (s : str) (x : R) : Prop :=
    starts_ok s /\ exists ts e, lexes s ts /\ g_unary ts e /\ eval v e = Ok x.
  Definition prod_val (s : str) (x : R) : Prop :=
    starts_ok s /\ exists ts e, lexes s ts /\ g_prod ts e /\ eval v e = Ok x.
  Definition sum_val (s : str) (x : R) : Prop :=
    starts_ok s /\ exists ts e, lexes s ts /\ g_sum ts e /\ eval v e = Ok x.

  Lemma sum_val_eval s x : sum_val s x -> eval_text v s = Ok x.
  Proof.
    intros (_ & ts & e & Hl & G & E). unfold eval_text. rewrite (lexes_lex s ts Hl). cbn [bind].
    rewrite (parse_expr_complete ts e G). cbn [bind]. auto.
  Qed.

  Lemma atom_unary s x : atom_val s x -> unary_val s x.
  Proof. intros (S & ts & e & A & B & C). split; auto. exists ts, e. split; auto. split; auto. now constructor. Qed.
  Lemma unary_prod s x : unary_val s x -> prod_val s x.
  Proof. intros (S & ts & e & A & B & C). split; auto. exists ts, e. split; auto. split; auto. now constructor. Qed.
  Lemma prod_sum s x : prod_val s x -> sum_val s x.
  Proof. intros (S & ts & e & A & B & C). split; auto. exists ts, e. split; auto. split; auto. now constructor. Qed.
  Lemma atom_prod s x : atom_val s x -> prod_val s x.
  Proof. intro H. now apply unary_prod, atom_unary. Qed.

  Lemma starts_ok_app s t : starts_ok s -> starts_ok (s ++ t).
  Proof. destruct s; cbn; auto. contradiction. Qed.

  Lemma num_val s x : num_text s -> num_value s = Ok x -> atom_val s x.
  Proof.
    intros H E. split.
    - destruct s as [|c s]; [contradiction|]. cbn. destruct H as [H _]. intros ->. discriminate.
    - exists [TNum s], (ENum s). split; [now apply lexes_num|]. split; auto. constructor.
  Qed.

  Lemma ident_starts n s : ident n -> starts_ok (n ++ s).
  Proof. destruct n as [|c n]; [intros []|]. intros [H _] ->. discriminate. Qed.

  Lemma key_val n k x : ident n -> forallb key_char k = true -> env_key v n k = Ok x ->
    atom_val (n ++ L "['" ++ k ++ L "']") x.
  Proof.
    intros I K E. split; [now apply ident_starts|].
    exists [TKey n k], (EKey n k). split; [now apply lexes_key|]. split; auto. constructor.
  Qed.

  Lemma idx_val n i x : ident n -> forallb is_digit i = true -> i <> [] -> env_idx v n (int_of i) = Ok x ->
    atom_val (n ++ L "[" ++ i ++ L "]") x.
  Proof.
    intros I D N E. split; [now apply ident_starts|].
    exists [TIdx n i], (EIdx n i). split; [now apply lexes_idx|]. split; auto. constructor.
  Qed.

  Lemma digits_num n : forallb is_digit n = true -> n <> [] -> num_text n.
  Proof.
    destruct n as [|c n]; [congruence|]. cbn. intros H _. apply andb_prop in H as [A B]. split; auto.
    clear A. induction n as [|d n IH]; auto. cbn in *. apply andb_prop in B as [B1 B2]. rewrite B1. auto.
  Qed.

  Lemma pow_val s x n : atom_val s x -> forallb is_digit n = true -> n <> [] ->
    unary_val (s ++ L "**" ++ n) (x ^ Z.to_nat (int_of n)).
  Proof.
    intros (S & ts & e & A & B & C) D N. split; [now apply starts_ok_app|].
    exists (ts ++ [TPow; TNum n]), (EPow e n). split.
    - apply lexes_pow; auto. apply lexes_num. now apply digits_num.
    - split; [now constructor|]. cbn. now rewrite C.
  Qed.

  Lemma neg_prod_aux ts e : g_prod ts e -> exists e', g_prod (TMinus :: ts) e' /\
    forall x, eval v e = Ok x -> eval v e' = Ok (- x).
  Proof.
    induction 1 as [ts e H|ts1 ts2 e1 e2 H1 IH H2].
    - exists (ENeg e). split; [apply gp_one; now constructor|]. intros x E. cbn. now rewrite E.
    - destruct IH as (e' & G & V). exists (EMul e' e2). split.
      + change (TMinus :: ts1 ++ TStar :: ts2) with ((TMinus :: ts1) ++ TStar :: ts2). now constructor.
      + intros x. cbn. destruct (eval v e1) as [y|] eqn:E1; cbn; [|discriminate].
        rewrite (V y eq_refl). cbn. destruct (eval v e2) as [z|]; cbn; [|discriminate].
        intro H. injection H as <-. f_equal. ring.
  Qed.

  Lemma neg_val s x : prod_val s x -> prod_val (L "-" ++ s) (- x).
  Proof.
    intros (S & ts & e & A & B & C). split; [discriminate|].
    destruct (neg_prod_aux ts e B) as (e' & G & V). exists (TMinus :: ts), e'. split; auto.
    apply (lexes_pre "-" [TMinus] s ts); auto.
  Qed.

  Lemma mul_prod_aux ts1 e1 ts2 e2 : g_prod ts1 e1 -> g_prod ts2 e2 ->
    exists e, g_prod (ts1 ++ TStar :: ts2) e /\
      forall x y, eval v e1 = Ok x -> eval v e2 = Ok y -> eval v e = Ok (x * y).
  Proof.
    intros G1 G2. induction G2 as [ts e H|ta tb ea eb Ha IH Hb].
    - exists (EMul e1 e). split; [now constructor|]. intros x y E1 E2. cbn. now rewrite E1, E2.
    - destruct IH as (e & G & V). exists (EMul e eb). split.
      + change (ts1 ++ TStar :: ta ++ TStar :: tb) with (ts1 ++ (TStar :: ta) ++ TStar :: tb).
        rewrite app_assoc. now constructor.
      + intros x y E1. cbn. destruct (eval v ea) as [a|] eqn:Ea; cbn; [|discriminate].
        destruct (eval v eb) as [b|] eqn:Eb; cbn; [|discriminate]. intro H. injection H as <-.
        rewrite (V x a E1 eq_refl). cbn. f_equal. ring.
  Qed.

  Lemma mul_val a x b y : prod_val a x -> prod_val b y -> prod_val (a ++ L "*" ++ b) (x * y).
  Proof.
    intros (S & ts & e & A & B & C) (S2 & ts2 & e2 & A2 & B2 & C2).
    split; [now apply starts_ok_app|].
    destruct (mul_prod_aux ts e ts2 e2 B B2) as (e' & G & V). exists (ts ++ TStar :: ts2), e'.
    split; [now apply lexes_star|]. split; auto.
  Qed.

  Lemma lexes_spaced a b ta tb c o : lexes a ta -> lexes b tb -> separates c = true ->
    lstep_start c = Some (o, LStart) -> lexes (a ++ " "%char :: c :: " "%char :: b) (ta ++ o ++ tb).
  Proof.
    intros A B C St. replace (o ++ tb) with ([] ++ (o ++ ([] ++ tb))) by reflexivity.
    apply (lexes_sep a " "); auto. apply lexes_pre; auto. apply lexes_pre; auto.
  Qed.

  Lemma add_val a x b y : sum_val a x -> prod_val b y -> sum_val (a ++ L " + " ++ b) (x + y).
  Proof.
    intros (S & ts & e & A & B & C) (S2 & ts2 & e2 & A2 & B2 & C2).
    split; [now apply starts_ok_app|]. exists (ts ++ TPlus :: ts2), (EAdd e e2). split.
    - apply (lexes_spaced a b ts ts2 "+" [TPlus]); auto.
    - split; [now constructor|]. cbn. now rewrite C, C2.
  Qed.
  Lemma sub_val a x b y : sum_val a x -> prod_val b y -> sum_val (a ++ L " - " ++ b) (x - y).
  Proof.
    intros (S & ts & e & A & B & C) (S2 & ts2 & e2 & A2 & B2 & C2).
    split; [now apply starts_ok_app|]. exists (ts ++ TMinus :: ts2), (ESub e e2). split.
    - apply (lexes_spaced a b ts ts2 "-" [TMinus]); auto.
    - split; [now constructor|]. cbn. now rewrite C, C2.
  Qed.

  Lemma par_val a x : sum_val a x -> atom_val (L "(" ++ a ++ L ")") x.
  Proof.
    intros (S & ts & e & A & B & C). split; [discriminate|].
    exists (TLpar :: ts ++ [TRpar]), e. split.
    - apply (lexes_pre "(" [TLpar]); auto.
      replace [TRpar] with ([TRpar] ++ []) by reflexivity.
      apply (lexes_sep a ")" [] ts [TRpar] []); auto. apply lexes_nil.
    - split; auto. now constructor.
  Qed.

  (** One assignment. *)
  Lemma exec_line_val target l i s x : ident target -> forallb is_digit i = true -> i <> [] ->
    sum_val s x ->
    exec_line v target l (target ++ L "[" ++ i ++ L "] = " ++ s) = assign_index l (Z.to_nat (int_of i)) x.
  Proof.
    intros I D N (S & ts & e & A & B & C). unfold exec_line.
    assert (X : lexes (target ++ L "[" ++ i ++ L "] = " ++ s) (TIdx target i :: TEq :: ts)).
    { replace (target ++ L "[" ++ i ++ L "] = " ++ s)
        with ((target ++ L "[" ++ i ++ L "]") ++ " "%char :: "="%char :: " "%char :: s)
        by (rewrite <- !app_assoc; reflexivity).
      apply (lexes_spaced _ s [TIdx target i] ts "=" [TEq]); auto. now apply lexes_idx. }
    rewrite (lexes_lex _ _ X). cbn [bind]. rewrite (parse_expr_complete ts e B). cbn [bind].
    rewrite str_eqb_refl, C. reflexivity.
  Qed.
End Values.

Lemma int_value n : num_value (dec n) = Ok (IZR (Z.of_N n)).
Proof.
  unfold num_value. rewrite split_on_none.
  - rewrite dec_digits, int_of_dec. reflexivity.
  - intro H. pose proof (dec_digits n) as D. rewrite forallb_forall in D. apply D in H. discriminate.
Qed.

Lemma dec_val v n : atom_val v (dec n) (IZR (Z.of_N n)).
Proof. apply num_val; [apply digits_num; [apply dec_digits|apply dec_nonnil]|apply int_value]. Qed.
