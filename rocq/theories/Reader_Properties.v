(** C85: the readers of rate expressions and of data files accept exactly the grammar of
    PyExpr_Spec.v and PyData_Spec.v and give it the meaning stated there. *)
From Coq Require Import String Ascii List ZArith NArith Bool Reals Lra.
Import ListNotations.
From Verif Require Import PyBase PyExpr_Model PyExpr_Spec PyExpr_Sound PyExpr_Reject PyData_Model PyData_Spec PyData_Sound PyData_Open.
Local Open Scope list_scope.

(** A text is split into words in exactly one way. *)
Theorem C85_words : forall s ts, lex s = Ok ts <-> reads ts s.
Proof. exact lex_iff. Qed.
Print Assumptions C85_words.

(** The value of a rate expression is that of Python's grammar: numbers, signs, powers, products
    and sums with their precedences. *)
Theorem C85_expressions : forall v s x, eval_text v s = Ok x <-> text_value v s x.
Proof. exact text_value_iff. Qed.
Print Assumptions C85_expressions.

(** Every list of words is an expression in at most one way. *)
Theorem C85_unambiguous : forall ts e e', g_sum ts e -> g_sum ts e' -> e = e'.
Proof. exact grammar_unique. Qed.
Print Assumptions C85_unambiguous.

(** Anything else is rejected as such, and the reader always comes to an end: words that are no expression are a
    SyntaxError (powers may also be unsupported ones), characters that are no words are one of the two. *)
Theorem C85_no_expression : forall v s ts, reads ts s -> (forall e, ~ g_sum ts e) ->
  eval_text v s = Err SyntaxError \/ eval_text v s = Err Unsupported /\ In TPow ts.
Proof. exact expr_rejects. Qed.
Print Assumptions C85_no_expression.

Theorem C85_no_words : forall v s, (forall ts, ~ reads ts s) ->
  eval_text v s = Err Unsupported \/ eval_text v s = Err SyntaxError.
Proof. exact text_rejects. Qed.
Print Assumptions C85_no_words.

(** Executing rate expressions: every line replaces one element of the list, in order. *)
Theorem C85_assignments : forall v target l s l', exec_text v target l s = Ok l' <->
  exists t, t <> [] /\ Forall (fun x => ~ In (ascii_of_nat 10) x) t /\ s = join [ascii_of_nat 10] t /\
            lines_effect v target t l l'.
Proof. exact exec_text_iff. Qed.
Print Assumptions C85_assignments.

(** An assignment outside the list raises an IndexError, and only such an assignment does. *)
Theorem C85_outside : forall l i x e, assign_index l i x = Err e <-> (length l <= i)%nat /\ e = IndexError.
Proof. exact assign_index_err. Qed.
Print Assumptions C85_outside.

(** A data file is split into words in exactly one way, with comments and blanks left out. *)
Theorem C85_file_words : forall s ts, dlex s = Ok ts <-> d_reads true ts s.
Proof. exact dlex_iff. Qed.
Print Assumptions C85_file_words.

(** The values of a data file: numbers, texts, lists and tuples of Python's grammar. *)
Theorem C85_values : forall ts v, (forall c, In (DOpen c) ts -> In c (L "[({")) ->
  (parse_val ts = Ok v <-> d_val ts v).
Proof. exact parse_val_iff. Qed.
Print Assumptions C85_values.

Theorem C85_values_unambiguous : forall ts v v', d_val ts v -> d_val ts v' -> v = v'.
Proof. exact d_val_unique. Qed.
Print Assumptions C85_values_unambiguous.

(** The statements of a data file. *)
Theorem C85_statements : forall s l, parse_prog s = Ok l <-> exists ts, d_reads true ts s /\ d_file ts l.
Proof. exact parse_prog_iff. Qed.
Print Assumptions C85_statements.

(** The names after a data file has been executed. *)
Theorem C85_files : forall s g, exec_file s = Ok g <->
  exists ts l, d_reads true ts s /\ d_file ts l /\ all_do l [] g.
Proof. exact exec_file_iff. Qed.
Print Assumptions C85_files.

(** Extending names that are not defined, or values that are not lists. *)
Theorem C85_unknown_names : forall g p q, exec_stmt g (SExtend p q) = Err NameError <->
  dget g (fst p) = None \/ (exists l, at_path g p (VList l)) /\ dget g (fst q) = None.
Proof. exact extend_unknown. Qed.
Print Assumptions C85_unknown_names.

Theorem C85_only_lists : forall g p q v, at_path g p v -> (forall l, v <> VList l) ->
  exec_stmt g (SExtend p q) = Err AttributeError.
Proof. exact extend_not_list. Qed.
Print Assumptions C85_only_lists.

(** Items of a list without a comma between them: a text after a text, which Python joins, is outside the model; after
    anything else it is rejected. *)
Theorem C85_beside : forall ts l v t rest, d_seq ts (l ++ [v]) ->
  parse_val (DOpen "[" :: ts ++ DStr t :: rest)
  = Err (match v with VStr _ => Unsupported | _ => SyntaxError end).
Proof. exact beside. Qed.
Print Assumptions C85_beside.

(** The names directly before a quote that are outside the model: at most two of these letters. *)
Theorem C85_prefixes : forall s, literal_prefix s = true <->
  (length s <= 2)%nat /\ forall c, In c s -> In c ["r"; "R"; "u"; "U"; "b"; "B"; "f"; "F"]%char.
Proof. exact literal_prefixes. Qed.
Print Assumptions C85_prefixes.

(** A wrong closing bracket, a comma without an item before it and a name after an item are rejected. *)
Theorem C85_misplaced : forall (tup : bool) ts l rest, d_seq ts l ->
  let o := if tup then "("%char else "["%char in
  (forall c, c <> (if tup then ")" else "]")%char -> parse_val (DOpen o :: ts ++ DClose c :: rest) = Err SyntaxError) /\
  parse_val (DOpen o :: ts ++ DComma :: DComma :: rest) = Err SyntaxError /\
  parse_val (DOpen o :: DComma :: rest) = Err SyntaxError /\
  (forall n, parse_val (DOpen o :: ts ++ DName n :: rest) = Err SyntaxError).
Proof. exact misplaced. Qed.
Print Assumptions C85_misplaced.

(** A text that is not closed, in the last line or before it, spoils a file that could be read so far. *)
Theorem C85_open_text : forall a g n s, exec_file (a ++ [nl]) = Ok g -> name_text n = true ->
  ~ In quote s -> ~ In "\"%char s -> exec_file (a ++ [nl] ++ n ++ L " = '" ++ s) = Err SyntaxError.
Proof. exact open_file. Qed.
Print Assumptions C85_open_text.
Example C85_open_text_example : exec_file (L "a = 1" ++ [nl]) = Ok [(L "a", OVal (VNum (L "1")))] /\ name_text (L "b") = true.
Proof. split; reflexivity. Qed.

(** A dictionary is closed by a brace. *)
Theorem C85_wrong_brace : forall d c, c <> "}"%char -> parse_dict (d_entries d ++ [DClose c]) = Err SyntaxError.
Proof. exact wrong_brace. Qed.
Print Assumptions C85_wrong_brace.

(** ** Cases *)
Definition ex_env : env :=
  {| env_key := fun n k => if str_eqb n (L "p") && str_eqb k (L "CO_g") then Ok 2%R else Err KeyError;
     env_idx := fun n i => if str_eqb n (L "kf") then (if (i =? 0)%Z then Ok 3%R else Err IndexError) else Err NameError |}.

Lemma reads_cons t ts s s' : tok_ok t -> follows t s' -> reads ts s' -> s = spell t ++ s' -> reads (t :: ts) s.
Proof. intros A B C ->. now constructor. Qed.

Example C85_ex_words : reads [TIdx (L "kf") (L "0"); TStar; TKey (L "p") (L "CO_g"); TPow; TNum (L "2")]
  (L "kf[0]*p['CO_g']**2").
Proof. apply lex_iff. reflexivity. Qed.

Example C85_ex_expression : text_value ex_env (L "kf[0]*p['CO_g']**2 - 1.5") (3 * (2 * (2 * 1)) - 3/2)%R.
Proof.
  apply text_value_iff. apply eval_text_iff.
  exists [TIdx (L "kf") (L "0"); TStar; TKey (L "p") (L "CO_g"); TPow; TNum (L "2"); TMinus; TNum (L "1.5")],
    (ESub (EMul (EIdx (L "kf") (L "0")) (EPow (EKey (L "p") (L "CO_g")) (L "2"))) (ENum (L "1.5"))).
  split; [now apply lex_iff|]. split; [now apply parse_expr_iff|].
  apply eval_iff. constructor; [constructor|].
  - now constructor.
  - change (2 * (2 * 1))%R with (2 ^ Z.to_nat (whole (L "2")))%R. constructor. now constructor.
  - constructor. right. exists (L "1"), (L "5"). repeat split.
    change (whole (L "1")) with 1%Z. cbn [L list_ascii_of_string fraction].
    change (digit_of "5") with 5%Z. lra.
Qed.

(** A minus sign binds less than a power. *)
Example C85_ex_no_expression : reads [TNum (L "1"); TNum (L "2")] (L "1 2") /\
  (forall e, ~ g_sum [TNum (L "1"); TNum (L "2")] e) /\ eval_text ex_env (L "1 2") = Err SyntaxError.
Proof.
  split; [now apply lex_iff|]. split; [|reflexivity]. intros e G. apply parse_expr_iff in G. discriminate.
Qed.

Example C85_ex_no_words : forall ts, ~ reads ts (L "kf[0] @ 2").
Proof. intros ts H. apply lex_iff in H. discriminate. Qed.

Example C85_ex_minus : text_value ex_env (L "-2**2") (-4)%R.
Proof.
  exists [TMinus; TNum (L "2"); TPow; TNum (L "2")], (ENeg (EPow (ENum (L "2")) (L "2"))).
  split; [now apply lex_iff|]. split; [now apply parse_expr_iff|].
  replace (-4)%R with (- (2 ^ Z.to_nat (whole (L "2"))))%R by (change (Z.to_nat (whole (L "2"))) with 2%nat; cbn [pow]; lra).
  apply va_neg, va_pow, va_num. left. split; reflexivity.
Qed.

Example C85_ex_assignments : exec_text ex_env (L "rates") [0%R; 0%R] (L "rates[1] = kf[0]") = Ok [0%R; 3%R].
Proof. reflexivity. Qed.

Example C85_ex_outside : assign_index [0%R] 1 2%R = Err IndexError.
Proof. reflexivity. Qed.

Definition ex_file : str := L "# types
times = [1.0,
    2.0e-3,]
kinds = ('CO', (3),)
times.extend(kinds)".

Example C85_ex_file : exec_file ex_file =
  Ok [(L "times", OVal (VList [VNum (L "1.0"); VNum (L "2.0e-3"); VStr (L "CO"); VNum (L "3")]));
      (L "kinds", OVal (VTuple [VStr (L "CO"); VNum (L "3")]))].
Proof. reflexivity. Qed.

Example C85_ex_statements : exists l, parse_prog ex_file = Ok l /\ length l = 4%nat.
Proof. eexists. split; reflexivity. Qed.

Example C85_ex_values : d_val [DOpen "("; DNum (L "3"); DClose ")"] (VNum (L "3")) /\
  d_val [DOpen "("; DNum (L "3"); DComma; DClose ")"] (VTuple [VNum (L "3")]).
Proof.
  split; [exact (dv_paren [DNum (L "3")] _ (dv_num _))|].
  exact (dv_tuple_comma [DNum (L "3")] _ (ds_one _ _ (dv_num _))).
Qed.

Example C85_ex_unknown : exec_stmt [] (SExtend (L "times", None) (L "times", None)) = Err NameError.
Proof. reflexivity. Qed.

Example C85_ex_only_lists :
  exec_stmt [(L "a", OVal (VTuple []))] (SExtend (L "a", None) (L "a", None)) = Err AttributeError.
Proof. reflexivity. Qed.

Example C85_ex_beside : d_seq [DNum (L "1"); DComma; DStr (L "a")] [VNum (L "1"); VStr (L "a")] /\
  parse_val [DOpen "["; DNum (L "1"); DComma; DStr (L "a"); DStr (L "b"); DClose "]"] = Err Unsupported /\
  parse_val [DOpen "["; DNum (L "1"); DStr (L "b"); DClose "]"] = Err SyntaxError.
Proof.
  split; [|split; reflexivity]. change [DNum (L "1"); DComma; DStr (L "a")] with ([DNum (L "1")] ++ DComma :: [DStr (L "a")]).
  apply (ds_more _ [VNum (L "1")]); repeat constructor.
Qed.
