(** The parser and the lexer of PyExpr_Model.v accept exactly the grammar of PyExpr_Spec.v. *)
From Coq Require Import String Ascii List ZArith NArith Bool Arith Lia Reals Lra.
Import ListNotations.
From Verif Require Import PyBase PyBaseFacts PyExpr_Model PyExpr_Proofs.
Local Open Scope list_scope.
Local Open Scope nat_scope.

Lemma bind_ok {A B} (r : res A) (k : A -> res B) x :
  (do y <- r; k y) = Ok x -> exists y, r = Ok y /\ k y = Ok x.
Proof. destruct r; [|discriminate]. cbn. eauto. Qed.

(** ** The parser *)
Lemma parse_sound f :
  (forall ts e r, p_sum f ts = Ok (e, r) -> exists a, ts = a ++ r /\ g_sum a e) /\
  (forall a0 e0 ts e r, g_sum a0 e0 -> p_sum_rest f e0 ts = Ok (e, r) ->
     exists a, ts = a ++ r /\ g_sum (a0 ++ a) e) /\
  (forall ts e r, p_prod f ts = Ok (e, r) -> exists a, ts = a ++ r /\ g_prod a e) /\
  (forall a0 e0 ts e r, g_prod a0 e0 -> p_prod_rest f e0 ts = Ok (e, r) ->
     exists a, ts = a ++ r /\ g_prod (a0 ++ a) e) /\
  (forall ts e r, p_unary f ts = Ok (e, r) -> exists a, ts = a ++ r /\ g_unary a e) /\
  (forall ts e r, p_atom f ts = Ok (e, r) -> exists a, ts = a ++ r /\ g_atom a e).
Proof.
  induction f as [|f (IS & ISR & IP & IPR & IU & IA)].
  { repeat split; intros; discriminate. }
  split; [|split; [|split; [|split; [|split]]]].
  - intros ts e r H. cbn [p_sum] in H. apply bind_ok in H as ([e1 r1] & H1 & H).
    destruct (IP _ _ _ H1) as (a & -> & G). destruct (ISR a e1 r1 e r (gs_one _ _ G) H) as (b & -> & G').
    exists (a ++ b). split; [apply app_assoc|exact G'].
  - intros a0 e0 ts e r G H. cbn [p_sum_rest] in H.
    assert (STOP : Ok (e0, ts) = Ok (e, r) -> exists a, ts = a ++ r /\ g_sum (a0 ++ a) e).
    { intros X. injection X as <- <-. exists []. rewrite app_nil_r. auto. }
    destruct ts as [|[] t]; try exact (STOP H).
    + apply bind_ok in H as ([e2 r2] & H2 & H). destruct (IP _ _ _ H2) as (b & -> & G2).
      destruct (ISR _ _ _ _ _ (gs_add _ _ _ _ G G2) H) as (d & -> & G').
      exists (TPlus :: b ++ d). cbn [app]. rewrite app_assoc. split; [reflexivity|].
      rewrite <- app_assoc in G'. exact G'.
    + apply bind_ok in H as ([e2 r2] & H2 & H). destruct (IP _ _ _ H2) as (b & -> & G2).
      destruct (ISR _ _ _ _ _ (gs_sub _ _ _ _ G G2) H) as (d & -> & G').
      exists (TMinus :: b ++ d). cbn [app]. rewrite app_assoc. split; [reflexivity|].
      rewrite <- app_assoc in G'. exact G'.
  - intros ts e r H. cbn [p_prod] in H. apply bind_ok in H as ([e1 r1] & H1 & H).
    destruct (IU _ _ _ H1) as (a & -> & G). destruct (IPR a e1 r1 e r (gp_one _ _ G) H) as (b & -> & G').
    exists (a ++ b). split; [apply app_assoc|exact G'].
  - intros a0 e0 ts e r G H. cbn [p_prod_rest] in H.
    assert (STOP : Ok (e0, ts) = Ok (e, r) -> exists a, ts = a ++ r /\ g_prod (a0 ++ a) e).
    { intros X. injection X as <- <-. exists []. rewrite app_nil_r. auto. }
    destruct ts as [|[] t]; try exact (STOP H).
    apply bind_ok in H as ([e2 r2] & H2 & H). destruct (IU _ _ _ H2) as (b & -> & G2).
    destruct (IPR _ _ _ _ _ (gp_mul _ _ _ _ G G2) H) as (d & -> & G').
    exists (TStar :: b ++ d). cbn [app]. rewrite app_assoc. split; [reflexivity|].
    rewrite <- app_assoc in G'. exact G'.
  - intros ts e r H. cbn [p_unary] in H.
    assert (AT : (do (e, r) <- p_atom f ts;
                  match r with
                  | TPow :: TNum n :: r' => if forallb is_digit n then Ok (EPow e n, r') else Err Unsupported
                  | TPow :: _ => Err Unsupported
                  | _ => Ok (e, r)
                  end) = Ok (e, r) -> exists a, ts = a ++ r /\ g_unary a e).
    { intros X. apply bind_ok in X as ([e1 r1] & H1 & X). destruct (IA _ _ _ H1) as (a & -> & G).
      destruct r1 as [|[] r1]; try (injection X as <- <-; exists a; split; [reflexivity|now apply gu_atom]).
      destruct r1 as [|[] r1]; try discriminate X. destruct (forallb is_digit s) eqn:D; [|discriminate X].
      injection X as <- <-. exists (a ++ [TPow; TNum s]). split; [now rewrite <- app_assoc|].
      now apply gu_pow. }
    destruct ts as [|[] t]; try exact (AT H).
    apply bind_ok in H as ([e1 r1] & H1 & H). injection H as <- <-. destruct (IU _ _ _ H1) as (a & -> & G).
    exists (TMinus :: a). split; [reflexivity|now apply gu_neg].
  - intros ts e r H. cbn [p_atom] in H. destruct ts as [|[] t]; try discriminate H.
    + injection H as <- <-. exists [TNum s]. split; [reflexivity|constructor].
    + injection H as <- <-. exists [TKey n k]. split; [reflexivity|constructor].
    + injection H as <- <-. exists [TIdx n i]. split; [reflexivity|constructor].
    + apply bind_ok in H as ([e1 r1] & H1 & H). destruct r1 as [|[] r1]; try discriminate H.
      injection H as <- <-. destruct (IS _ _ _ H1) as (a & -> & G).
      exists (TLpar :: a ++ [TRpar]). split; [cbn; now rewrite <- app_assoc|now constructor].
Qed.

Lemma parse_expr_iff ts e : parse_expr ts = Ok e <-> g_sum ts e.
Proof.
  split; [|apply parse_expr_complete]. unfold parse_expr. intros H.
  apply bind_ok in H as ([e1 r1] & H1 & H). destruct r1; [|discriminate H]. injection H as ->.
  destruct (proj1 (parse_sound _) _ _ _ H1) as (a & -> & G). now rewrite app_nil_r.
Qed.

(** The grammar is not ambiguous. *)
Lemma grammar_unique ts e e' : g_sum ts e -> g_sum ts e' -> e = e'.
Proof. intros A B. apply parse_expr_complete in A, B. congruence. Qed.

(** ** The lexer *)
Definition pend (st : lstate) : str :=
  match st with
  | LStart => []
  | LNum acc => acc
  | LStar => L "*"
  | LName acc => acc
  | LSub n => n ++ L "["
  | LStr n acc => n ++ L "['" ++ acc
  | LStrEnd n k => n ++ L "['" ++ k ++ L "'"
  | LIdx n acc => n ++ L "[" ++ acc
  end.
Definition okst (st : lstate) : Prop :=
  match st with
  | LStart | LStar => True
  | LNum acc => tok_ok (TNum acc)
  | LName acc => name_ok acc
  | LSub n => name_ok n
  | LStr n acc => name_ok n /\ ~ In "'"%char acc /\ ~ In "\"%char acc
  | LStrEnd n k => tok_ok (TKey n k)
  | LIdx n acc => tok_ok (TIdx n acc)
  end.

Lemma start_step c o st : lstep_start c = Some (o, st) -> okst st /\
  forall t X, reads X (pend st ++ t) -> reads (o ++ X) (c :: t).
Proof.
  unfold lstep_start. intros H.
  destruct (Ascii.eqb_spec c " "); [injection H as <- <-; subst; split; [exact I|]; intros t X R; now constructor|].
  destruct (is_digit c) eqn:D.
  { injection H as <- <-. split; [|auto]. exists c, []. auto. }
  destruct (is_letter c || Ascii.eqb c "_") eqn:W.
  { injection H as <- <-. split; [|auto]. exists c, []. auto. }
  destruct (Ascii.eqb_spec c "*"); [injection H as <- <-; subst; split; [exact I|auto]|].
  destruct (Ascii.eqb_spec c "+");
    [injection H as <- <-; subst; split; [exact I|]; intros t X R; now apply (rd_tok TPlus)|].
  destruct (Ascii.eqb_spec c "-");
    [injection H as <- <-; subst; split; [exact I|]; intros t X R; now apply (rd_tok TMinus)|].
  destruct (Ascii.eqb_spec c "(");
    [injection H as <- <-; subst; split; [exact I|]; intros t X R; now apply (rd_tok TLpar)|].
  destruct (Ascii.eqb_spec c ")");
    [injection H as <- <-; subst; split; [exact I|]; intros t X R; now apply (rd_tok TRpar)|].
  destruct (Ascii.eqb_spec c "=");
    [injection H as <- <-; subst; split; [exact I|]; intros t X R; now apply (rd_tok TEq)|].
  discriminate H.
Qed.

Lemma emit_some ts r o st : emit ts r = Some (o, st) -> exists o', r = Some (o', st) /\ o = ts ++ o'.
Proof. destruct r as [[o' st']|]; [|discriminate]. cbn. intros H. injection H as <- <-. eauto. Qed.

Lemma forallb_snoc {A} (f : A -> bool) l x : forallb f (l ++ [x]) = forallb f l && f x.
Proof. rewrite forallb_app. cbn. now rewrite andb_true_r. Qed.

Lemma step_reads st c o st1 : okst st -> lstep st c = Some (o, st1) -> okst st1 /\
  forall t X, reads X (pend st1 ++ t) -> reads (o ++ X) (pend st ++ c :: t).
Proof.
  intros K H. destruct st as [|acc| |acc|n|n acc|n k|n acc]; cbn [lstep] in H.
  - now apply start_step.
  - destruct (is_digit c || Ascii.eqb c ".") eqn:D.
    { injection H as <- <-. destruct K as (d & r & -> & D1 & D2). split.
      - exists d, (r ++ [c]). split; [reflexivity|]. split; [exact D1|]. rewrite forallb_snoc, D2. exact D.
      - intros t X R. cbn [pend] in *. rewrite <- app_assoc in R. exact R. }
    destruct (is_letter c || Ascii.eqb c "_") eqn:W; [discriminate H|].
    apply emit_some in H as (o' & H & ->). destruct (start_step _ _ _ H) as [K1 S]. split; [exact K1|].
    intros t X R. cbn [app pend]. apply (rd_tok (TNum acc)); [exact K| |now apply S].
    cbn. apply orb_false_iff in D as [D1 D2]. split.
    + unfold is_word. apply orb_false_iff in W as [W1 W2]. now rewrite W1, D1, W2.
    + now apply Ascii.eqb_neq.
  - destruct (Ascii.eqb_spec c "*") as [->|N].
    { injection H as <- <-. split; [exact I|]. intros t X R. now apply (rd_tok TPow). }
    apply emit_some in H as (o' & H & ->). destruct (start_step _ _ _ H) as [K1 S]. split; [exact K1|].
    intros t X R. cbn [app pend]. apply (rd_tok TStar); [exact I|exact N|now apply S].
  - destruct (is_word c) eqn:W.
    { injection H as <- <-. destruct K as (d & r & -> & D1 & D2). split.
      - exists d, (r ++ [c]). split; [reflexivity|]. split; [exact D1|]. rewrite forallb_snoc, D2. exact W.
      - intros t X R. cbn [pend] in *. rewrite <- app_assoc in R. exact R. }
    destruct (Ascii.eqb_spec c "[") as [->|]; [|discriminate H]. injection H as <- <-. split; [exact K|].
    intros t X R. cbn [pend] in *. rewrite <- app_assoc in R. exact R.
  - destruct (Ascii.eqb_spec c "'") as [->|N].
    { injection H as <- <-. split; [cbn; auto|]. intros t X R. cbn [pend] in *.
      rewrite <- !app_assoc in *. exact R. }
    destruct (is_digit c) eqn:D; [|discriminate H]. injection H as <- <-. split.
    + split; [exact K|]. split; [discriminate|]. cbn. now rewrite D.
    + intros t X R. cbn [pend] in *. rewrite <- !app_assoc in *. exact R.
  - destruct K as (K & N1 & N2). destruct (Ascii.eqb_spec c "'") as [->|N].
    { injection H as <- <-. split; [cbn; auto|]. intros t X R. cbn [pend] in *.
      rewrite <- !app_assoc in *. exact R. }
    destruct (Ascii.eqb_spec c "\") as [->|N']; [discriminate H|]. injection H as <- <-. split.
    + cbn. rewrite !in_app_iff. cbn. firstorder.
    + intros t X R. cbn [pend] in *. rewrite <- !app_assoc in *. exact R.
  - destruct (Ascii.eqb_spec c "]") as [->|N]; [|discriminate H]. injection H as <- <-. split; [exact I|].
    intros t X R. cbn [pend] in *. change ([TKey n k] ++ X) with (TKey n k :: X).
    replace ((n ++ L "['" ++ k ++ L "'") ++ "]"%char :: t) with (spell (TKey n k) ++ t)
      by (cbn [spell]; rewrite <- !app_assoc; reflexivity).
    apply rd_tok; [exact K|exact I|exact R].
  - destruct K as (K & N1 & D0). destruct (is_digit c) eqn:D.
    { injection H as <- <-. split.
      - split; [exact K|]. split; [now destruct acc|]. now rewrite forallb_snoc, D0.
      - intros t X R. cbn [pend] in *. rewrite <- !app_assoc in *. exact R. }
    destruct (Ascii.eqb_spec c "]") as [->|N]; [|discriminate H]. injection H as <- <-. split; [exact I|].
    intros t X R. cbn [pend] in *. change ([TIdx n acc] ++ X) with (TIdx n acc :: X).
    replace ((n ++ L "[" ++ acc) ++ "]"%char :: t) with (spell (TIdx n acc) ++ t)
      by (cbn [spell]; rewrite <- !app_assoc; reflexivity).
    apply rd_tok; [cbn; auto|exact I|exact R].
Qed.

Lemma lrun_reads s : forall st o st' p, okst st -> lrun st s = Some (o, st') -> lflush st' = Some p ->
  reads (o ++ p) (pend st ++ s).
Proof.
  induction s as [|c s IH]; intros st o st' p K H F.
  - cbn in H. injection H as <- <-. rewrite app_nil_r. cbn [app].
    destruct st; try discriminate F; cbn in F; injection F as <-.
    + constructor.
    + rewrite <- (app_nil_r (pend (LNum acc))). apply (rd_tok (TNum acc)); [exact K|exact I|constructor].
    + apply (rd_tok TStar [] []); [exact I|exact I|constructor].
  - cbn [lrun] in H. destruct (lstep st c) as [[o1 st1]|] eqn:E; [|discriminate H].
    apply emit_some in H as (o2 & H & ->). destruct (step_reads _ _ _ _ K E) as [K1 S].
    rewrite <- app_assoc. apply S. now apply (IH _ _ st').
Qed.

Definition lexf (st : lstate) (s : str) : option (list tok) :=
  match lrun st s with
  | Some (ts, st') => match lflush st' with Some p => Some (ts ++ p) | None => None end
  | None => None
  end.
Lemma lexf_lex s ts : lex s = Ok ts <-> lexf LStart s = Some ts.
Proof.
  unfold lex, lexf. destruct (lrun LStart s) as [[o st]|]; [|split; discriminate].
  destruct (lflush st); split; intros H; try discriminate H; now injection H as <-.
Qed.
Definition emits (o : list tok) (r : option (list tok)) : option (list tok) :=
  match r with Some ts => Some (o ++ ts) | None => None end.
Lemma lexf_cons st c s : lexf st (c :: s) =
  match lstep st c with Some (o, st1) => emits o (lexf st1 s) | None => None end.
Proof.
  unfold lexf. cbn [lrun]. destruct (lstep st c) as [[o st1]|]; [|reflexivity].
  destruct (lrun st1 s) as [[ts st2]|]; [|reflexivity]. cbn [emit]. destruct (lflush st2); [|reflexivity].
  cbn. now rewrite app_assoc.
Qed.
Lemma lexf_run st a o st1 s : lrun st a = Some (o, st1) -> lexf st (a ++ s) = emits o (lexf st1 s).
Proof.
  intros H. unfold lexf. rewrite lrun_app, H. destruct (lrun st1 s) as [[ts st2]|]; [|reflexivity].
  cbn [emit]. destruct (lflush st2); [|reflexivity]. cbn. now rewrite app_assoc.
Qed.

Lemma emits_nil r : emits [] r = r.
Proof. now destruct r. Qed.

Lemma start_name c t : is_letter c || Ascii.eqb c "_" = true -> forallb is_word t = true ->
  lrun LStart (c :: t) = Some ([], LName (c :: t)).
Proof.
  intros H1 H2. cbn [lrun lstep]. unfold lstep_start.
  assert (X : Ascii.eqb c " " = false /\ is_digit c = false) by (revert H1; all_ascii c).
  destruct X as [-> ->]. rewrite H1, emit_nil. apply lrun_name. exact H2.
Qed.
Lemma lexf_name n s : name_ok n -> lexf LStart (n ++ s) = lexf (LName n) s.
Proof.
  intros (c & r & -> & H1 & H2). rewrite (lexf_run _ _ _ _ s (start_name c r H1 H2)). apply emits_nil.
Qed.
Lemma lexf_sub n s : lexf (LName n) ("["%char :: s) = lexf (LSub n) s.
Proof. rewrite lexf_cons. cbn. apply emits_nil. Qed.

Lemma lexf_tok t s : tok_ok t -> follows t s -> lexf LStart (spell t ++ s) = emits [t] (lexf LStart s).
Proof.
  intros K F. destruct t as [a|n k|n i| | | | | | |]; cbn [spell].
  - destruct K as (c & r & -> & D1 & D2).
    assert (R : lrun LStart (c :: r) = Some ([], LNum (c :: r))).
    { cbn [lrun lstep]. unfold lstep_start. destruct (digit_char_cases c D1) as (-> & _). rewrite D1, emit_nil.
      exact (lrun_num r [c] D2). }
    rewrite (lexf_run _ _ _ _ s R), emits_nil. destruct s as [|d s]; [reflexivity|].
    destruct F as [F1 F2]. rewrite !lexf_cons. cbn [lstep].
    unfold is_word in F1. apply orb_false_iff in F1 as [F1 F3]. apply orb_false_iff in F1 as [F1 F4].
    apply Ascii.eqb_neq in F2.
    assert (Q : is_digit d = false /\ is_letter d = false /\ Ascii.eqb d "_" = false) by auto.
    destruct Q as (-> & -> & ->). rewrite F2. cbn [orb].
    destruct (lstep_start d) as [[o st]|]; [|reflexivity]. cbn [emit emits].
    destruct (lexf st s); [|reflexivity]. cbn. reflexivity.
  - destruct K as (K & N1 & N2). rewrite <- !app_assoc.
    rewrite lexf_name by exact K. change (L "['" ++ k ++ L "']" ++ s) with ("["%char :: "'"%char :: k ++ L "']" ++ s).
    rewrite lexf_sub, lexf_cons. cbn [lstep]. rewrite Ascii.eqb_refl, emits_nil.
    assert (KC : forallb key_char k = true).
    { apply forallb_forall. intros x I. unfold key_char. apply negb_true_iff, orb_false_iff.
      split; apply Ascii.eqb_neq; intros ->; contradiction. }
    rewrite (lexf_run _ _ _ _ _ (lrun_str n k [] KC)), emits_nil.
    cbn [app L list_ascii_of_string]. rewrite lexf_cons. cbn [lstep]. rewrite Ascii.eqb_refl, emits_nil.
    rewrite lexf_cons. cbn [lstep]. now rewrite Ascii.eqb_refl.
  - destruct K as (K & N1 & D). rewrite <- !app_assoc. rewrite lexf_name by exact K.
    change (L "[" ++ i ++ L "]" ++ s) with ("["%char :: i ++ L "]" ++ s). rewrite lexf_sub.
    destruct i as [|c i]; [congruence|]. cbn in D. apply andb_prop in D as [D1 D2].
    cbn [app]. rewrite lexf_cons. cbn [lstep].
    assert (Ascii.eqb c "'" = false) as -> by (clear -D1; revert D1; all_ascii c). rewrite D1, emits_nil.
    rewrite (lexf_run _ _ _ _ _ (lrun_idx n i [c] D2)), emits_nil.
    cbn [app L list_ascii_of_string]. rewrite lexf_cons. reflexivity.
  - cbn [app L list_ascii_of_string]. now rewrite lexf_cons.
  - cbn [app L list_ascii_of_string]. now rewrite lexf_cons.
  - cbn [app L list_ascii_of_string]. rewrite lexf_cons. cbn. rewrite emits_nil.
    destruct s as [|d s]; [reflexivity|]. cbn in F. rewrite !lexf_cons. cbn [lstep].
    apply Ascii.eqb_neq in F. rewrite F. destruct (lstep_start d) as [[o st]|]; [|reflexivity].
    cbn [emit emits]. now destruct (lexf st s).
  - cbn [app L list_ascii_of_string]. rewrite lexf_cons. cbn. rewrite emits_nil. now rewrite lexf_cons.
  - cbn [app L list_ascii_of_string]. now rewrite lexf_cons.
  - cbn [app L list_ascii_of_string]. now rewrite lexf_cons.
  - cbn [app L list_ascii_of_string]. now rewrite lexf_cons.
Qed.

Lemma lex_iff s ts : lex s = Ok ts <-> reads ts s.
Proof.
  rewrite lexf_lex. split.
  - unfold lexf. destruct (lrun LStart s) as [[o st]|] eqn:E; [|discriminate].
    destruct (lflush st) as [p|] eqn:F; [|discriminate]. intros H. injection H as <-.
    exact (lrun_reads s LStart o st p I E F).
  - induction 1 as [|ts s R IH|t ts s K F R IH].
    + reflexivity.
    + rewrite lexf_cons. cbn. now rewrite emits_nil.
    + rewrite lexf_tok by assumption. now rewrite IH.
Qed.

(** ** Reading and evaluating a text *)
Lemma eval_text_iff v s x : eval_text v s = Ok x <->
  exists ts e, reads ts s /\ g_sum ts e /\ eval v e = Ok x.
Proof.
  unfold eval_text. split.
  - intros H. apply bind_ok in H as (ts & H1 & H). apply bind_ok in H as (e & H2 & H).
    exists ts, e. rewrite <- lex_iff, <- parse_expr_iff. auto.
  - intros (ts & e & H1 & H2 & H). apply lex_iff in H1. apply parse_expr_iff in H2. now rewrite H1; cbn; rewrite H2.
Qed.

(** Assignment to an element of a list. *)
Lemma assign_index_iff l : forall i x l', assign_index l i x = Ok l' <->
  i < length l /\ l' = firstn i l ++ x :: skipn (S i) l.
Proof.
  induction l as [|y t IH]; intros [|i] x l'; cbn [assign_index firstn skipn length app].
  - split; [discriminate|intros []; lia].
  - split; [discriminate|intros []; lia].
  - split; [intros H; injection H as <-; split; [lia|reflexivity]|intros [_ ->]; reflexivity].
  - split.
    + intros H. apply bind_ok in H as (t' & H & H'). injection H' as <-. apply IH in H as [H ->].
      split; [lia|reflexivity].
    + intros [H ->]. assert (E : assign_index t i x = Ok (firstn i t ++ x :: skipn (S i) t))
        by (apply IH; split; [lia|reflexivity]). now rewrite E.
Qed.
Lemma assign_index_err l : forall i x e, assign_index l i x = Err e <-> length l <= i /\ e = IndexError.
Proof.
  induction l as [|y t IH]; intros [|i] x e; cbn [assign_index length].
  - split; [intros H; injection H as <-; split; [lia|reflexivity]|intros [_ ->]; reflexivity].
  - split; [intros H; injection H as <-; split; [lia|reflexivity]|intros [_ ->]; reflexivity].
  - split; [discriminate|intros [H _]; lia].
  - split.
    + destruct (assign_index t i x) as [|e'] eqn:E; [discriminate|]. cbn. intros H. injection H as <-.
      apply IH in E as [E ->]. split; [lia|reflexivity].
    + intros [H ->]. assert (E : assign_index t i x = Err IndexError) by (apply IH; split; [lia|reflexivity]).
      now rewrite E.
Qed.

(** A line of assignments. *)
Lemma exec_line_iff v target l s l' : exec_line v target l s = Ok l' <->
  (reads [] s /\ l' = l) \/
  (exists i ts e x, reads (TIdx target i :: TEq :: ts) s /\ g_sum ts e /\ eval v e = Ok x /\
     Z.to_nat (int_of i) < length l /\
     l' = firstn (Z.to_nat (int_of i)) l ++ x :: skipn (S (Z.to_nat (int_of i))) l).
Proof.
  unfold exec_line. split.
  - intros H. apply bind_ok in H as (ts & H1 & H). apply lex_iff in H1.
    destruct ts as [|[] ts]; try discriminate H; [injection H as <-; left; auto|].
    destruct ts as [|[] ts]; try discriminate H.
    apply bind_ok in H as (e & H2 & H). apply parse_expr_iff in H2.
    destruct (str_eqb_spec n target) as [->|]; [|discriminate H].
    apply bind_ok in H as (x & H3 & H). apply assign_index_iff in H as [H ->].
    right. exists i, ts, e, x. auto.
  - intros [[H ->]|(i & ts & e & x & H1 & H2 & H3 & H4 & ->)].
    + apply lex_iff in H. now rewrite H.
    + apply lex_iff in H1. apply parse_expr_iff in H2. rewrite H1. cbn [bind]. rewrite H2. cbn [bind].
      rewrite str_eqb_refl, H3. cbn [bind]. now apply assign_index_iff.
Qed.

(** ** Values *)
Lemma digit_of_val c : digit_of c = digit_val c.
Proof. unfold digit_of, digit_val, code. unfold nat_of_ascii. now rewrite N_nat_Z. Qed.

Lemma whole_int s : whole s = int_of s.
Proof.
  induction s as [|c s IH]; [reflexivity|]. cbn [whole]. now rewrite int_of_cons, digit_of_val, IH.
Qed.

Lemma int_of_app a b : int_of (a ++ b) = (int_of a * 10 ^ Z.of_nat (length b) + int_of b)%Z.
Proof.
  induction a as [|c a IH]; [cbn; reflexivity|]. cbn [app]. rewrite !int_of_cons, IH, app_length, Nat2Z.inj_add, Z.pow_add_r by lia.
  ring.
Qed.

Lemma fraction_int b : fraction b = (IZR (int_of b) / 10 ^ length b)%R.
Proof.
  induction b as [|c b IH]; [cbn; lra|]. cbn [fraction length]. rewrite IH, int_of_cons, digit_of_val.
  rewrite plus_IZR, mult_IZR, <- pow_IZR. cbn [pow].
  assert (10 ^ length b <> 0)%R by (apply pow_nonzero; lra). field. assumption.
Qed.

Lemma num_value_iff s x : num_value s = Ok x <-> number s x.
Proof.
  unfold num_value, number. split.
  - destruct (split_on "." s) as [|a [|b [|]]] eqn:E; try discriminate.
    + destruct (forallb is_digit a) eqn:D; [|discriminate]. intro H. injection H as <-.
      left. pose proof (join_split_on "." s) as J. rewrite E in J. cbn in J. subst a.
      now rewrite whole_int.
    + destruct (forallb is_digit a) eqn:D; [|discriminate]. destruct (forallb is_digit b) eqn:F; [|discriminate].
      intro H. injection H as <-. right. exists a, b.
      pose proof (join_split_on "." s) as J. rewrite E in J. cbn in J. rewrite <- J.
      repeat split; auto. rewrite whole_int, fraction_int, int_of_app, plus_IZR, mult_IZR, <- pow_IZR.
      assert (10 ^ length b <> 0)%R by (apply pow_nonzero; lra). field. assumption.
  - assert (ND : forall a, forallb is_digit a = true -> ~ In "."%char a).
    { intros a Ha I0. rewrite forallb_forall in Ha. apply Ha in I0. discriminate I0. }
    intros [[D ->]|(a & b & -> & Da & Db & ->)].
    + rewrite split_on_none by now apply ND. now rewrite D, whole_int.
    + cbn [L list_ascii_of_string app]. rewrite split_on_app, split_on_none by now apply ND.
      rewrite Da, Db. cbn [andb]. f_equal.
      rewrite whole_int, fraction_int, int_of_app, plus_IZR, mult_IZR, <- pow_IZR.
      assert (10 ^ length b <> 0)%R by (apply pow_nonzero; lra). field. assumption.
Qed.

Lemma eval_iff v e : forall x, eval v e = Ok x <-> value v e x.
Proof.
  induction e; intro x; cbn [eval].
  - rewrite num_value_iff. split; [now constructor|now inversion 1].
  - split; [now constructor|now inversion 1].
  - rewrite <- whole_int. split; [now constructor|now inversion 1].
  - split.
    + intro H. apply bind_ok in H as (y & H1 & H). apply bind_ok in H as (z & H2 & H). injection H as <-.
      constructor; [now apply IHe1|now apply IHe2].
    + inversion 1; subst. apply IHe1 in H2. apply IHe2 in H4. now rewrite H2; cbn; rewrite H4.
  - split.
    + intro H. apply bind_ok in H as (y & H1 & H). apply bind_ok in H as (z & H2 & H). injection H as <-.
      constructor; [now apply IHe1|now apply IHe2].
    + inversion 1; subst. apply IHe1 in H2. apply IHe2 in H4. now rewrite H2; cbn; rewrite H4.
  - split.
    + intro H. apply bind_ok in H as (y & H1 & H). apply bind_ok in H as (z & H2 & H). injection H as <-.
      constructor; [now apply IHe1|now apply IHe2].
    + inversion 1; subst. apply IHe1 in H2. apply IHe2 in H4. now rewrite H2; cbn; rewrite H4.
  - split.
    + intro H. apply bind_ok in H as (y & H1 & H). injection H as <-. constructor. now apply IHe.
    + inversion 1; subst. apply IHe in H1. now rewrite H1.
  - rewrite <- whole_int. split.
    + intro H. apply bind_ok in H as (y & H1 & H). injection H as <-. constructor. now apply IHe.
    + inversion 1; subst. apply IHe in H3. now rewrite H3.
Qed.

Lemma text_value_iff v s x : eval_text v s = Ok x <-> text_value v s x.
Proof.
  rewrite eval_text_iff. unfold text_value. split; intros (ts & e & A & B & C); exists ts, e; repeat split; auto;
    now apply eval_iff.
Qed.

Lemma int_of_nonneg s : forallb is_digit s = true -> (0 <= int_of s)%Z.
Proof.
  induction s as [|c s IH]; [reflexivity|]. cbn [forallb]. intro H. apply andb_true_iff in H as [Hc H].
  rewrite int_of_cons. specialize (IH H).
  assert (0 <= digit_val c)%Z.
  { unfold is_digit, in_range in Hc. unfold digit_val. apply andb_true_iff in Hc as [Hc _]. apply N.leb_le in Hc. lia. }
  assert (0 <= 10 ^ Z.of_nat (length s))%Z by (apply Z.pow_nonneg; lia). nia.
Qed.

Lemma reads_idx_digits n i ts s : reads (TIdx n i :: ts) s -> forallb is_digit i = true.
Proof.
  remember (TIdx n i :: ts) as u eqn:E. induction 1; try discriminate; auto.
  injection E as -> ->. cbn in H. tauto.
Qed.

Lemma line_effect_iff v target s l l' : exec_line v target l s = Ok l' <-> line_effect v target s l l'.
Proof.
  rewrite exec_line_iff. split.
  - intros [[H ->]|(i & ts & e & x & H1 & H2 & H3 & H4 & ->)]; [now constructor|].
    pose proof (int_of_nonneg _ (reads_idx_digits _ _ _ _ H1)) as NN.
    destruct (nth_error l (Z.to_nat (int_of i))) as [y|] eqn:E; [|apply nth_error_None in E; lia].
    apply nth_error_split in E as (a & b & -> & La).
    rewrite <- La. rewrite firstn_app, Nat.sub_diag, firstn_all, app_nil_r.
    rewrite skipn_app, skipn_all2, Nat.sub_succ_l, Nat.sub_diag by lia. cbn [skipn app].
    apply (le_assign v target s i ts e); auto; [now apply eval_iff|]. rewrite whole_int. lia.
  - inversion 1 as [?? R|? i ts e x a y b R G V La]; subst; [left; auto|].
    right. exists i, ts, e, x. rewrite whole_int in La.
    assert (Z.to_nat (int_of i) = length a) as -> by lia.
    repeat split; auto; [now apply eval_iff|rewrite app_length; cbn; lia|].
    rewrite firstn_app, Nat.sub_diag, firstn_all, app_nil_r.
    rewrite skipn_app, skipn_all2, Nat.sub_succ_l, Nat.sub_diag by lia. reflexivity.
Qed.

Lemma lines_effect_iff v target t : forall l l', exec_lines v target l t = Ok l' <-> lines_effect v target t l l'.
Proof.
  induction t as [|s t IH]; intros l l'; cbn [exec_lines].
  - split; [intro H; injection H as <-; constructor|now inversion 1].
  - split.
    + intro H. apply bind_ok in H as (l1 & H1 & H). apply (lse_cons _ _ _ _ _ l1); [now apply line_effect_iff|now apply IH].
    + inversion 1 as [|? ? ? l1 ? A B]; subst. apply line_effect_iff in A. rewrite A. cbn. now apply IH.
Qed.

Lemma exec_text_iff v target l s l' : exec_text v target l s = Ok l' <->
  exists t, t <> [] /\ Forall (fun x => ~ In (ascii_of_nat 10) x) t /\ s = join [ascii_of_nat 10] t /\
            lines_effect v target t l l'.
Proof.
  unfold exec_text. rewrite lines_effect_iff. split.
  - intro H. exists (split_on (ascii_of_nat 10) s). repeat split; auto.
    + apply split_on_nonnil.
    + apply split_on_no_sep.
    + symmetry. apply join_split_on.
  - intros (t & N & F & -> & H). now rewrite split_on_join.
Qed.
