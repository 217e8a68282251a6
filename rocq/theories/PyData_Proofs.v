(** Facts about the reader of data files. *)
From Coq Require Import String Ascii List ZArith NArith Bool Arith Lia.
Import ListNotations.
From Verif Require Import PyBase PyBaseFacts PyData_Model PyData_Spec.
Local Open Scope list_scope.
Local Open Scope nat_scope.

(** ** Induction on values *)
Section ValInd.
  Variable P : val -> Prop.
  Hypothesis Hn : forall s, P (VNum s).
  Hypothesis Hs : forall s, P (VStr s).
  Hypothesis Hl : forall l, Forall P l -> P (VList l).
  Hypothesis Ht : forall l, Forall P l -> P (VTuple l).
  Fixpoint val_rec2 (v : val) : P v :=
    let fix go l : Forall P l :=
      match l with [] => Forall_nil P | x :: t => Forall_cons x (val_rec2 x) (go t) end in
    match v with
    | VNum s => Hn s
    | VStr s => Hs s
    | VList l => Hl l (go l)
    | VTuple l => Ht l (go l)
    end.
End ValInd.

Lemma writable_list l : writable (VList l) <-> Forall writable l.
Proof.
  induction l as [|x l IH]; [split; [constructor|exact (fun _ => I)]|]. split.
  - intros [Hx Hl]. constructor; [exact Hx|]. apply IH. exact Hl.
  - intro H. inversion H; subst. split; [assumption|]. apply IH. assumption.
Qed.

Lemma writable_tuple l : writable (VTuple l) <-> Forall writable l.
Proof. exact (writable_list l). Qed.

Lemma repr_list l : repr_val (VList l) =
  do ts <- mapM repr_val l; Ok (L "[" ++ join (L ", ") ts ++ L "]").
Proof.
  cbn [repr_val]. f_equal. induction l as [|x l IH]; [reflexivity|].
  cbn [mapM]. rewrite <- IH. reflexivity.
Qed.

Lemma repr_tuple l : repr_val (VTuple l) =
  do ts <- mapM repr_val l;
  match ts with
  | [x] => Ok (L "(" ++ x ++ L ",)")
  | _ => Ok (L "(" ++ join (L ", ") ts ++ L ")")
  end.
Proof.
  cbn [repr_val]. f_equal. induction l as [|x l IH]; [reflexivity|].
  cbn [mapM]. rewrite <- IH. reflexivity.
Qed.

Lemma writable_repr v : writable v -> exists s, repr_val v = Ok s.
Proof.
  induction v as [s|s|l IH|l IH] using val_rec2; intro W.
  - eexists; reflexivity.
  - cbn in *. rewrite W. eexists; reflexivity.
  - apply writable_list in W. rewrite repr_list.
    assert (exists ts, mapM repr_val l = Ok ts) as [ts ->].
    { induction l as [|x l IHl]; [eexists; reflexivity|].
      inversion IH; inversion W; subst. destruct H1 as [s Es]; [assumption|].
      destruct IHl as [ts Et]; [assumption..|]. cbn. rewrite Es, Et. eexists; reflexivity. }
    eexists; reflexivity.
  - apply writable_tuple in W. rewrite repr_tuple.
    assert (exists ts, mapM repr_val l = Ok ts) as [ts ->].
    { induction l as [|x l IHl]; [eexists; reflexivity|].
      inversion IH; inversion W; subst. destruct H1 as [s Es]; [assumption|].
      destruct IHl as [ts Et]; [assumption..|]. cbn. rewrite Es, Et. eexists; reflexivity. }
    cbn [bind]. destruct ts as [|a [|b ts]]; eexists; reflexivity.
Qed.

(** ** Tokens of a value *)
Fixpoint sep_toks (l : list (list dtok)) : list dtok :=
  match l with
  | [] => []
  | [x] => x
  | x :: t => x ++ DComma :: sep_toks t
  end.

Fixpoint val_toks (v : val) : list dtok :=
  match v with
  | VNum s => [DNum s]
  | VStr s => [DStr s]
  | VList l => DOpen "[" :: sep_toks (map val_toks l) ++ [DClose "]"]
  | VTuple l => DOpen "(" :: sep_toks (map val_toks l) ++
                (match l with [_] => [DComma] | _ => [] end) ++ [DClose ")"]
  end.

(** ** Lexing *)
Lemma demit_nil r : demit [] r = r.
Proof. destruct r as [[ts st]|e]; reflexivity. Qed.

Lemma demit_demit a b r : demit a (demit b r) = demit (a ++ b) r.
Proof. destruct r as [[ts st]|e]; cbn; [now rewrite app_assoc|reflexivity]. Qed.

Lemma drun_app st a b : drun st (a ++ b) =
  do (ts, st') <- drun st a; demit ts (drun st' b).
Proof.
  revert st. induction a as [|c a IH]; intro st; [cbn; now rewrite demit_nil|].
  cbn [app drun]. destruct (dstep st c) as [[ts st1]|e]; [|reflexivity]. cbn [bind].
  rewrite IH. destruct (drun st1 a) as [[ts2 st2]|e]; cbn [bind demit]; [|reflexivity].
  now rewrite demit_demit.
Qed.

Definition delim (c : ascii) : bool := negb (num_cont c) && negb (Ascii.eqb c quote).

Lemma nrun_chars st s st' : nrun st s = Some st' -> forallb num_cont s = true.
Proof.
  revert st. induction s as [|c s IH]; intros st H; [reflexivity|].
  cbn [nrun] in H. cbn [forallb].
  destruct (nstep st c) as [st1|] eqn:E; [|discriminate].
  rewrite (IH _ H), andb_true_r. clear IH H.
  unfold num_cont, is_word, is_letter.
  destruct (is_digit c) eqn:D; [now rewrite orb_true_r|].
  destruct st; cbn [nstep] in E; rewrite ?D in E;
    destruct (Ascii.eqb_spec c "-"%char); try (subst; reflexivity);
    destruct (Ascii.eqb_spec c "+"%char); try (subst; reflexivity);
    destruct (Ascii.eqb_spec c "."%char); try (subst; reflexivity);
    destruct (Ascii.eqb_spec c "e"%char); try (subst; reflexivity); discriminate.
Qed.

Lemma number_first s : number_text s = true ->
  exists c t, s = c :: t /\ (is_digit c || Ascii.eqb c "-") = true /\ forallb num_cont t = true.
Proof.
  unfold number_text. destruct s as [|c t]; [discriminate|]. cbn [nrun].
  destruct (nstep NStart c) as [st|] eqn:E; [|discriminate].
  destruct (nrun st t) as [st'|] eqn:E'; [|discriminate]. intros _.
  exists c, t. split; [reflexivity|]. split; [|eapply nrun_chars; exact E'].
  cbn in E. destruct (is_digit c); [reflexivity|]. destruct (Ascii.eqb c "-"); [reflexivity|discriminate].
Qed.

Lemma drun_num acc s r : forallb num_cont s = true ->
  drun (SNum acc) (s ++ r) = drun (SNum (acc ++ s)) r.
Proof.
  revert acc. induction s as [|c s IH]; intros acc H; [now rewrite app_nil_r|].
  cbn in H. apply andb_true_iff in H as [Hc H]. cbn [app drun dstep]. rewrite Hc. cbn [bind].
  rewrite demit_nil, IH by assumption. now rewrite <- app_assoc.
Qed.

Lemma delim_num c : delim c = true -> num_cont c = false.
Proof. unfold delim. destruct (num_cont c); [discriminate|reflexivity]. Qed.
Lemma delim_quote c : delim c = true -> Ascii.eqb c quote = false.
Proof. unfold delim. rewrite andb_true_iff, !negb_true_iff. tauto. Qed.

Lemma drun_step st c t : drun st (c :: t) = do (ts, st') <- dstep st c; demit ts (drun st' t).
Proof. reflexivity. Qed.

Lemma dstart_pass c t ts : (do (ts', st') <- demit ts (dstart c); demit ts' (drun st' t)) =
  demit ts (drun SStart (c :: t)).
Proof.
  rewrite drun_step. cbn [dstep]. destruct (dstart c) as [[ts1 st1]|e]; cbn [demit bind]; [|reflexivity].
  destruct (drun st1 t) as [[a b]|e]; cbn; [now rewrite app_assoc|reflexivity].
Qed.

Lemma first_not c : (is_digit c || Ascii.eqb c "-") = true ->
  Ascii.eqb c " " = false /\ Ascii.eqb c nl = false /\ Ascii.eqb c quote = false.
Proof.
  intro H. repeat split; apply Bool.not_true_iff_false; intro E; apply Ascii.eqb_eq in E; subst c;
    vm_compute in H; discriminate.
Qed.

Lemma lex_num s c t : number_text s = true -> delim c = true ->
  drun SStart (s ++ c :: t) = demit [DNum s] (drun SStart (c :: t)).
Proof.
  intros Hs Hc. destruct (number_first s Hs) as (c0 & s0 & E & Hd & Hn).
  destruct (first_not c0 Hd) as (H1 & H2 & H3).
  rewrite E. cbn [app]. rewrite drun_step. cbn [dstep]. unfold dstart. rewrite H1, H2, Hd.
  cbn [bind]. rewrite demit_nil, drun_num by assumption. cbn [app]. rewrite <- E.
  rewrite drun_step. cbn [dstep]. rewrite (delim_num _ Hc). unfold end_num. rewrite Hs. cbn [bind].
  apply dstart_pass.
Qed.

Lemma drun_str acc s r : plain s = true -> drun (SStr acc) (s ++ r) = drun (SStr (acc ++ s)) r.
Proof.
  revert acc. induction s as [|c s IH]; intros acc H; [now rewrite app_nil_r|].
  unfold plain in *. cbn [forallb] in H. apply andb_true_iff in H as [Hc H].
  unfold plain_char in Hc. apply andb_true_iff in Hc as [Hc Hb]. apply andb_true_iff in Hc as [Hr Hq].
  apply negb_true_iff in Hb, Hq.
  assert (Hn : Ascii.eqb c nl = false).
  { apply Bool.not_true_iff_false. intro E. apply Ascii.eqb_eq in E. subst c. vm_compute in Hr. discriminate. }
  cbn [app drun dstep]. rewrite Hq, Hb, Hn. cbn [bind]. rewrite demit_nil, IH by assumption.
  now rewrite <- app_assoc.
Qed.

Lemma lex_str s c t : plain s = true -> delim c = true ->
  drun SStart (L "'" ++ s ++ L "'" ++ c :: t) = demit [DStr s] (drun SStart (c :: t)).
Proof.
  intros Hs Hc. cbn [L list_ascii_of_string app]. rewrite drun_step.
  change (dstep SStart "'") with (Ok ([] : list dtok, SStr [])). cbn [bind]. rewrite demit_nil.
  rewrite drun_str by assumption. cbn [app]. rewrite drun_step.
  change (dstep (SStr s) "'") with (Ok ([] : list dtok, SStrEnd s)). cbn [bind]. rewrite demit_nil.
  rewrite drun_step. cbn [dstep]. rewrite (delim_quote _ Hc). apply dstart_pass.
Qed.

(** One character that is a token by itself. *)
Definition single (c : ascii) (t : dtok) : Prop := dstart c = Ok ([t], SStart).
Lemma lex_single c t r : single c t -> drun SStart (c :: r) = demit [t] (drun SStart r).
Proof. intro H. rewrite drun_step. cbn [dstep]. rewrite H. reflexivity. Qed.

Lemma lex_space r : drun SStart (" "%char :: r) = drun SStart r.
Proof. rewrite drun_step. change (dstep SStart " ") with (Ok ([] : list dtok, SStart)). cbn [bind]. apply demit_nil. Qed.

(** Reading [s] after a token boundary yields the tokens [ts], up to the next delimiter. *)
Definition lexes (s : str) (ts : list dtok) : Prop :=
  forall c t, delim c = true -> drun SStart (s ++ c :: t) = demit ts (drun SStart (c :: t)).

Lemma lexes_join ts ks : Forall2 lexes ts ks -> ts <> [] ->
  lexes (join (L ", ") ts) (sep_toks ks).
Proof.
  induction 1 as [|s k ts ks Hs HF IH]; intro N; [congruence|].
  destruct HF as [|s2 k2 ts ks Hs2 HF].
  - intros c t Hc. cbn [join sep_toks]. apply Hs. exact Hc.
  - intros c t Hc. change (join (L ", ") (s :: s2 :: ts)) with (s ++ L ", " ++ join (L ", ") (s2 :: ts)).
    change (sep_toks (k :: k2 :: ks)) with (k ++ DComma :: sep_toks (k2 :: ks)).
    rewrite <- !app_assoc. cbn [L list_ascii_of_string app].
    rewrite Hs by reflexivity. rewrite (lex_single "," DComma) by reflexivity. rewrite lex_space.
    rewrite IH by (discriminate || assumption). rewrite !demit_demit. now rewrite <- app_assoc.
Qed.

Lemma mapM_Forall2 {A B} (f : A -> res B) l ts : mapM f l = Ok ts ->
  Forall2 (fun x y => f x = Ok y) l ts.
Proof.
  revert ts. induction l as [|x l IH]; intros ts H; cbn in H.
  - injection H as <-. constructor.
  - destruct (f x) as [y|] eqn:E; [|discriminate]. cbn in H.
    destruct (mapM f l) as [ys|] eqn:E'; [|discriminate]. injection H as <-.
    constructor; auto.
Qed.

Lemma lex_val v : writable v -> forall s, repr_val v = Ok s -> lexes s (val_toks v).
Proof.
  induction v as [n|n|l IH|l IH] using val_rec2; intros W s E.
  - cbn in E. injection E as <-. intros c t Hc. apply lex_num; assumption.
  - cbn in E, W. rewrite W in E. injection E as <-. intros c t Hc.
    change (("'"%char :: n ++ ["'"%char]) ++ c :: t) with (L "'" ++ (n ++ L "'") ++ c :: t).
    rewrite <- app_assoc. apply lex_str; assumption.
  - apply writable_list in W. rewrite repr_list in E.
    destruct (mapM repr_val l) as [ts|] eqn:Em; [|discriminate]. cbn [bind] in E. injection E as <-.
    pose proof (mapM_Forall2 _ _ _ Em) as F2. clear Em.
    assert (F : Forall2 lexes ts (map val_toks l)).
    { clear - F2 IH W. induction F2 as [|x y l ys Hx HF IHF]; [constructor|].
      inversion IH; inversion W; subst. cbn. constructor; auto. }
    intros c t Hc. cbn [val_toks]. change (L "[") with ["["%char]. cbn [app].
    rewrite (lex_single "[" (DOpen "[")) by reflexivity.
    rewrite <- app_assoc.
    destruct ts as [|t0 ts].
    + inversion F2; subst. cbn [join app]. rewrite (lex_single "]" (DClose "]")) by reflexivity.
      rewrite demit_demit. reflexivity.
    + change [","%char; " "%char] with (L ", "). change (["]"%char] ++ c :: t) with ("]"%char :: c :: t).
      rewrite (lexes_join _ _ F) by (discriminate || reflexivity).
      rewrite (lex_single "]" (DClose "]")) by reflexivity. rewrite !demit_demit. reflexivity.
  - apply writable_tuple in W. rewrite repr_tuple in E.
    destruct (mapM repr_val l) as [ts|] eqn:Em; [|discriminate]. cbn [bind] in E.
    pose proof (mapM_Forall2 _ _ _ Em) as F2. clear Em.
    assert (F : Forall2 lexes ts (map val_toks l)).
    { clear - F2 IH W. induction F2 as [|x y l ys Hx HF IHF]; [constructor|].
      inversion IH; inversion W; subst. cbn. constructor; auto. }
    intros c t Hc. cbn [val_toks].
    destruct ts as [|t0 [|t1 ts]].
    + injection E as <-. inversion F2; subst. cbn [join app L list_ascii_of_string map sep_toks].
      rewrite (lex_single "(" (DOpen "(")) by reflexivity.
      rewrite (lex_single ")" (DClose ")")) by reflexivity.
      rewrite demit_demit. reflexivity.
    + injection E as <-. inversion F2 as [|x ? l0 ? ? Hn]; subst. inversion Hn; subst.
      inversion F as [|? ? ? ? HL0 HN0]; subst. cbn [map sep_toks].
      cbn [app L list_ascii_of_string]. rewrite <- app_assoc. cbn [app].
      rewrite (lex_single "(" (DOpen "(")) by reflexivity.
      rewrite HL0 by reflexivity.
      rewrite (lex_single "," DComma) by reflexivity.
      rewrite (lex_single ")" (DClose ")")) by reflexivity. rewrite !demit_demit.
      cbn [app]. now rewrite <- app_assoc.
    + injection E as <-.
      assert (match l with [_] => [DComma] | _ => [] end = []) as ->.
      { inversion F2 as [|? ? ? ? ? Hn]; subst. inversion Hn; subst. reflexivity. }
      cbn [app].
      change (L "(") with ["("%char]. cbn [app].
      rewrite (lex_single "(" (DOpen "(")) by reflexivity.
      rewrite <- app_assoc. change [","%char; " "%char] with (L ", ").
      change ([")"%char] ++ c :: t) with (")"%char :: c :: t).
      rewrite (lexes_join _ _ F) by (discriminate || reflexivity).
      rewrite (lex_single ")" (DClose ")")) by reflexivity. rewrite !demit_demit.
      reflexivity.
Qed.

(** ** Logical lines *)
Definition inline (ts : list dtok) : Prop :=
  forall d acc r, group d acc (ts ++ r) = group d (acc ++ ts) r.

Lemma inline_nil : inline [].
Proof. intros d acc r. now rewrite app_nil_r. Qed.

Lemma inline_app a b : inline a -> inline b -> inline (a ++ b).
Proof. intros Ha Hb d acc r. rewrite <- app_assoc, Ha, Hb. now rewrite app_assoc. Qed.

Lemma inline_one t : (match t with DNl | DIndent | DOpen _ | DClose _ => False | _ => True end) ->
  inline [t].
Proof. intros H d acc r. destruct t; try contradiction; reflexivity. Qed.

Lemma inline_brackets o c ts : inline ts -> inline (DOpen o :: ts ++ [DClose c]).
Proof.
  intros H d acc r. cbn [app group]. rewrite <- app_assoc, H. cbn [app group Nat.pred].
  f_equal. rewrite <- !app_assoc. cbn [app]. reflexivity.
Qed.

Lemma inline_sep ks : Forall inline ks -> inline (sep_toks ks).
Proof.
  induction 1 as [|k ks Hk HF IH]; [apply inline_nil|].
  destruct HF as [|k2 ks Hk2 HF]; [exact Hk|].
  change (sep_toks (k :: k2 :: ks)) with (k ++ [DComma] ++ sep_toks (k2 :: ks)).
  apply inline_app; [exact Hk|]. apply inline_app; [apply inline_one; exact I|exact IH].
Qed.

Lemma inline_val v : inline (val_toks v).
Proof.
  induction v as [n|n|l IH|l IH] using val_rec2.
  - apply inline_one. exact I.
  - apply inline_one. exact I.
  - cbn [val_toks]. apply inline_brackets, inline_sep. clear - IH. induction IH; constructor; auto.
  - cbn [val_toks]. rewrite app_assoc. apply inline_brackets. apply inline_app.
    + apply inline_sep. clear - IH. induction IH; constructor; auto.
    + destruct l as [|x [|y l]]; try apply inline_nil. apply inline_one. exact I.
Qed.

(** ** Parsing *)
Definition open_for_item (fs : list frame) : Prop :=
  match fs with [] => True | f :: _ => f_item f = false end.

Definition item_frame (f : frame) (vs : list val) : frame :=
  {| f_tuple := f_tuple f; f_items := f_items f ++ vs; f_item := true;
     f_comma := f_comma f || (1 <? length vs) |}.

Lemma prun_app st a b : prun st (a ++ b) = do st' <- prun st a; prun st' b.
Proof.
  revert st. induction a as [|t a IH]; intro st; [reflexivity|].
  cbn [app prun]. destruct (pstep st t) as [st'|]; [apply IH|reflexivity].
Qed.

Lemma feed_open v fs : open_for_item fs -> exists st, feed v fs = Ok st.
Proof. destruct fs as [|f r]; intro H; cbn in *; [|rewrite H]; eexists; reflexivity. Qed.

Definition parses (v : val) : Prop :=
  forall fs, open_for_item fs -> prun (PPart fs) (val_toks v) = feed v fs.

Lemma prun_items l f r : Forall parses l -> l <> [] -> f_item f = false ->
  prun (PPart (f :: r)) (sep_toks (map val_toks l)) = Ok (PPart (item_frame f l :: r)).
Proof.
  intros HF. revert f. induction HF as [|v l Hv HF IH]; intros f N Hf; [congruence|].
  destruct HF as [|v2 l Hv2 HF].
  - cbn [map sep_toks]. rewrite Hv by exact Hf. cbn [feed]. rewrite Hf. unfold item_frame. cbn.
    now rewrite orb_false_r.
  - change (sep_toks (map val_toks (v :: v2 :: l)))
      with (val_toks v ++ DComma :: sep_toks (map val_toks (v2 :: l))).
    rewrite prun_app, Hv by exact Hf. cbn [feed]. rewrite Hf. cbn [bind].
    cbn [prun pstep f_item bind f_tuple f_items f_comma].
    rewrite IH by (discriminate || reflexivity).
    unfold item_frame. cbn [f_tuple f_items f_comma length]. rewrite <- app_assoc. cbn [app].
    change (1 <? S (S (length l))) with true. rewrite orb_true_r. reflexivity.
Qed.

Lemma parse_ok v : parses v.
Proof.
  induction v as [n|n|l IH|l IH] using val_rec2; intros fs Hfs.
  - cbn. destruct fs as [|f r]; cbn in *; [reflexivity|]. rewrite Hfs. reflexivity.
  - cbn. destruct fs as [|f r]; cbn in *; [reflexivity|]. rewrite Hfs. reflexivity.
  - cbn [val_toks prun].
    set (f0 := {| f_tuple := false; f_items := []; f_item := false; f_comma := false |}).
    assert (pstep (PPart fs) (DOpen "[") = Ok (PPart (f0 :: fs))) as ->.
    { destruct fs as [|f r]; cbn in *; [reflexivity|]. rewrite Hfs. reflexivity. }
    cbn [bind]. rewrite prun_app.
    destruct (feed_open (VList l) fs Hfs) as [st Est].
    destruct l as [|v l].
    + cbn. rewrite Est. reflexivity.
    + rewrite prun_items by (assumption || discriminate || reflexivity).
      unfold item_frame. cbn [bind prun pstep f0 f_tuple f_items app f_comma orb close_frame Ascii.eqb Bool.eqb].
      cbn. rewrite Est. reflexivity.
  - cbn [val_toks prun].
    set (f0 := {| f_tuple := true; f_items := []; f_item := false; f_comma := false |}).
    assert (pstep (PPart fs) (DOpen "(") = Ok (PPart (f0 :: fs))) as ->.
    { destruct fs as [|f r]; cbn in *; [reflexivity|]. rewrite Hfs. reflexivity. }
    cbn [bind]. rewrite prun_app.
    destruct (feed_open (VTuple l) fs Hfs) as [st Est].
    destruct l as [|v [|v2 l]].
    + cbn. rewrite Est. reflexivity.
    + rewrite prun_items by (assumption || discriminate || reflexivity).
      cbn. rewrite Est. reflexivity.
    + rewrite prun_items by (assumption || discriminate || reflexivity).
      cbn. rewrite Est. reflexivity.
Qed.

(** ** Pieces of a file *)
(** [text], put at the beginning of a line, ends at the beginning of a line and is the
    statements [ss]. *)
Definition piece (text : str) (ss : list stmt) : Prop :=
  exists ts lines,
    drun SBol text = Ok (ts, SBol) /\
    (forall r, group 0 [] (ts ++ r) = lines ++ group 0 [] r) /\
    mapM parse_line lines = Ok ss.

Lemma piece_nil : piece [] [].
Proof. exists [], []. repeat split. Qed.

Lemma piece_app a b sa sb : piece a sa -> piece b sb -> piece (a ++ b) (sa ++ sb).
Proof.
  intros (ta & la & A1 & A2 & A3) (tb & lb & B1 & B2 & B3).
  exists (ta ++ tb), (la ++ lb). split; [|split].
  - rewrite drun_app, A1. cbn [bind]. rewrite B1. reflexivity.
  - intro r. rewrite <- app_assoc, A2, B2. now rewrite app_assoc.
  - rewrite mapM_app, A3, B3. reflexivity.
Qed.

Lemma exec_stmts_app g a b : exec_stmts g (a ++ b) = do g' <- exec_stmts g a; exec_stmts g' b.
Proof.
  revert g. induction a as [|s a IH]; intro g; [reflexivity|].
  cbn [app exec_stmts]. destruct (exec_stmt g s); [apply IH|reflexivity].
Qed.

Lemma piece_parse text ss : piece text ss -> parse_prog text = Ok (ss ++ [SPass]).
Proof.
  intros (ts & lines & H1 & H2 & H3). unfold parse_prog, dlex. rewrite H1. cbn [bind dflush].
  specialize (H2 []). rewrite app_nil_r in *. rewrite H2.
  rewrite mapM_app, H3. reflexivity.
Qed.

Lemma piece_exec text ss : piece text ss -> exec_file text = exec_stmts [] ss.
Proof.
  intro H. unfold exec_file. rewrite (piece_parse _ _ H). cbn [bind].
  rewrite exec_stmts_app. destruct (exec_stmts [] ss); reflexivity.
Qed.

Lemma piece_blank : piece [nl] [SPass].
Proof. exists [DNl], [[]]. repeat split. Qed.

(** A comment line. *)
Lemma drun_comment s r : ~ In nl s -> drun SComment (s ++ r) = drun SComment r.
Proof.
  induction s as [|c s IH]; intro H; [reflexivity|].
  cbn [app drun dstep]. destruct (Ascii.eqb_spec c nl) as [->|_]; [exfalso; apply H; left; reflexivity|].
  cbn [bind]. rewrite demit_nil. apply IH. intro. apply H. right. assumption.
Qed.

Lemma piece_comment s : ~ In nl s -> piece (("#"%char :: s) ++ [nl]) [SPass].
Proof.
  intro H. exists [DNl], [[]]. split; [|split; [reflexivity|reflexivity]].
  cbn [app]. change (drun SBol ("#"%char :: s ++ [nl])) with (demit [] (drun SComment (s ++ [nl]))).
  rewrite demit_nil, drun_comment by assumption. reflexivity.
Qed.

(** Names. *)
Lemma drun_name acc s r : forallb is_word s = true ->
  drun (SName acc) (s ++ r) = drun (SName (acc ++ s)) r.
Proof.
  revert acc. induction s as [|c s IH]; intros acc H; [now rewrite app_nil_r|].
  cbn in H. apply andb_true_iff in H as [Hc H]. cbn [app drun dstep]. rewrite Hc. cbn [bind].
  rewrite demit_nil, IH by assumption. now rewrite <- app_assoc.
Qed.

Lemma letter_not c : (is_letter c || Ascii.eqb c "_") = true ->
  Ascii.eqb c " " = false /\ Ascii.eqb c nl = false /\ (is_digit c || Ascii.eqb c "-") = false.
Proof.
  intro H. repeat split.
  - apply Bool.not_true_iff_false; intro E; apply Ascii.eqb_eq in E; subst c; vm_compute in H; discriminate.
  - apply Bool.not_true_iff_false; intro E; apply Ascii.eqb_eq in E; subst c; vm_compute in H; discriminate.
  - apply orb_false_iff. split.
    + apply Bool.not_true_iff_false. intro D. destruct c as [[] [] [] [] [] [] [] []]; vm_compute in H, D; discriminate.
    + apply Bool.not_true_iff_false; intro E; apply Ascii.eqb_eq in E; subst c; vm_compute in H; discriminate.
Qed.

Lemma lex_name_from st s c t : (st = SBol \/ st = SStart) -> name_text s = true -> delim c = true ->
  drun st (s ++ c :: t) = demit [DName s] (drun SStart (c :: t)).
Proof.
  intros Hst Hs Hc. unfold name_text in Hs. apply andb_true_iff in Hs as [Hs Hk].
  apply negb_true_iff in Hk. destruct s as [|c0 s]; [discriminate|].
  apply andb_true_iff in Hs as [H0 Hw]. destruct (letter_not c0 H0) as (N1 & N2 & N3).
  cbn [app]. rewrite drun_step.
  assert (dstep st c0 = Ok ([], SName [c0])) as ->.
  { destruct Hst as [-> | ->]; cbn [dstep]; rewrite ?N1; unfold dstart; rewrite N1, N2, N3, H0; reflexivity. }
  cbn [bind]. rewrite demit_nil, drun_name by assumption. cbn [app]. rewrite drun_step. cbn [dstep].
  pose proof (delim_num _ Hc) as Hn. unfold num_cont in Hn.
  assert (is_word c = false) as ->.
  { destruct (is_word c); [discriminate|reflexivity]. }
  rewrite (delim_quote _ Hc). cbn [andb]. unfold end_name. rewrite Hk. cbn [bind]. apply dstart_pass.
Qed.
