(** Proofs about the TeX texts. *)
From Coq Require Import String Ascii List ZArith NArith Bool Arith Lia.
Import ListNotations.
From Verif Require Import PyBase PyBaseFacts Regex RegexFacts Rxn_Model Rxn_Spec Rxn_Proofs Rxn_Count Rxn_More Tex_Spec.
Local Open Scope list_scope.
Local Open Scope nat_scope.

Definition item_tex (p : ascii * str) : str :=
  fst p :: match snd p with [] => [] | n => L "_{" ++ n ++ L "}" end.

Lemma sub_texen_items s : sub_texen s = concat (map item_tex (items s)).
Proof.
  unfold sub_texen.
  transitivity (concat (map (fun q : str * str =>
      match snd q with [] => fst q | n => fst q ++ L "_{" ++ n ++ L "}" end)
    (map (fun m => (group_text m 1, group_text m 2)) (findall sp_regex s)))).
  - rewrite map_map. reflexivity.
  - rewrite findall_sp, map_map. f_equal. apply map_ext. intros [c [|d n]]; reflexivity.
Qed.

Lemma tex_nodash s : ~ In "-"%char s -> tex_species s = concat (map item_tex (items s)).
Proof.
  induction s as [|c s IH]; intros N; [reflexivity|]. cbn [tex_species items].
  pose proof (element_letter_site c) as EL. rewrite IH by (intros I; apply N; now right).
  destruct (element_letter c), (is_site_char c); try discriminate.
  - cbn [map concat item_tex fst snd]. reflexivity.
  - destruct (Ascii.eqb c "-") eqn:E; [|reflexivity]. apply Ascii.eqb_eq in E. exfalso. apply N. now left.
Qed.

Lemma leading_dash a b : leading_digits (a ++ "-"%char :: b) = leading_digits a.
Proof.
  induction a as [|c a IH]; [reflexivity|]. cbn [app leading_digits].
  destruct (is_digit c); [now rewrite IH|reflexivity].
Qed.

Lemma tex_dash a b : tex_species (a ++ "-"%char :: b) = tex_species a ++ L "-" ++ tex_species b.
Proof.
  induction a as [|c a IH]; [reflexivity|]. cbn [app tex_species]. rewrite IH, leading_dash.
  rewrite !app_assoc. reflexivity.
Qed.

Lemma split_dash s : split_on "-" s <> [] /\ (forall w, In w (split_on "-" s) -> ~ In "-"%char w) /\
  s = join (L "-") (split_on "-" s).
Proof.
  induction s as [|c s (N & W & J)]; cbn [split_on].
  - split; [discriminate|]. split; [intros w [<-|[]] []|reflexivity].
  - destruct (Ascii.eqb c "-") eqn:E.
    + apply Ascii.eqb_eq in E as ->. split; [discriminate|]. split.
      * intros w [<-|I]; [intros []|now apply W].
      * destruct (split_on "-" s) as [|w l]; [congruence|]. cbn [join app L] in *. now rewrite J at 1.
    + destruct (split_on "-" s) as [|w l]; [congruence|]. split; [discriminate|]. split.
      * intros w' [<-|I]; [|apply W; now right]. intros [->|I]; [now rewrite Ascii.eqb_refl in E|].
        apply (W w); [now left|exact I].
      * rewrite J. destruct l; reflexivity.
Qed.

Lemma tex_join l : l <> [] -> tex_species (join (L "-") l) = join (L "-") (map tex_species l).
Proof.
  induction l as [|w l IH]; intros N; [congruence|]. destruct l as [|w2 l]; [reflexivity|].
  change (join (L "-") (w :: w2 :: l)) with (w ++ "-"%char :: join (L "-") (w2 :: l)).
  rewrite tex_dash, IH by discriminate. reflexivity.
Qed.

Lemma species_tex s :
  (if has_char "-" s then join (L "-") (map sub_texen (split_on "-" s)) else sub_texen s) = tex_species s.
Proof.
  destruct (has_char "-" s) eqn:H.
  - destruct (split_dash s) as (N & W & J). rewrite J at 2. rewrite tex_join by exact N. f_equal.
    apply map_ext_in. intros w I. rewrite sub_texen_items. symmetry. apply tex_nodash. now apply W.
  - rewrite sub_texen_items. symmetry. apply tex_nodash. intros I.
    assert (T : has_char "-" s = true); [|congruence].
    apply existsb_exists. exists "-"%char. split; [exact I|reflexivity].
Qed.

Theorem formula_tex f : formula_texen f = tex_formula f.
Proof. unfold formula_texen, tex_formula. rewrite species_tex. reflexivity. Qed.

Lemma fold_join fs : forall t,
  fold_left (fun t f => t ++ L " + " ++ formula_texen f) fs t
  = t ++ concat (map (fun f => L " + " ++ tex_formula f) fs).
Proof.
  induction fs as [|f fs IH]; intros t; cbn [fold_left map concat]; [now rewrite app_nil_r|].
  rewrite IH, formula_tex, <- !app_assoc. reflexivity.
Qed.

Lemma join_concat (l : list str) x : join (L " + ") (x :: l) = x ++ concat (map (fun y => L " + " ++ y) l).
Proof.
  revert x. induction l as [|y l IH]; intros x; [now rewrite app_nil_r|].
  change (join (L " + ") (x :: y :: l)) with (x ++ L " + " ++ join (L " + ") (y :: l)).
  rewrite IH. reflexivity.
Qed.

Lemma split_nonempty c s : split_on c s <> [].
Proof. induction s as [|x s IH]; cbn; [discriminate|]. destruct (Ascii.eqb x c); [discriminate|]. destruct (split_on c s); discriminate. Qed.

Theorem state_tex st : match state_formulas st with
  | Ok fs => state_texen st = Ok (tex_state fs)
  | Err e => state_texen st = Err e
  end.
Proof.
  unfold state_texen. destruct (state_formulas st) as [fs|e] eqn:E; [|reflexivity]. cbn [bind].
  destruct fs as [|f fs].
  - exfalso. unfold state_formulas, state_split in E. apply mapM_length in E. rewrite map_length in E.
    destruct (split_on "+" st) eqn:S; [|discriminate]. now apply split_nonempty in S.
  - cbn [lfirst bind tl]. rewrite fold_join, formula_tex. unfold tex_state. cbn [map]. rewrite join_concat, map_map. reflexivity.
Qed.

Theorem rxn_tex e fls : rxn_formula_list e = Ok fls ->
  rxn_texen e =
    match fls with
    | [a; b] => Ok (tex_state a ++ L " \rightarrow " ++ tex_state b)
    | [a; b; c] => Ok (tex_state a ++ L " \leftrightarrow " ++ tex_state b ++ L " \rightarrow " ++ tex_state c)
    | _ => Err UnboundLocalError
    end.
Proof.
  unfold rxn_formula_list, rxn_texen. destruct (rxn_tolist e) as [sts|x]; [|discriminate]. cbn [bind]. intros H.
  assert (M : mapM state_texen sts = Ok (map tex_state fls)).
  { revert fls H. induction sts as [|st sts IH]; intros fls H; cbn [mapM] in H |- *.
    - injection H as <-. reflexivity.
    - pose proof (state_tex st) as S. destruct (state_formulas st) as [fs|x]; [|discriminate].
      rewrite S. cbn [bind] in H |- *. destruct (mapM state_formulas sts) as [r|x]; [|discriminate].
      cbn [bind] in H. injection H as <-. rewrite (IH r eq_refl). reflexivity. }
  rewrite M. cbn [bind]. destruct fls as [|a [|b [|c [|d l]]]]; reflexivity.
Qed.

Theorem rxn_tex_error e x : rxn_formula_list e = Err x -> rxn_texen e = Err x.
Proof.
  unfold rxn_formula_list, rxn_texen. destruct (rxn_tolist e) as [sts|y]; cbn [bind]; intros H; [|injection H as ->; reflexivity].
  assert (M : mapM state_texen sts = Err x).
  { revert H. induction sts as [|st sts IH]; intros H; cbn [mapM] in H |- *; [discriminate|].
    pose proof (state_tex st) as S. destruct (state_formulas st) as [fs|z].
    - rewrite S. cbn [bind] in H |- *. destruct (mapM state_formulas sts) as [r|z]; [discriminate|].
      rewrite (IH H). reflexivity.
    - rewrite S. cbn [bind] in *. injection H as ->. reflexivity. }
  rewrite M. reflexivity.
Qed.

(** ** Reading the text *)
Lemma plain_app a b : plain_text (a ++ b) = plain_text a ++ plain_text b.
Proof. apply filter_app. Qed.

Lemma plain_all s : forallb (fun c => negb (has_char c (L "_{}"))) s = true -> plain_text s = s.
Proof.
  induction s as [|c s IH]; intros H; [reflexivity|]. cbn [forallb] in H. apply andb_prop in H as [H1 H2].
  unfold plain_text. cbn [filter]. rewrite H1. f_equal. now apply IH.
Qed.

Lemma digit_plain c : is_digit c = true -> negb (has_char c (L "_{}")) = true.
Proof. destruct c as [[] [] [] [] [] [] [] []]; vm_compute; auto. Qed.
Lemma letter_plain c : element_letter c = true -> negb (has_char c (L "_{}")) = true.
Proof. destruct c as [[] [] [] [] [] [] [] []]; vm_compute; auto. Qed.

Lemma leading_plain s : plain_text (match leading_digits s with [] => [] | n => L "_{" ++ n ++ L "}" end) = leading_digits s.
Proof.
  assert (D : forallb (fun c => negb (has_char c (L "_{}"))) (leading_digits s) = true).
  { induction s as [|c s IH]; [reflexivity|]. cbn [leading_digits]. destruct (is_digit c) eqn:E; [|reflexivity].
    cbn [forallb]. now rewrite (digit_plain c E). }
  destruct (leading_digits s) as [|c l]; [reflexivity|]. rewrite !plain_app, (plain_all _ D).
  change (plain_text (L "_{")) with (@nil ascii). change (plain_text (L "}")) with (@nil ascii).
  now rewrite app_nil_r.
Qed.

(** [s] without the number at its beginning. *)
Fixpoint drop_digits (s : str) : str :=
  match s with [] => [] | c :: t => if is_digit c then drop_digits t else s end.
Lemma leading_drop s : s = leading_digits s ++ drop_digits s.
Proof. induction s as [|c s IH]; [reflexivity|]. cbn. destruct (is_digit c); [cbn; now rewrite <- IH|reflexivity]. Qed.

Lemma digit_letter c : is_digit c = true -> element_letter c = false.
Proof. destruct c as [[] [] [] [] [] [] [] []]; vm_compute; auto. Qed.
Lemma digit_dash c : is_digit c = true -> Ascii.eqb c "-" = false.
Proof. destruct c as [[] [] [] [] [] [] [] []]; vm_compute; auto. Qed.

Lemma plain_simple s : forall after, simple_after after s ->
  plain_text (tex_species s) = if after then drop_digits s else s.
Proof.
  induction s as [|c s IH]; intros after H; [destruct after; reflexivity|].
  cbn [tex_species simple_after] in *. rewrite plain_app.
  destruct H as [[E H]|[[-> H]|(E & A & H)]].
  - rewrite E, plain_app, leading_plain, (plain_all [c]) by (cbn [forallb]; rewrite (letter_plain c E); reflexivity).
    rewrite (IH true H), <- app_assoc. rewrite <- leading_drop.
    destruct after; [|reflexivity]. cbn [drop_digits].
    destruct (is_digit c) eqn:D; [rewrite (digit_letter c D) in E; discriminate|reflexivity].
  - rewrite (IH false H). destruct after; reflexivity.
  - rewrite (digit_letter c E), (digit_dash c E). subst after. cbn [drop_digits]. rewrite E.
    rewrite (IH true H). reflexivity.
Qed.

Theorem plain_formula f : simple_name (f_species f) -> site_name (f_site f) -> (0 <= f_stoich f)%Z ->
  plain_text (formula_texen f)
  = (if (f_stoich f =? 1)%Z then [] else str_of_Z (f_stoich f)) ++ f_species f ++ L "(" ++ f_site f ++ L ")".
Proof.
  intros S [_ T] P. rewrite formula_tex. unfold tex_formula. rewrite !plain_app, (plain_simple _ _ S).
  f_equal; [|f_equal; f_equal; f_equal].
  - destruct (_ =? 1)%Z; [reflexivity|]. apply plain_all.
    assert (F : forallb is_digit (str_of_Z (f_stoich f)) = true).
    { unfold str_of_Z. destruct (f_stoich f); try lia; apply dec_digits. }
    revert F. generalize (str_of_Z (f_stoich f)). induction s as [|c s IH]; intros F; [reflexivity|].
    cbn [forallb] in *. apply andb_prop in F as [F1 F2]. now rewrite (digit_plain c F1), IH.
  - apply plain_all. revert T. generalize (f_site f). induction s as [|c s IH]; intros F; [reflexivity|].
    cbn [forallb] in *. apply andb_prop in F as [F1 F2]. now rewrite (letter_plain c F1), IH.
Qed.

Lemma plain_visible s : forall after,
  visible_after after s = (if after then leading_digits s else []) ++ plain_text (tex_species s).
Proof.
  induction s as [|c s IH]; intros after; [destruct after; reflexivity|].
  cbn [tex_species visible_after leading_digits]. rewrite plain_app.
  destruct (element_letter c) eqn:E.
  - rewrite plain_app, leading_plain, (plain_all [c]) by (cbn [forallb]; rewrite (letter_plain c E); reflexivity).
    rewrite (IH true). destruct (is_digit c) eqn:D; [rewrite (digit_letter c D) in E; discriminate|].
    destruct after; cbn [app]; now rewrite <- ?app_assoc.
  - destruct (Ascii.eqb c "-") eqn:H.
    + apply Ascii.eqb_eq in H. subst c. rewrite (IH false). destruct after; reflexivity.
    + cbn [app]. change (plain_text []) with (@nil ascii). cbn [app]. destruct (is_digit c) eqn:D; destruct after; cbn [andb app].
      * now rewrite (IH true).
      * now rewrite (IH false).
      * now rewrite (IH false).
      * now rewrite (IH false).
Qed.

Lemma visible_length s : forall after, (length (visible_after after s) <= length s)%nat.
Proof.
  induction s as [|c s IH]; intros after; cbn [visible_after length]; [auto|].
  destruct (element_letter c); [|destruct (Ascii.eqb c "-"); [|destruct (is_digit c && after)]]; cbn [length];
    try (pose proof (IH true); pose proof (IH false); lia).
Qed.

Lemma visible_simple s : forall after, visible_after after s = s <-> simple_after after s.
Proof.
  induction s as [|c s IH]; intros after; cbn [visible_after simple_after]; [tauto|].
  destruct (element_letter c) eqn:E.
  - rewrite <- IH. split.
    + intro H. injection H as H. left. auto.
    + intros [[_ H]|[[-> _]|(D & _)]]; [now rewrite H|discriminate|].
      rewrite (digit_letter c D) in E. discriminate.
  - destruct (Ascii.eqb_spec c "-") as [->|N].
    + rewrite <- !IH. split.
      * intro H. injection H as H. right. left. auto.
      * intros [[H _]|[[_ H]|(D & _)]]; [discriminate|now rewrite H|discriminate].
    + destruct (is_digit c) eqn:D; [destruct after|]; cbn [andb].
      * rewrite <- !IH. split.
        -- intro H. injection H as H. right. right. auto.
        -- intros [[H _]|[[H _]|(_ & _ & H)]]; [discriminate|contradiction|now rewrite H].
      * split.
        -- intro H. exfalso. pose proof (visible_length s false). apply (f_equal (@length _)) in H. cbn [length] in H. lia.
        -- intros [[H _]|[[H _]|(_ & H & _)]]; [discriminate|contradiction|discriminate].
      * split.
        -- intro H. exfalso. pose proof (visible_length s false). apply (f_equal (@length _)) in H. cbn [length] in H. lia.
        -- intros [[H _]|[[H _]|(H & _)]]; [discriminate|contradiction|discriminate].
Qed.

Lemma plain_number_site f : site_name (f_site f) -> (0 <= f_stoich f)%Z ->
  plain_text (formula_texen f)
  = (if (f_stoich f =? 1)%Z then [] else str_of_Z (f_stoich f)) ++ visible (f_species f) ++ L "(" ++ f_site f ++ L ")".
Proof.
  intros [_ T] P. rewrite formula_tex. unfold tex_formula. rewrite !plain_app.
  unfold visible. rewrite (plain_visible (f_species f) false). cbn [app].
  f_equal; [|f_equal; f_equal; f_equal].
  - destruct (_ =? 1)%Z; [reflexivity|]. apply plain_all.
    assert (F : forallb is_digit (str_of_Z (f_stoich f)) = true).
    { unfold str_of_Z. destruct (f_stoich f); try lia; apply dec_digits. }
    revert F. generalize (str_of_Z (f_stoich f)). induction s as [|c s IH]; intros F; [reflexivity|].
    cbn [forallb] in *. apply andb_prop in F as [F1 F2]. now rewrite (digit_plain c F1), IH.
  - apply plain_all. revert T. generalize (f_site f). induction s as [|c s IH]; intros F; [reflexivity|].
    cbn [forallb] in *. apply andb_prop in F as [F1 F2]. now rewrite (letter_plain c F1), IH.
Qed.

Theorem readable f : site_name (f_site f) -> (0 <= f_stoich f)%Z ->
  plain_text (formula_texen f)
  = (if (f_stoich f =? 1)%Z then [] else str_of_Z (f_stoich f)) ++ visible (f_species f) ++ L "(" ++ f_site f ++ L ")" /\
  (visible (f_species f) = f_species f <-> simple_name (f_species f)).
Proof. intros S P. split; [now apply plain_number_site|apply visible_simple]. Qed.
