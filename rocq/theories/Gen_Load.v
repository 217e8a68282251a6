(** Energy files that are missing, of the other kind, or damaged. *)
From Coq Require Import String Ascii List ZArith Bool Arith Reals.
Import ListNotations.
From Verif Require Import PyBase PyBaseFacts PyData_Model PyData_Spec Rxn_Model Species_Model
  KPlug_Text PyReal Energy_Model Gen_Model Gen_Spec Gen_Proofs.
Local Open Scope list_scope.
Local Open Scope nat_scope.
Local Notation number_text := PyData_Model.number_text.

(** A line with a name only. *)
Lemma name_piece n : name_text n = true -> gpiece (n ++ [nl]) [GName n].
Proof.
  intro Hn. apply gline_piece with [DName n].
  - intro r. rewrite (lex_name_to SBol) by (auto || reflexivity). reflexivity.
  - repeat constructor.
  - reflexivity.
Qed.

Definition second_line (a b : str) : str := a ++ [nl] ++ b.

Lemma second_line_exec a b ga dg :
  ~ In nl a -> name_text b = true -> b <> L "Ga" -> b <> L "dG" ->
  number_text ga = true -> number_text dg = true ->
  gexec_file (filled_relative [(second_line a b, (ga, dg))]) = Err NameError.
Proof.
  intros Ha Hb N1 N2 Hga Hdg.
  pose proof (gpiece_app _ _ _ _ relative_head (gpiece_app _ _ _ _ (gpiece_comment a Ha)
    (gpiece_app _ _ _ _ (name_piece b Hb)
      (gpiece_app _ _ _ _ (append_piece (L "Ga") ga eq_refl Hga)
        (gpiece_app _ _ _ _ (append_piece (L "dG") dg eq_refl Hdg) gpiece_blank))))) as P.
  match type of P with gpiece ?X ?S => replace (filled_relative [(second_line a b, (ga, dg))]) with X end.
  2: { unfold filled_relative, second_line. cbn [map concat fst snd]. rewrite <- !app_assoc. reflexivity. }
  rewrite (gpiece_exec _ _ P). cbn [app gexec_stmts gexec_stmt exec_stmt gpass bind].
  unfold gpass. cbn [gexec_stmt exec_stmt bind]. rewrite !dget_dset.
  destruct (str_eqb b (L "dG")) eqn:X; [apply str_eqb_eq in X; contradiction|].
  destruct (str_eqb b (L "Ga")) eqn:Y; [apply str_eqb_eq in Y; contradiction|]. reflexivity.
Qed.

Lemma misspelled_exec n x :
  name_text n = true -> number_text x = true -> n <> L "Ga" -> n <> L "dG" ->
  gexec_file (filled_relative [] ++ n ++ L ".append(" ++ x ++ L ")" ++ [nl]) = Err NameError.
Proof.
  intros Hn Hx N1 N2.
  pose proof (gpiece_app _ _ _ _ relative_head (append_piece n x Hn Hx)) as P.
  match type of P with gpiece ?X ?S => 
    replace (filled_relative [] ++ n ++ L ".append(" ++ x ++ L ")" ++ [nl]) with X end.
  2: { unfold filled_relative. cbn [map concat]. rewrite app_nil_r. reflexivity. }
  rewrite (gpiece_exec _ _ P). cbn [app gexec_stmts gexec_stmt exec_stmt bind].
  unfold gpass. cbn [gexec_stmt exec_stmt bind]. rewrite !dget_dset.
  destruct (str_eqb n (L "dG")) eqn:X; [apply str_eqb_eq in X; contradiction|].
  destruct (str_eqb n (L "Ga")) eqn:Y; [apply str_eqb_eq in Y; contradiction|]. reflexivity.
Qed.
