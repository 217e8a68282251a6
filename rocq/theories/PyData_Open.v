(** Texts that are not closed and wrong braces in data files (C85). *)
From Coq Require Import String Ascii List Arith Bool Lia.
Import ListNotations.
From Verif Require Import PyBase PyBaseFacts PyData_Model PyData_Spec PyData_Proofs PyData_Sound.
Local Open Scope list_scope.

Lemma open_text s : forall acc, ~ In quote s -> ~ In "\"%char s -> dlexf (SStr acc) s = Err SyntaxError.
Proof.
  induction s as [|c s IH]; intros acc H1 H2; [reflexivity|]. rewrite dlexf_cons. cbn [dstep]. cbn in H1, H2.
  assert (Ascii.eqb c quote = false) as -> by (apply Ascii.eqb_neq; tauto).
  assert (Ascii.eqb c "\" = false) as -> by (apply Ascii.eqb_neq; tauto).
  destruct (Ascii.eqb c nl); [reflexivity|]. cbn [bind]. rewrite IH by tauto. reflexivity.
Qed.

Lemma after_line st ts st' : dstep st nl = Ok (ts, st') -> st' = SBol \/ exists acc, st = SStr acc.
Proof.
  destruct st; cbn; intro H; try (injection H as _ <-; auto); eauto.
  - destruct (end_num acc); [|discriminate]. cbn in H. injection H as _ <-. auto.
  - destruct (end_name acc); [|discriminate]. cbn in H. injection H as _ <-. auto.
Qed.

Lemma open_file a g n s : exec_file (a ++ [nl]) = Ok g -> name_text n = true -> ~ In quote s -> ~ In "\"%char s ->
  exec_file (a ++ [nl] ++ n ++ L " = '" ++ s) = Err SyntaxError.
Proof.
  intros G N H1 H2. unfold exec_file, parse_prog in *. 
  assert (X : dlex (a ++ [nl] ++ n ++ L " = '" ++ s) = Err SyntaxError); [|now rewrite X].
  assert (Y : exists ts, drun SBol (a ++ [nl]) = Ok (ts, SBol)).
  { unfold dlex in G. rewrite drun_app in *. destruct (drun SBol a) as [[ts st]|]; [|discriminate]. cbn [bind drun] in *.
    destruct (dstep st nl) as [[t1 st1]|] eqn:E; [|discriminate]. cbn [bind demit] in *.
    destruct (after_line _ _ _ E) as [->|[acc ->]]; [eauto|]. cbn in E. discriminate. }
  destruct Y as (ts & Y). rewrite app_assoc. unfold dlex. rewrite drun_app, Y. cbn [bind].
  assert (Z : dlexf SBol (n ++ L " = '" ++ s) = Err SyntaxError).
  { assert (W : dlexf SStart (n ++ L " = '" ++ s) = Err SyntaxError).
    { change (n ++ ?r) with (dspell (DName n) ++ r). rewrite dlexf_tok; [|exact N|cbn; split; [reflexivity|discriminate]].
      cbn [L list_ascii_of_string app]. rewrite dlexf_cons. cbn [dstep dstart Ascii.eqb Bool.eqb bind]. rewrite dlexf_cons. cbn -[dlexf]. rewrite dlexf_cons. cbn -[dlexf]. rewrite dlexf_cons. cbn -[dlexf].
      now rewrite open_text. }
    destruct n as [|c n]; [discriminate|]. rewrite <- W. cbn [app]. rewrite !dlexf_cons. cbn [dstep].
    destruct (Ascii.eqb_spec c " ") as [->|]; [discriminate N|reflexivity]. }
  unfold dlexf in Z. destruct (drun SBol (n ++ L " = '" ++ s)) as [[t2 st2]|]; cbn [bind demit] in *; [|congruence].
  destruct (dflush st2); [discriminate|]. cbn in *. congruence.
Qed.

Lemma wrong_brace d c : c <> "}"%char -> parse_dict (d_entries d ++ [DClose c]) = Err SyntaxError.
Proof.
  intro H. unfold d_entries. induction d as [|[k v] d IH]; cbn.
  - apply Ascii.eqb_neq in H. now rewrite H.
  - cbn in IH. now rewrite IH.
Qed.
