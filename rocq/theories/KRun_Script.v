From Coq Require Import String Ascii List ZArith Bool Arith Lia.
Import ListNotations.
From Verif Require Import PyBase PyBaseFacts PyData_Model PyData_Spec PyData_Proofs KPlug_Model KPlug_Text Fmt_Proofs
  Gen_Proofs KRun_Model KRun_Spec.
Local Open Scope list_scope.
Local Open Scope nat_scope.

Lemma process_name_text i : name_text (process_name i) = true.
Proof. exact (counted_name (L "process") i eq_refl). Qed.

Lemma process_name_inj i j : process_name i = process_name j -> i = j.
Proof. intro H. apply app_inv_head, str_of_Z_inj in H. lia. Qed.

Definition name_line (n : str) : str := L "    " ++ n ++ L "," ++ [nl].
Definition name_toks (ns : list str) : list dtok := concat (map (fun n => [DIndent; DName n; DComma; DNl]) ns).

Lemma name_lines_lex ns r : Forall (fun n => name_text n = true) ns ->
  drun SBol (concat (map name_line ns) ++ r) = demit (name_toks ns) (drun SBol r).
Proof.
  induction 1 as [|n ns Hn HF IH]; [cbn; now rewrite demit_nil|].
  cbn [map concat]. unfold name_line at 1.
  replace (((L "    " ++ n ++ L "," ++ [nl]) ++ concat (map name_line ns)) ++ r)
    with (L "    " ++ n ++ ","%char :: nl :: (concat (map name_line ns) ++ r))
    by (rewrite <- !app_assoc; reflexivity).
  change (drun SBol (L "    " ++ n ++ ","%char :: nl :: (concat (map name_line ns) ++ r)))
    with (demit [DIndent] (demit [] (demit [] (demit [] (drun SStart (n ++ ","%char :: nl :: (concat (map name_line ns) ++ r))))))).
  rewrite !demit_nil.
  rewrite (lex_name_to SStart) by (auto || reflexivity).
  rewrite (lex_single "," DComma) by reflexivity.
  change (drun SStart (nl :: concat (map name_line ns) ++ r)) with (demit [DNl] (drun SBol (concat (map name_line ns) ++ r))).
  rewrite IH, !demit_demit. reflexivity.
Qed.

Lemma name_group ns d acc r :
  group (S d) acc (name_toks ns ++ r) = group (S d) (acc ++ concat (map (fun n => [DName n; DComma]) ns)) r.
Proof.
  revert acc. induction ns as [|n ns IH]; intro acc; [cbn; now rewrite app_nil_r|].
  unfold name_toks. cbn [map concat]. rewrite <- app_assoc. cbn [app group].
  fold (name_toks ns). rewrite IH. f_equal. rewrite <- !app_assoc. reflexivity.
Qed.

Lemma process_list_lines n :
  logical_lines (process_list n) [list_statement (map process_name (seq 0 n)); []].
Proof.
  assert (Forall (fun m => name_text m = true) (map process_name (seq 0 n))) as F.
  { apply Forall_forall. intros m Hm. apply in_map_iff in Hm. destruct Hm as (i&<-&_). apply process_name_text. }
  exists ([DName (L "processes"); DEq; DOpen "["; DNl] ++ name_toks (map process_name (seq 0 n)) ++ [DClose "]"; DNl; DNl]).
  split.
  - unfold process_list.
    replace (concat (map (fun i => L "    " ++ process_name i ++ L "," ++ [nl]) (seq 0 n)))
      with (concat (map name_line (map process_name (seq 0 n)))) by now rewrite map_map.
    replace (L "processes = [" ++ [nl] ++ concat (map name_line (map process_name (seq 0 n))) ++ L "]" ++ [nl; nl])
      with ((L "processes = [" ++ [nl]) ++ concat (map name_line (map process_name (seq 0 n))) ++ L "]" ++ [nl; nl])
      by (rewrite <- !app_assoc; reflexivity).
    rewrite drun_app.
    replace (drun SBol (L "processes = [" ++ [nl])) with (Ok ([DName (L "processes"); DEq; DOpen "["; DNl], SBol) : dres)
      by (vm_compute; reflexivity).
    cbn [bind]. rewrite name_lines_lex by assumption.
    change (drun SBol (L "]" ++ [nl; nl])) with (Ok ([DClose "]"; DNl; DNl], SBol) : dres).
    reflexivity.
  - intro r. cbn [app group]. rewrite <- app_assoc, name_group. cbn [app group Nat.pred].
    unfold list_statement. cbn [app]. rewrite <- ?app_assoc. reflexivity.
Qed.

Lemma scripts_indexed {P} (scr : P -> str -> str) ps : forall i,
  process_scripts scr i ps = concat (map (fun ip => scr (snd ip) (process_name (fst ip))) (combine (seq i (length ps)) ps)).
Proof. induction ps as [|p t IH]; intro i; [reflexivity|]. cbn. now rewrite IH. Qed.

Lemma names_NoDup n : NoDup (map process_name (seq 0 n)).
Proof.
  apply FinFun.Injective_map_NoDup; [|apply seq_NoDup]. intros i j. apply process_name_inj.
Qed.

Lemma header_comments v d : ~ In nl v -> ~ In nl d -> comments (script_header v d).
Proof.
  intros Hv Hd. unfold script_header.
  apply (cm_line (L "# This file was automatically generated by scaks (https://github.com/PytLab/scaks) powered by KMCLibX.")).
  { eexists. split; [reflexivity|]. intro H. vm_compute in H. intuition discriminate. }
  rewrite (app_assoc (L "# Version ") v).
  apply (cm_line (L "# Version " ++ v)).
  { eexists. split; [reflexivity|]. intro H. apply (in_app_or (L " Version ") v) in H. destruct H as [H|H]; [|auto].
    vm_compute in H. intuition discriminate. }
  rewrite (app_assoc d (L " ")), (app_assoc (L "# Date: ") (d ++ L " ")).
  apply (cm_line (L "# Date: " ++ d ++ L " ")).
  { eexists. split; [reflexivity|]. intro H. apply (in_app_or (L " Date: ") (d ++ L " ")) in H.
    destruct H as [H|H]; [|apply in_app_or in H; destruct H as [H|H]; [auto|]];
      vm_compute in H; intuition discriminate. }
  apply (cm_line (L "#")).
  { eexists. split; [reflexivity|]. intros []. }
  apply (cm_line (L "# Do not make changes to this file unless you know what you are doing") [nl]).
  { eexists. split; [reflexivity|]. intro H. vm_compute in H. intuition discriminate. }
  apply cm_end.
Qed.
