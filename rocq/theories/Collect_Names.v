(** Directories whose names are no numbers: lemmas. *)
From Coq Require Import String Ascii List ZArith Bool Arith QArith.
Import ListNotations.
From Verif Require Import PyBase PyBase_Spec Collect_Model Collect_Spec Collect_Proofs.
Local Open Scope list_scope.

Lemma cvgs_name number a d f b l o co : extract_cvgs number a = Ok l ->
  covers f [L "O_s"; L "O_r"; L "O_u"; L "O_d"; L "O_l"] o -> covers f [L "C"] co ->
  number (skipn 2 d) = None -> extract_cvgs number (a ++ (d, Some f) :: b) = Err ValueError.
Proof.
  intros H A B N. revert l H. induction a as [|[e [g|]] a IH]; intros l H; cbn [app extract_cvgs] in *.
  - apply covers_iff in A, B. change O_names with [L "O_s"; L "O_r"; L "O_u"; L "O_d"; L "O_l"]. rewrite A. cbn [bind].
    change CO_names with [L "C"]. rewrite B. cbn [bind]. unfold to_float. now rewrite N.
  - destruct (sum_coverages g O_names 0%Q) as [x|]; cbn [bind] in *; [|discriminate].
    destruct (sum_coverages g CO_names 0%Q) as [y|]; cbn [bind] in *; [|discriminate].
    destruct (to_float number (skipn 2 e)) as [p|]; cbn [bind] in *; [|discriminate].
    destruct (extract_cvgs number a) as [r|]; cbn [bind] in *; [|discriminate].
    now rewrite (IH r eq_refl).
  - eapply IH, H.
Qed.
Lemma tofs_name number a d r b l x : extract_tofs number a = Ok l -> tof_at [0%nat; 2%nat] r = Ok x ->
  number (skipn 2 d) = None -> extract_tofs number (a ++ (d, Some (Some r)) :: b) = Err ValueError.
Proof.
  intros H A N. revert l H. induction a as [|[e [[g|]|]] a IH]; intros l H; cbn [app extract_tofs] in *.
  - rewrite A. cbn [bind]. unfold to_float. now rewrite N.
  - destruct (tof_at [0%nat; 2%nat] g) as [y|]; cbn [bind] in *; [|discriminate].
    destruct (to_float number (skipn 2 e)) as [p|]; cbn [bind] in *; [|discriminate].
    destruct (extract_tofs number a) as [s|]; cbn [bind] in *; [|discriminate].
    now rewrite (IH s eq_refl).
  - eapply IH, H.
  - eapply IH, H.
Qed.
Lemma map_name {D} number (pick : D -> res Q) po runs rows :
  number po = None \/ (exists o a c r b, number po = Some o /\ runs = a ++ (c, r) :: b /\ number c = None) ->
  extract_map number pick ((po, runs) :: rows) = Err ValueError.
Proof.
  unfold extract_map. cbn [map_rows]. intros [N|(o & a & c & r & b & N & -> & C)].
  - unfold to_float at 1. now rewrite N.
  - unfold to_float at 1. rewrite N. cbn [bind].
    assert (mapM (fun r => to_float number (fst r)) (a ++ (c, r) :: b) = Err ValueError) as ->; [|reflexivity].
    induction a as [|[x y] a IH]; cbn [app mapM fst].
    + unfold to_float. now rewrite C.
    + unfold to_float at 1. destruct (number x); cbn [bind]; [|reflexivity]. now rewrite IH.
Qed.
