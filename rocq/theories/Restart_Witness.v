(** Examples for Restart_Properties.v. *)
From Coq Require Import String Ascii List ZArith Bool Arith.
Import ListNotations.
From Verif Require Import PyBase PyBaseFacts PyData_Model PyData_Spec Restart_Model Restart_Spec Restart_Proofs.
Local Open Scope list_scope.

Definition traj1 : str := L "times = [0.5, 1.5]" ++ [nl].
Definition traj2 : str := L "times = [0.5, 2.5]" ++ [nl].
Definition end_last : str := (L "kind = 1" ++ [nl]) ++ L "start_time" ++ L " = 0.0".
Definition in_front : str := L "start_time" ++ L " = 0.0" ++ nl :: L "kind = 1" ++ nl :: [].
Definition show0 (s : str) : str := s.

Lemma recorded1 : recorded traj1 (VNum (L "1.5")).
Proof. apply last_time_iff. vm_compute. reflexivity. Qed.
Lemma recorded2 : recorded traj2 (VNum (L "2.5")).
Proof. apply last_time_iff. vm_compute. reflexivity. Qed.

Lemma lines_in_front : lines_of [L "start_time = 0.0" ++ [nl]; L "kind = 1" ++ [nl]] in_front.
Proof. apply read_lines_iff. vm_compute. reflexivity. Qed.
Lemma kind_no_start l : lines_of l (L "kind = 1" ++ [nl]) -> ~ Exists start_line l.
Proof.
  intro H. apply read_lines_iff in H. subst l. rewrite <- exists_start. vm_compute. discriminate.
Qed.
Lemma empty_no_start l : lines_of l [] -> ~ Exists start_line l.
Proof. intro H. apply read_lines_iff in H. subst l. intro X. inversion X. Qed.

Lemma changed_in_front : change_start_time show0 traj1 in_front = Ok (L "start_time = 1.5kind = 1" ++ [nl]).
Proof. vm_compute. reflexivity. Qed.

Lemma not_intended : ~ intended (L "1.5") in_front (L "start_time = 1.5kind = 1" ++ [nl]).
Proof.
  rewrite (intended_iff show0 traj1 in_front _ (VNum (L "1.5")) (L "1.5")
    [L "start_time = 0.0" ++ [nl]; L "kind = 1" ++ [nl]] changed_in_front recorded1);
    [|left; now exists (L "1.5")|exact lines_in_front|].
  - intro H. apply (H (L "start_time = 0.0" ++ [nl])); [now left|now exists (L " = 0.0" ++ [nl])|].
    apply in_or_app. right. now left.
  - left. now exists (L " = 0.0" ++ [nl]).
Qed.
