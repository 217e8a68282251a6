(** A small pickle format, and histories. *)
From Coq Require Import String Ascii List Arith NArith Bool Lia.
From Verif Require Import PyBase PyBaseFacts Archive_Model Archive_Spec Archive_Proofs.
Import ListNotations.
Local Open Scope list_scope.
Local Open Scope nat_scope.

(** A byte is an entry or the end mark. *)
Definition toy_dump (d : dict nat) : list (option (str * nat)) * option exn := (map Some d ++ [None], None).
Fixpoint toy_load (b : list (option (str * nat))) : res (dict nat) :=
  match b with
  | [] => Err EOFError
  | None :: _ => Ok []
  | Some e :: t => do d <- toy_load t; Ok (e :: d)
  end.
Lemma toy_faithful : faithful toy_dump toy_load.
Proof. intros d _. induction d as [|e d IH]; [reflexivity|]. cbn in *. now rewrite IH. Qed.

Definition all_selected (t : nat) (n : str) : bool := true.
Definition only_coverages (t : nat) (n : str) : bool := str_eqb n (L "steady_state_coverages").
Definition one_path (t : nat) : str := data_file 1 0.
Definition always (p : str) : bool := true.
Definition nothing {V B} : state V B := {| dicts := fun _ => []; disk := fun _ => None |}.

Definition some_history : list (op nat) :=
  [Archive 0 (L "rates") 1; Archive 0 (L "steady_state_coverages") 2; Archive 0 (L "rates") 3;
   Archive 0 (L "steady_state_coverages") 4].

Lemma some_history_latest : latest only_coverages some_history 0 (L "steady_state_coverages") 4.
Proof.
  split; [reflexivity|]. eexists [_; _; _], []. split; [reflexivity|]. split; [auto|]. intros v [].
Qed.
