(** Vocabulary for the integration in time. *)
From Coq Require Import String Ascii List ZArith QArith Bool.
From Verif Require Import PyBase.
Import ListNotations.
Local Open Scope list_scope.

Section Trajectory.
  Context {S : Type}.
  Variable time : S -> Q.
  Variable integrate : S -> Q -> res unit * S.
  Variables t_end t_step : Q.

  (** From state [s] the integrator goes through the states [l] and then ends with [r] in [last]:
      it is asked for one step after the other until the end time is reached or it raises. *)
  Inductive trajectory : S -> list S -> res unit -> S -> Prop :=
  | tr_end s : ~ (time s < t_end)%Q -> trajectory s [] (Ok tt) s
  | tr_raise s e s1 : (time s < t_end)%Q -> integrate s (time s + t_step)%Q = (Err e, s1) ->
      trajectory s [] (Err e) s1
  | tr_step s s1 l r last : (time s < t_end)%Q -> integrate s (time s + t_step)%Q = (Ok tt, s1) ->
      trajectory s1 l r last -> trajectory s (s1 :: l) r last.
End Trajectory.

(** The entries number n, 2n, 3n, ... of a list, counted from one. *)
Definition every {A} (n : Z) (l : list A) : list A :=
  map snd (filter (fun p => (Z.of_nat (fst p) mod n =? 0)%Z) (combine (seq 1 (length l)) l)).
