(** Vocabulary for the degree of rate control. *)
From Coq Require Import String Ascii List Arith Bool Reals.
Import ListNotations.
From Verif Require Import PyBase PyReal Xrc_Model.
Local Open Scope list_scope.
Local Open Scope nat_scope.

(** How often the list with this name is raised: once if it is the list of forward or of reverse
    barriers, twice if it is both. *)
Definition times (d : refs) (n : str) : nat :=
  (match dget d n, dget d (L "Gaf") with Some a, Some b => if Nat.eqb a b then 1 else 0 | _, _ => 0 end) +
  (match dget d n, dget d (L "Gar") with Some a, Some b => if Nat.eqb a b then 1 else 0 | _, _ => 0 end).

(** [e'] is [e] with entry [i] of the barriers raised. *)
Definition raised (d : refs) (i : nat) (eps : R) (e e' : dict (list R)) : Prop :=
  map fst e' = map fst e /\
  forall n l, dget e n = Some l -> exists l', dget e' n = Some l' /\ length l' = length l /\
    forall j x, nth_error l j = Some x ->
      nth_error l' j = Some (if Nat.eqb j i then x + INR (times d n) * eps else x)%R.

(** Every name has its own list. *)
Definition separate (d : refs) : Prop :=
  forall n m a, dget d n = Some a -> dget d m = Some a -> n = m.

(** The degree of rate control as it is defined: (k / r) (r' - r) / (k' - k). *)
Definition is_control (k r k' r' : R) (x : xrc) : Prop :=
  (r = 0 \/ k' = k)%R /\ x = Inf \/
  (r <> 0 /\ k' <> k)%R /\ exists y, x = Num y /\ (y * (r * (k' - k)) = k * (r' - r))%R.

(** Both barriers are there for [n] reactions. *)
Definition complete (e : dict (list R)) (n : nat) : Prop :=
  exists f r, dget e (L "Gaf") = Some f /\ dget e (L "Gar") = Some r /\ n <= length f /\ n <= length r.

Section Spec.
  Context {W : Type}.
  Variable q : tools W.

  (** The reactions [i], [i+1], ... one after the other. *)
  Inductive controls (gas : str) (eps : R) (d : refs) (e : dict (list R)) (guess : list R) (r : R) (kfs : list R)
    : nat -> nat -> W -> list xrc -> W -> Prop :=
  | no_more i w : controls gas eps d e guess r kfs i 0 w [] w
  | next i n w e' k ks k' cvgs r' x l w1 w2 w3 w4 :
      raised d i eps e e' -> nth_error kfs i = Some k ->
      t_constants q e' w = (Ok ks, w1) -> nth_error ks i = Some k' ->
      t_search q guess e' w1 = (Ok cvgs, w2) ->
      t_tof q cvgs e' gas w2 = (Ok r', w3) ->
      is_control k r k' r' x ->
      controls gas eps d e guess r kfs (S i) n w3 l w4 ->
      controls gas eps d e guess r kfs i (S n) w (x :: l) w4.

  (** All of it: from the stored coverages, with the rate and the rate constants there. *)
  Definition rate_control (gas : str) (eps : R) (d : refs) (e : dict (list R)) (w : W) (l : list xrc) (w' : W) : Prop :=
    exists guess r kfs w1 w2, t_stored q w = Some guess /\
      t_tof q (Some guess) e gas w = (Ok r, w1) /\ t_constants q e w1 = (Ok kfs, w2) /\
      controls gas eps d e guess r kfs 0 (t_rxns q) w2 l w'.

  (** How reaction [i] or a later one can fail: with the exception of the method that failed. *)
  Inductive stops (gas : str) (eps : R) (d : refs) (e : dict (list R)) (guess : list R) (kfs : list R)
    : nat -> W -> exn -> W -> Prop :=
  | no_constant i w : nth_error kfs i = None -> stops gas eps d e guess kfs i w IndexError w
  | constants_fail i w e' x w1 : raised d i eps e e' -> t_constants q e' w = (Err x, w1) ->
      stops gas eps d e guess kfs i w x w1
  | no_new_constant i w e' ks w1 : raised d i eps e e' -> t_constants q e' w = (Ok ks, w1) -> nth_error ks i = None ->
      stops gas eps d e guess kfs i w IndexError w1
  | search_fails i w e' ks w1 x w2 : raised d i eps e e' -> t_constants q e' w = (Ok ks, w1) ->
      t_search q guess e' w1 = (Err x, w2) -> stops gas eps d e guess kfs i w x w2
  | tof_fails i w e' ks w1 cvgs w2 x w3 : raised d i eps e e' -> t_constants q e' w = (Ok ks, w1) ->
      t_search q guess e' w1 = (Ok cvgs, w2) -> t_tof q cvgs e' gas w2 = (Err x, w3) ->
      stops gas eps d e guess kfs i w x w3.
End Spec.
