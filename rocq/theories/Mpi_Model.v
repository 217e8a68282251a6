(** Distribution of work over MPI ranks (scaks/mpicommons.py).  [size] is the number of
    ranks and [rank] the number of the calling rank; without mpi4py they are 1 and 0
    (lines 38-52). *)
From Coq Require Import String Ascii List ZArith NArith Bool Arith.
Import ListNotations.
From Verif Require Import PyBase.
Local Open Scope list_scope.
Local Open Scope nat_scope.

(** The values of [range(i, stop, step)] for a positive step; [fuel] bounds their number.
    mpicommons.py:65. *)
Fixpoint range_up (fuel i stop step : nat) : list nat :=
  match fuel with
  | O => []
  | S f => if i <? stop then i :: range_up f (i + step) stop step else []
  end.

(** [list(range(0, stop, step))]: a step of 0 is a ValueError. *)
Definition py_range0 (stop step : nat) : res (list nat) :=
  match step with
  | O => Err ValueError
  | _ => Ok (range_up stop 0 stop step)
  end.

(** [sequence[a:b]] for natural bounds. mpicommons.py:69. *)
Definition slice {A} (a b : nat) (l : list A) : list A := firstn (b - a) (skipn a l).

(** scaks/mpicommons.py 59-69, [MPIUtil.split_seq]. *)
Definition split_seq {A} (size rank : nat) (sequence : list A) : res (list A) :=
  do starts <- match size with
               | O => Err ZeroDivisionError
               | _ => py_range0 (length sequence) (length sequence / size)
               end;
  let ends := tl starts ++ [length sequence] in
  do (start, stop) <- lindex (combine starts ends) rank;
  Ok (slice start stop sequence).

(** [splited_sizes[i] += 1]. *)
Fixpoint add_one_at (l : list Z) (i : nat) : res (list Z) :=
  match l, i with
  | [], _ => Err IndexError
  | x :: t, O => Ok ((x + 1)%Z :: t)
  | x :: t, S k => do t' <- add_one_at t k; Ok (x :: t')
  end.

(** [for i in range(residual): splited_sizes[i] += 1], lines 86-87. *)
Fixpoint add_ones (l : list Z) (idxs : list nat) : res (list Z) :=
  match idxs with
  | [] => Ok l
  | i :: t => do l' <- add_one_at l i; add_ones l' t
  end.

(** scaks/mpicommons.py 71-91, [MPIUtil.split_size]; the warning is left out. *)
Definition split_size (nranks rank : nat) (size : Z) : res Z :=
  let P := Z.of_nat nranks in
  do splited_sizes <-
    (if (size <? P)%Z then
       Ok (repeat 1%Z (Z.to_nat size) ++ repeat 0%Z (Z.to_nat (P - size)))
     else match nranks with
     | O => Err ZeroDivisionError
     | _ =>
       if negb (size mod P =? 0)%Z then
         let residual := (size mod P)%Z in
         add_ones (repeat (size / P)%Z nranks) (seq 0 (Z.to_nat residual))
       else Ok (repeat (size / P)%Z nranks)
     end);
  lindex splited_sizes rank.

(** scaks/mpicommons.py 93-104, [MPIUtil.merge_seq] as seen by one rank: [own] is its own
    argument and [gathered] what [allgather] returns, the arguments of all ranks in rank
    order (trusted: mpi4py). *)
Definition merge_seq {A} (size : nat) (own : list A) (gathered : list (list A)) : list A :=
  if size =? 1 then own else concat gathered.

(** scaks/mpicommons.py 108-116, [master_only]: the call is made on rank 0 only; the other
    ranks get [None]. *)
Definition master_only {A} (rank : nat) (call : unit -> A) : option A :=
  if rank =? 0 then Some (call tt) else None.

(** scaks/compatutil.py 39-46, [merge_two_dicts]: copy, then [update]. *)
Definition merge_two_dicts {V} (d1 d2 : dict V) : dict V :=
  fold_left (fun d kv => dset d (fst kv) (snd kv)) d2 d1.
