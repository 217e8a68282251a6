(** Coverages of a lattice (scaks/solvers/kmc_plugins/kmc_functions.py,
    c++/src/kmc_functions.cpp, and their use in coverages_analysis.py). *)
From Coq Require Import String Ascii List ZArith NArith Bool Arith QArith.
Import ListNotations.
From Verif Require Import PyBase.
Local Open Scope list_scope.
Local Open Scope nat_scope.

(** [ntypes[idx] += ratio]. kmc_functions.py 34. *)
Fixpoint bump {F} (add : F -> F -> F) (l : list F) (i : nat) (r : F) : list F :=
  match l, i with
  | [], _ => []
  | x :: t, O => add x r :: t
  | x :: t, S k => x :: bump add t k r
  end.

Section Collect.
  (** Numbers with the operations the two programs use; nothing is assumed about them, so that
      they may be IEEE doubles.  [div x n] is [x / float(n)]; the C++ program also divides by 0,
      where doubles give an infinity or NaN.  The Python sum starts from the int 0, the C++ sum
      from 0.0; adding a double to either gives the same double. *)
  Context {F : Type} (zero : F) (add : F -> F -> F) (div : F -> nat -> F).

  (** kmc_functions.py 20-37, [collect_coverages]. *)
  Definition py_collect (types possible_types : list str) (ratios : list F) : res (list F) :=
    match ratios with
    | [] => Err ZeroDivisionError
    | _ =>
        let nsite := length types / length ratios in
        let all_ratios := concat (repeat ratios nsite) in
        let ntypes :=
          fold_left (fun ntypes re =>
                       match index_of (snd re) possible_types with
                       | None => ntypes
                       | Some idx => bump add ntypes idx (fst re)
                       end)
            (combine all_ratios types) (repeat zero (length possible_types)) in
        mapM (fun n => if nsite =? 0 then Err ZeroDivisionError else Ok (div n nsite)) ntypes
    end.

  (** kmc_functions.cpp 36-46, the inner loop. *)
  Fixpoint cpp_accumulate (element : str) (ratio : F) (possible_types : list str) (ntypes : list F)
    : list F :=
    match possible_types, ntypes with
    | t :: pt, n :: ns =>
        (if str_eqb element t then add n ratio else n) :: cpp_accumulate element ratio pt ns
    | _, _ => ntypes
    end.

  (** kmc_functions.cpp 22-47, the outer loop from index [i] on. *)
  Fixpoint cpp_loop (i : nat) (types possible_types : list str) (ratios ntypes : list F) : list F :=
    match types with
    | [] => ntypes
    | element :: rest =>
        cpp_loop (S i) rest possible_types ratios
          (cpp_accumulate element (nth (i mod length ratios) ratios zero) possible_types ntypes)
    end.

  (** kmc_functions.cpp 5-59, [collect_coverages]; [None] is undefined behaviour (integer
      division by zero). *)
  Definition cpp_collect (types possible_types : list str) (ratios : list F) : option (list F) :=
    match ratios with
    | [] => None
    | _ =>
        let nsite := length types / length ratios in
        Some (map (fun n => div n nsite)
               (cpp_loop 0 types possible_types ratios (repeat zero (length possible_types))))
    end.
End Collect.

(** [l.pop(i)] for an index that exists. coverages_analysis.py 80, 116. *)
Fixpoint drop_at {A} (l : list A) (i : nat) : list A :=
  match l, i with
  | [], _ => []
  | _ :: t, O => t
  | x :: t, S k => x :: drop_at t k
  end.

(** [l.insert(i, x)]: an index beyond the end appends. coverages_analysis.py 91, 127. *)
Fixpoint insert_at {A} (l : list A) (i : nat) (x : A) : list A :=
  match l, i with
  | l, O => x :: l
  | [], _ => [x]
  | y :: t, S k => y :: insert_at t k x
  end.

(** Division by a number of sites, exact. kmc_functions.py 36. *)
Definition qdiv (x : Q) (n : nat) : Q := (x / inject_Z (Z.of_nat n))%Q.

(** [sum(coverages)], coverages_analysis.py 90, 126. *)
Definition qsum (l : list Q) : Q := fold_left Qplus l 0%Q.

(** coverages_analysis.py 76-91 and 112-127: the coverages of one step, with the Python
    function, in exact arithmetic.  The possible types are a list (of a tuple, which the
    attribute accepts too, nothing can be popped: AttributeError). *)
Definition step_coverages (possible_types : list str) (empty_type : str) (ratios : list Q)
    (types : list str) : res (list Q) :=
  match index_of empty_type possible_types with
  | None => Err ValueError
  | Some idx =>
      do coverages <- py_collect 0%Q Qplus qdiv types (drop_at possible_types idx) ratios;
      Ok (insert_at coverages idx (1 - qsum coverages)%Q)
  end.
