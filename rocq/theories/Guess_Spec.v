(** Vocabulary for new guesses. *)
From Coq Require Import List QArith.
From Verif Require Import PyBase Ode_Spec.
Import ListNotations.
Local Open Scope list_scope.

(** Coverages all zero, one for every adsorbate. *)
Definition clean (nads : nat) (c : list Q) : Prop := length c = nads /\ Forall (eq 0%Q) c.

(** The Boltzmann coverages, or the clean surface if the energies cannot be read. *)
Inductive boltzmann_start (boltzmann : res (list Q)) (nads : nat) : res (list Q) -> Prop :=
| bs_value v : boltzmann = Ok v -> boltzmann_start boltzmann nads (Ok v)
| bs_missing c : boltzmann = Err IOError -> clean nads c -> boltzmann_start boltzmann nads (Ok c)
| bs_error e : boltzmann = Err e -> e <> IOError -> boltzmann_start boltzmann nads (Err e).

(** Where the default hybrid method begins: the coverages of the solver, which are zero before the
    first search; without adsorbates, the Boltzmann coverages. *)
Inductive begins (known : option (list Q)) (boltzmann : res (list Q)) (nads : nat) : res (list Q) -> Prop :=
| bg_known c : known = Some c -> c <> [] -> begins known boltzmann nads (Ok c)
| bg_clean c : known = None -> nads <> O -> clean nads c -> begins known boltzmann nads (Ok c)
| bg_boltzmann r : known = Some [] \/ known = None /\ nads = O -> boltzmann_start boltzmann nads r ->
    begins known boltzmann nads r.

(** The outcome of integrating from [b] (or of failing to begin) until [t_end]. *)
Inductive integrated {S} (start : list Q -> Q -> S) time (values : S -> list Q) integrate (t_end t_span : Q) (fuel : nat)
    (b : res (list Q)) : res (list Q) -> Prop :=
| in_error e : b = Err e -> integrated start time values integrate t_end t_span fuel b (Err e)
| in_end c l last : b = Ok c -> trajectory time integrate t_end t_span (start c 0%Q) l (Ok tt) last ->
    (length l < fuel)%nat -> integrated start time values integrate t_end t_span fuel b (Ok (values last))
| in_raise c l e last : b = Ok c -> trajectory time integrate t_end t_span (start c 0%Q) l (Err e) last ->
    (length l < fuel)%nat -> integrated start time values integrate t_end t_span fuel b (Err e).
