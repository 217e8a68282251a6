(** Vocabulary for the files of the analysis plugins. *)
From Coq Require Import String Ascii List ZArith NArith Bool Arith QArith.
Import ListNotations.
From Verif Require Import PyBase PyData_Model PyData_Spec KPlug_Model.
Local Open Scope list_scope.
Local Open Scope nat_scope.

(** How often process [p] was picked. *)
Definition picks (p : nat) (es : list event) : nat :=
  length (filter (fun e => e_picked e =? p) es).

(** The history cut at the events by which more than [d] has passed since the last cut: for each
    interval its beginning, its end and its events, and the events after the last cut. *)
Inductive intervals (d : Q) : Q -> list event -> list (Q * Q * list event) -> list event -> Prop :=
| iv_end start es :
    Forall (fun e => (e_time e - start <= d)%Q) es -> intervals d start es [] es
| iv_cons start seg e es recs rest :
    Forall (fun e' => (e_time e' - start <= d)%Q) seg -> (d < e_time e - start)%Q ->
    intervals d (e_time e) es recs rest ->
    intervals d start (seg ++ e :: es) ((start, e_time e, seg ++ [e]) :: recs) rest.

Definition begins (r : Q * Q * list event) : Q := fst (fst r).
Definition ends (r : Q * Q * list event) : Q := snd (fst r).
Definition inside (r : Q * Q * list event) : list event := snd r.

(** [row] holds the turnover frequencies of an interval: frequency times number of sites times
    length is the number of events, for every process. *)
Definition turnovers (nprocess : nat) (nsites : Z) (r : Q * Q * list event) (row : list Q) : Prop :=
  length row = nprocess /\
  forall p tof, nth_error row p = Some tof ->
    (tof * (inject_Z nsites * (ends r - begins r)) == inject_Z (Z.of_nat (picks p (inside r))))%Q.

(** A file, read by executing it, defines [n] as this list. *)
Definition file_list (file : str) (n : str) (l : list val) : Prop :=
  exists g, exec_file file = Ok g /\ dget g n = Some (OVal (VList l)).

(** ... as a dictionary with these entries. *)
Definition file_dict (file : str) (n : str) (entry : str -> option str) : Prop :=
  exists g d, exec_file file = Ok g /\ dget g n = Some (ODict d) /\ forall k, dget d k = entry k.

Definition shown (show : Q -> str) (q : Q) : val := VNum (show q).

Definition product (l : list Z) : Z := fold_right Z.mul 1%Z l.

(** The events the file accounts for: frequency times number of sites times length, summed over
    the intervals. *)
Fixpoint accounted (nsites : Z) (p : nat) (recs : list (Q * Q * list event)) (rows : list (list Q)) : Q :=
  match recs, rows with
  | r :: recs', row :: rows' =>
      (nth p row 0 * (inject_Z nsites * (ends r - begins r)) + accounted nsites p recs' rows')%Q
  | _, _ => 0%Q
  end.

(** How often a process of the reaction [k] was picked. *)
Definition reaction_picks (mapping : list str) (k : str) (es : list event) : nat :=
  length (filter (fun e => match nth_error mapping (e_picked e) with
                           | Some r => str_eqb r k
                           | None => false
                           end) es).

Definition steady_steps (tof_start : Z) (es : list event) : list event :=
  filter (fun e => (tof_start <=? e_step e)%Z) es.

(** The first time that is not zero (zero if there is none), the last time. *)
Fixpoint first_nonzero_time (es : list event) : Q :=
  match es with
  | [] => 0%Q
  | e :: t => if Qeq_bool (e_time e) 0 then first_nonzero_time t else e_time e
  end.

Definition last_time (es : list event) : Q := last (map e_time es) 0%Q.

(** Something is left in the buffer at the end of a run of [n] steps: the state before the
    first step counts as well, and a buffer of at most one element is emptied at every step. *)
Definition leftover (buffer_size : Z) (n : nat) : Prop :=
  n = 0 \/ ((1 < buffer_size)%Z /\ (Z.of_nat (1 + n) mod buffer_size <> 0)%Z).

(** The quotation marks written around a type. *)
Definition quoted (t : str) : str := L "'" ++ t ++ L "'".

(** Types that are ordinary Python names and not the prefix of a text literal. *)
Definition type_name (t : str) : Prop := name_text t = true /\ literal_prefix t = false.

(** The sum of the rates of all processes on all their sites. *)
Definition total_rate (e : event) : Q :=
  fold_right Qplus 0%Q (map (fun p => (inject_Z (fst p) * snd p)%Q) (combine (e_sites e) (e_rates e))).

Definition row_probability (r : nat * str * Z * Q * Q) : Q := snd r.

(** What is written for consecutive events: the table of the first with the choice made at the
    second. *)
Fixpoint event_texts {table} (render : Z -> list table -> nat -> str)
    (tables : list (list table)) (later : list event) : str :=
  match tables, later with
  | t :: tables', e :: later' =>
      (match t with [] => [] | _ => render (e_step e) t (e_picked e) end)
      ++ event_texts render tables' later'
  | _, _ => []
  end.
