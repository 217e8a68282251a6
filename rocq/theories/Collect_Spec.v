(** What the collected results of many runs should be. *)
From Coq Require Import String Ascii List ZArith Bool Arith QArith Permutation Sorted.
Import ListNotations.
From Verif Require Import PyBase PyBase_Spec Rxn_Model Collect_Model.
Local Open Scope list_scope.

(** ** Merged coverages *)
Definition begins (c : ascii) (s : str) : Prop := exists t, s = c :: t.
Definition known_type (s : str) : Prop := begins "O" s \/ begins "C" s \/ begins "V" s.

(** A list of coverages fits: as many as steps, or a single one. *)
Definition fits (n : nat) (b : list Q) : Prop := length b = n \/ length b = 1%nat.

(** Coverage number [j]; a single one counts for all. *)
Definition entry (n : nat) (b : list Q) (j : nat) : Q :=
  if (length b =? n)%nat then nth j b 0%Q else nth 0%nat b 0%Q.

(** [sums c n l j s]: [s] is the sum at step [j] over the types that begin with [c]. *)
Inductive sums (c : ascii) (n : nat) : list (str * list Q) -> nat -> Q -> Prop :=
| su_nil j : sums c n [] j 0
| su_in sp b l j s : begins c sp -> sums c n l j s -> sums c n ((sp, b) :: l) j (entry n b j + s)
| su_out sp b l j s : ~ begins c sp -> sums c n l j s -> sums c n ((sp, b) :: l) j s.

Definition is_sum (c : ascii) (n : nat) (l : list (str * list Q)) (a : list Q) : Prop :=
  length a = n /\ forall j, (j < n)%nat -> exists s, sums c n l j s /\ nth j a 0%Q == s.

Fixpoint sum_at (j : nat) (l : list (list Q)) : Q :=
  match l with [] => 0%Q | b :: t => (nth j b 0 + sum_at j t)%Q end.

(** The coverages of all types that count fit. *)
Definition used (l : list (str * list Q)) (n : nat) : Prop :=
  forall sp b, In (sp, b) l -> known_type sp -> fits n b.

(** ** Collected coverages *)
(** The last coverage of a type. *)
Definition last_of_type (f : cov_file) (n : str) (x : Q) : Prop :=
  exists i l, first_place n (c_types f) i /\ nth_error (c_coverages f) i = Some (l ++ [x]).

(** The sum of the last coverages of some types. *)
Definition covers (f : cov_file) (names : list str) (s : Q) : Prop :=
  exists xs, Forall2 (last_of_type f) names xs /\ s = fold_left Qplus xs 0%Q.

(** The directories that have the file. *)
Fixpoint present {A} (dirs : list (str * option A)) : list (str * A) :=
  match dirs with
  | [] => []
  | (d, Some f) :: t => (d, f) :: present t
  | (_, None) :: t => present t
  end.

(** The pressure in the name of a directory "./...". *)
Definition named (number : str -> option Q) (d : str) (p : Q) : Prop := number (skipn 2 d) = Some p.

(** Result for one directory: pressure, coverage of CO, coverage of O. *)
Definition cvg_row (number : str -> option Q) (CO O : list str) (df : str * cov_file) (r : Q * Q * Q) : Prop :=
  named number (fst df) (fst (fst r)) /\ covers (snd df) CO (snd (fst r)) /\ covers (snd df) O (snd r).

(** [idx] puts [p] in ascending order. *)
Definition orders (p : list Q) (idx : list nat) : Prop :=
  Permutation idx (seq 0 (length p)) /\ StronglySorted Qle (map (fun i => nth i p 0%Q) idx).

(** ** Tables *)
(** Row of the table: all runs of one oxygen pressure. *)
Definition row_of {D} (number : str -> option Q) (pick : D -> res Q)
    (r : str * list (str * option D)) (o : Q) (cs row : list Q) : Prop :=
  number (fst r) = Some o /\
  Forall2 (fun x c => number (fst x) = Some c) (snd r) cs /\
  Forall2 (fun x v => exists f, snd x = Some f /\ pick f = Ok v) (snd r) row.

(** All rows: the pressures of the runs of every row, the oxygen pressures, and the table. *)
Inductive table {D} (number : str -> option Q) (pick : D -> res Q) :
    list (str * list (str * option D)) -> list (list Q) -> list Q -> list (list Q) -> Prop :=
| ta_nil : table number pick [] [] [] []
| ta_cons r rows o cs row css os m : row_of number pick r o cs row -> table number pick rows css os m ->
    table number pick (r :: rows) (cs :: css) (o :: os) (row :: m).

(** [v] is the result of the run at the pressures [o] and [c]. *)
Definition run_at {D} (number : str -> option Q) (pick : D -> res Q)
    (rows : list (str * list (str * option D))) (o c v : Q) : Prop :=
  exists po runs pc f, In (po, runs) rows /\ In (pc, Some f) runs /\
    number po = Some o /\ number pc = Some c /\ pick f = Ok v.

(** ** Rates *)
(** The names of a dictionary in their order. *)
Definition sorted_names {V} (d : dict V) (ns : list str) : Prop :=
  StronglySorted before ns /\ forall n, In n ns <-> In n (map fst d).
(** The value of a name in a dictionary. *)
Definition value_of {V} (d : dict V) (k : str) (v : V) : Prop :=
  exists a b, d = a ++ (k, v) :: b /\ ~ In k (map fst a).
(** The sum of the values of the names at some places. *)
Definition sum_of_places (d : dict Q) (ns : list str) (places : list nat) (s : Q) : Prop :=
  exists xs, Forall2 (fun i x => exists n, nth_error ns i = Some n /\ value_of d n x) places xs /\
    s = fold_left Qplus xs 0%Q.

(** Directories without the file, and files without rates, are left out. *)
Fixpoint with_rates (dirs : list (str * option (option (dict Q)))) : list (str * dict Q) :=
  match dirs with
  | [] => []
  | (d, Some (Some r)) :: t => (d, r) :: with_rates t
  | _ :: t => with_rates t
  end.

(** ** Directions *)
Definition forward (r : str) : str := r ++ L "(->)".
Definition reverse (r : str) : str := r ++ L "(<-)".

(** The dictionary has every reaction in both directions, and nothing else. *)
Definition both_directions {V} (d : dict V) (rs : list str) : Prop :=
  NoDup rs /\ (forall r, In r rs -> ~ In "("%char r) /\
  forall n, In n (map fst d) <-> exists r, In r rs /\ (n = forward r \/ n = reverse r).

(** The reactions in the order of their names in a sorted list. *)
Definition in_name_order (rs rs' : list str) : Prop :=
  Permutation rs rs' /\ StronglySorted (fun a b => before (forward a) (forward b)) rs'.

(** ** Production *)
(** Characters stripped from both ends. *)
Definition stripped_chars (chars s t : str) : Prop :=
  exists a b, s = a ++ t ++ b /\ (forall c, In c (a ++ b) -> In c chars) /\
    (forall c u, t = c :: u -> ~ In c chars) /\ (forall c u, t = u ++ [c] -> ~ In c chars).

(** The product is in the final state: [b] tells whether its text occurs there. *)
Definition makes (production rxn : str) (b : bool) : Prop :=
  exists states final, rxn_tolist rxn = Ok (states ++ [final]) /\
    (b = true <-> exists x y, final = x ++ production ++ y).
(** Sign with which the rate of a process counts. *)
Definition sign_of (production process : str) (z : Z) : Prop :=
  (exists r t, process = forward r /\ stripped_chars (L "(->)") process t /\
     ((makes production t true /\ z = 1%Z) \/ (makes production t false /\ z = 0%Z))) \/
  (exists r t, process = reverse r /\ stripped_chars (L "(<-)") process t /\
     ((makes production t true /\ z = (-1)%Z) \/ (makes production t false /\ z = 0%Z))) \/
  ((forall r, process <> forward r) /\ (forall r, process <> reverse r) /\ z = 0%Z).

(** Sum of [sign * rate] over the processes. *)
Fixpoint signed (signs : list Z) (rates : list Q) : Q :=
  match signs, rates with
  | s :: ss, r :: rs => (inject_Z s * r + signed ss rs)%Q
  | _, _ => 0%Q
  end.

(** All processes that count have a rate. *)
Definition counted (signs : list Z) (rates : list Q) : Prop :=
  forall k z, nth_error signs k = Some z -> z <> 0%Z -> (k < length rates)%nat.

(** Number of the molecules of a kind in the final state of a reaction. *)
Definition formed (rxn species site : str) (n : Z) : Prop :=
  exists states fs, rxn_formula_list rxn = Ok (states ++ [fs]) /\
    n = fold_right Z.add 0%Z (map f_stoich (filter (fun f => str_eqb (f_species f) species && str_eqb (f_site f) site) fs)).
(** ... and in its initial state. *)
Definition consumed (rxn species site : str) (n : Z) : Prop :=
  exists fs states, rxn_formula_list rxn = Ok (fs :: states) /\
    n = fold_right Z.add 0%Z (map f_stoich (filter (fun f => str_eqb (f_species f) species && str_eqb (f_site f) site) fs)).
