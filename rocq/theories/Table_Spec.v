(** How a reader takes a table of the log apart (C81). *)
From Coq Require Import String Ascii List ZArith NArith Bool Arith.
Import ListNotations.
From Verif Require Import PyBase.
Local Open Scope list_scope.
Local Open Scope nat_scope.

(** The lines of a text, each ended by a newline. *)
Definition newline : ascii := ascii_of_N 10.
Fixpoint lines_of (s : str) : list str :=
  match s with
  | [] => []
  | c :: t => if ascii_dec c newline then [] :: lines_of t
              else match lines_of t with [] => [[c]] | l :: ls => (c :: l) :: ls end
  end.

(** What stands in a line from column [a] on in [w] columns, without the blanks that follow. *)
Fixpoint unpadded (s : str) : str :=
  match s with
  | [] => []
  | c :: t => match unpadded t with
              | [] => if ascii_dec c " " then [] else [c]
              | u => c :: u
              end
  end.
Definition cell (a w : nat) (line : str) : str := unpadded (firstn w (skipn a line)).

(** A text that can be read back from a cell of [w] columns. *)
Definition fits (w : nat) (s : str) : Prop :=
  ~ In newline s /\ length s <= w /\ last s "x"%char <> " "%char.

(** The number of a row, with two digits at least. *)
Definition row_number (i : nat) : str :=
  if i <? 10 then "0"%char :: dec (N.of_nat i) else dec (N.of_nat i).

Definition rule (n : nat) : str := repeat "-"%char n.

(** A text is a table of names and values: title, heads, a line for each name that has a value. *)
Definition table_of {D} (num : D -> str) (title head1 head2 : str) (w len : nat) (names : list str) (xs : list D)
    (text : str) : Prop :=
  exists heads body,
    lines_of text = [title; []; heads; rule len] ++ body ++ [rule len] /\
    cell 1 10 heads = L "index" /\ cell 11 w heads = head1 /\ cell (11 + w) 30 heads = head2 /\
    length body = Nat.min (length names) (length xs) /\
    forall i name x, nth_error names i = Some name -> nth_error xs i = Some x ->
      exists line, nth_error body i = Some line /\ length line = 41 + w /\ cell 0 1 line = [] /\
        cell 1 10 line = row_number i /\ cell 11 w line = name /\ cell (11 + w) 30 line = num x.

(** The same for the large table of gases and intermediates: a block of lines for each gas. *)
Definition block_of {D} (num : D -> str) (gas : str) (names : list str) (xs : list D) (block : list str) : Prop :=
  length block = Nat.min (length names) (length xs) /\
  forall i name x, nth_error names i = Some name -> nth_error xs i = Some x ->
    exists line, nth_error block i = Some line /\
      cell 0 15 line = gas /\ cell 15 30 line = name /\ cell 45 30 line = num x.
Definition blocks_of {D} (num : D -> str) (gases names : list str) (matrix : list (list D)) (text : str) : Prop :=
  exists heads blocks,
    lines_of text = [L "Degree of Thermodynamic Rate Control:"; []; heads; rule 70] ++ concat blocks ++ [rule 70] /\
    cell 0 15 heads = L "gas" /\ cell 15 30 heads = L "intermediate" /\ cell 45 30 heads = L "XTRC" /\
    length blocks = Nat.min (length gases) (length matrix) /\
    forall i gas xs, nth_error gases i = Some gas -> nth_error matrix i = Some xs ->
      exists block, nth_error blocks i = Some block /\ block_of num gas names xs block.

(** The table of rates or rate constants; the first column has the width of the longest reaction
    and three more. *)
Definition longest (rxns : list str) (W : nat) : Prop :=
  (forall e, In e rxns -> length e <= W) /\ exists e, In e rxns /\ length e = W.
Definition rates_of {D} (num : D -> str) (fname rname : str) (rxns : list str) (f r : list D) (text : str) : Prop :=
  exists W heads body,
    longest rxns W /\
    lines_of text = [[]; []; heads; rule (S (length heads))] ++ body ++ [rule (S (length heads))] /\
    (6 <= W -> cell 0 (W + 3) heads = L "reactions" /\ cell (W + 3) 12 heads = fname /\ cell (W + 15) 12 heads = rname) /\
    length body = Nat.min (length rxns) (Nat.min (length f) (length r)) /\
    forall i e x y, nth_error rxns i = Some e -> nth_error f i = Some x -> nth_error r i = Some y ->
      exists line, nth_error body i = Some line /\
        cell 0 (W + 3) line = e /\ cell (W + 3) 12 line = num x /\ cell (W + 15) 12 line = num y /\
        cell W 3 line = [].
