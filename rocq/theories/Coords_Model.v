(** Model of [CoordsGroup], scaks/utilities/coordinate_utilities.py 9-165.

    Simplifications.  Floats are rationals and sums are exact.  The coordinates given to the
    constructor are lists of numbers of any length (they are not checked by the code).  A group
    owns its lists: the constructor keeps, and [coordinates()] and [elements()] return, the list
    objects themselves; changes made by the caller to these are not modelled.  The arguments of
    [append], [extend] and [move] are arbitrary values ([tree] of Attr_Model.v). *)
From Coq Require Import String Ascii List ZArith QArith Qabs Bool.
From Verif Require Import PyBase Attr_Model.
Import ListNotations.
Local Open Scope list_scope.
Local Open Scope nat_scope.

(** [self.__coords] and [self.__elements], coordinate_utilities.py 22-37. *)
Record group := { coords : list (list Q); elems : list str }.

(** [CoordsGroup.tolerance], 20 *)
Definition tolerance : Q := 1 # 10000.

(** [__init__], 22-37. *)
Definition new (cs : option (list (list Q))) (es : option (list str)) : res group :=
  let c := match cs with None => [] | Some c => c end in
  let e := match es with None => repeat (L "V") (length c) | Some e => e end in
  if Nat.eqb (length c) (length e) then Ok {| coords := c; elems := e |} else Err ValueError.

(** [__check_coordinate], 39-51: a list of three floats. *)
Definition float_of (t : tree) : res Q := match t with TFloat q => Ok q | _ => Err ValueError end.
(** [__check_coordinate], coordinate_utilities.py 39-51. *)
Definition check_coordinate (t : tree) : res (list Q) :=
  match t with
  | TList l => if Nat.eqb (length l) 3 then mapM float_of l else Err ValueError
  | _ => Err ValueError
  end.

(** [append], 53-72: the coordinate is appended before the element is looked at. *)
Definition append (g : group) (c e : tree) : res unit * group :=
  match check_coordinate c with
  | Err x => (Err x, g)
  | Ok q =>
      let cs := coords g ++ [q] in
      match e with
      | TNone => (Ok tt, {| coords := cs; elems := elems g ++ [L "V"] |})
      | TStr s => (Ok tt, {| coords := cs; elems := elems g ++ [s] |})
      | _ => (Err ValueError, {| coords := cs; elems := elems g |})
      end
  end.

(** [extend], 74-87. *)
Fixpoint append_all (g : group) (l : list (tree * tree)) : res unit * group :=
  match l with
  | [] => (Ok tt, g)
  | (c, e) :: t =>
      match append g c e with
      | (Ok _, g1) => append_all g1 t
      | (Err x, g1) => (Err x, g1)
      end
  end.
(** [extend], coordinate_utilities.py 74-87. *)
Definition extend (g : group) (cs : list tree) (es : option (list tree)) : res unit * group :=
  let e := match es with None => repeat (TStr (L "V")) (length cs) | Some e => e end in
  append_all g (combine cs e).

(** [np.array(move_vector)] for a list or tuple of numbers. coordinate_utilities.py 105. *)
Definition number_of (t : tree) : res Q := match number t with Some q => Ok q | None => Err Unsupported end.

(** The sum of an array of rows and a vector with numpy's broadcasting: equal lengths, or one of
    the two has length one.  [np.array([])] has one dimension of length zero.
    coordinate_utilities.py 107. *)
Definition add_row (v row : list Q) : res (list Q) :=
  if Nat.eqb (length v) (length row) then Ok (map (fun p => fst p + snd p)%Q (combine row v))
  else match v, row with
       | [x], _ => Ok (map (fun r => r + x)%Q row)
       | _, [r] => Ok (map (fun x => r + x)%Q v)
       | _, _ => Err ValueError
       end.
(** [np.array(self.__coords)] has two dimensions, coordinate_utilities.py 106. *)
Definition same_lengths (rows : list (list Q)) : bool :=
  match rows with
  | [] => true
  | r :: t => forallb (fun x => Nat.eqb (length x) (length r)) t
  end.

(** [move], 89-109.  The test at 102 refuses only what is not a list and has not three entries;
    something without a length is a TypeError.  Rows of different lengths are not modelled. *)
Definition move (g : group) (vector : option tree) : res group :=
  do v <- (match vector with
           | None | Some TNone => Ok [0; 0; 0]%Q
           | Some (TList l) => mapM number_of l
           | Some (TTuple l) => if Nat.eqb (length l) 3 then mapM number_of l else Err ValueError
           | Some (TStr _) | Some (TDict _) => Err Unsupported
           | Some _ => Err TypeError
           end);
  do rows <- (match coords g with
              | [] => match v with [] | [_] => Ok [] | _ => Err ValueError end
              | c => if same_lengths c then mapM (add_row v) c else Err Unsupported
              end);
  new (Some rows) (Some (elems g)).

(** [__compare_coords], 111-119. *)
Fixpoint compare_coords (c1 c2 : list Q) : bool :=
  match c1, c2 with
  | x :: a, y :: b => if Qle_bool (Qabs (x - y)) tolerance then compare_coords a b else false
  | _, _ => true
  end.

(** The inner loop of [__add__], 133-145: the place of the first equal coordinate. *)
Fixpoint find_ref (c : list Q) (idx : nat) (refs : list (list Q * str)) : option (nat * str) :=
  match refs with
  | [] => None
  | (r, e) :: t => if compare_coords c r then Some (idx, e) else find_ref c (S idx) t
  end.

(** [merged_elems[idx] = elem] coordinate_utilities.py 142. *)
Fixpoint set_nth (l : list str) (i : nat) (x : str) : list str :=
  match l, i with
  | [], _ => []
  | _ :: t, O => x :: t
  | y :: t, S j => y :: set_nth t j x
  end.

(** The outer loop, 130-149. *)
Fixpoint merge (refs : list (list Q * str)) (l : list (list Q * str)) (mc : list (list Q)) (me : list str)
  : list (list Q) * list str :=
  match l with
  | [] => (mc, me)
  | (c, e) :: t =>
      match find_ref c 0 refs with
      | Some (idx, ref) =>
          let me' := if negb (str_eqb e ref) && str_eqb ref (L "V") then set_nth me idx e else me in
          merge refs t mc me'
      | None => merge refs t (mc ++ [c]) (me ++ [e])
      end
  end.

(** [__add__], 121-153. *)
Definition add (g1 g2 : group) : res group :=
  let (mc, me) := merge (combine (coords g1) (elems g1)) (combine (coords g2) (elems g2)) (coords g1) (elems g1) in
  new (Some mc) (Some me).
