(** What the built-in operations of PyBase.v do, in the words of Python's library reference. *)
From Coq Require Import String Ascii List ZArith Bool Sorted.
Import ListNotations.
From Verif Require Import PyBase PyExpr_Spec.
Local Open Scope list_scope.

(** The ASCII classes by code. *)
Definition digit_char_ok (c : ascii) : Prop := (48 <= nat_of_ascii c <= 57)%nat.
Definition upper_ok (c : ascii) : Prop := (65 <= nat_of_ascii c <= 90)%nat.
Definition lower_ok (c : ascii) : Prop := (97 <= nat_of_ascii c <= 122)%nat.
Definition blank_ok (c : ascii) : Prop :=
  In (nat_of_ascii c) [9; 10; 11; 12; 13; 28; 29; 30; 31; 32]%nat.

(** The text without the blanks around it. *)
Definition stripped_of (s t : str) : Prop :=
  exists a b, s = a ++ t ++ b /\ Forall blank_ok a /\ Forall blank_ok b /\
    (forall c r, t = c :: r -> ~ blank_ok c) /\ (forall c r, t = r ++ [c] -> ~ blank_ok c).

(** The texts one after the other with a separator between neighbours. *)
Inductive joined (sep : str) : list str -> str -> Prop :=
| jo_nil : joined sep [] []
| jo_one x : joined sep [x] x
| jo_more l s x : l <> [] -> joined sep l s -> joined sep (l ++ [x]) (s ++ sep ++ x).

(** The decimal text of an integer. *)
Definition decimal (z : Z) (t : str) : Prop :=
  (z = 0%Z /\ t = L "0") \/
  (exists c r, Forall digit_char_ok (c :: r) /\ c <> "0"%char /\
     ((t = c :: r /\ z = whole (c :: r)) \/ (t = "-"%char :: c :: r /\ z = (- whole (c :: r))%Z))).

(** Texts in the order of their characters' codes; a beginning comes before the whole. *)
Definition before (a b : str) : Prop :=
  (exists c t, b = a ++ c :: t) \/
  (exists p x y s t, a = p ++ x :: s /\ b = p ++ y :: t /\ (nat_of_ascii x < nat_of_ascii y)%nat).

(** The first place of a text in a list. *)
Definition first_place (x : str) (l : list str) (i : nat) : Prop :=
  exists a b, l = a ++ x :: b /\ ~ In x a /\ i = length a.

(** A dictionary after the assignment of a value: in the place of the key, or at the end. *)
Definition assigned {V} (d : dict V) (k : str) (v : V) (d' : dict V) : Prop :=
  (exists a w b, d = a ++ (k, w) :: b /\ ~ In k (map fst a) /\ d' = a ++ (k, v) :: b) \/
  (~ In k (map fst d) /\ d' = d ++ [(k, v)]).
