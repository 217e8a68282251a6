(** Vocabulary for coordinate groups. *)
From Coq Require Import String Ascii List ZArith QArith Qabs Bool.
From Verif Require Import PyBase Attr_Model Coords_Model.
Import ListNotations.
Local Open Scope list_scope.
Local Open Scope nat_scope.

(** A group whose positions and elements correspond. *)
Definition proper_group (g : group) : Prop := length (coords g) = length (elems g).

(** Coinciding positions: no component differs by more than 1/10000. *)
Definition close (c d : list Q) : Prop :=
  forall i x y, nth_error c i = Some x -> nth_error d i = Some y -> (Qabs (x - y) <= 1 # 10000)%Q.

(** Position [c] coincides first with number [i] of the positions [l]. *)
Definition first_close (c : list Q) (l : list (list Q)) (i : nat) : Prop :=
  (exists d, nth_error l i = Some d /\ close c d) /\
  forall j d, j < i -> nth_error l j = Some d -> ~ close c d.

Definition far (c : list Q) (l : list (list Q)) : Prop := forall d, In d l -> ~ close c d.

(** The entries of [l] with the property, in order. *)
Inductive selects {A} (P : A -> Prop) : list A -> list A -> Prop :=
| sel_nil : selects P [] []
| sel_take x l m : P x -> selects P l m -> selects P (x :: l) (x :: m)
| sel_skip x l m : ~ P x -> selects P l m -> selects P (x :: l) m.

(** [x] is the last entry of [l] with the property. *)
Definition last_with {A} (P : A -> Prop) (l : list A) (x : A) : Prop :=
  exists a b, l = a ++ x :: b /\ P x /\ forall y, In y b -> ~ P y.

Definition vacant : str := L "V".

(** A position of three components, moved by a vector. *)
Definition shifted (v c : list Q) : list Q := map (fun p => fst p + snd p)%Q (combine c v).

(** The entries of a group. *)
Definition entries (g : group) : list (list Q * str) := combine (coords g) (elems g).

(** No two positions of the list coincide. *)
Definition apart (l : list (list Q)) : Prop :=
  forall i j c d, i <> j -> nth_error l i = Some c -> nth_error l j = Some d -> ~ close c d.

(** What [append] accepts as a position and as an element, and what it stores. *)
Definition good_coordinate (t : tree) (c : list Q) : Prop :=
  exists x y z, t = TList [TFloat x; TFloat y; TFloat z] /\ c = [x; y; z].
Definition good_element (t : tree) (e : str) : Prop := (t = TNone /\ e = vacant) \/ t = TStr e.

(** All positions have three components. *)
Definition spatial (g : group) : Prop := forall c, In c (coords g) -> length c = 3.
