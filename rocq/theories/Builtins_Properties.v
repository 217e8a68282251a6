(** C86: the built-in operations on texts, lists and dictionaries that the code relies on. *)
From Coq Require Import String Ascii List ZArith Bool Sorted.
Import ListNotations.
From Verif Require Import PyBase PyBaseFacts PyExpr_Spec PyExpr_Sound PyBase_Spec PyBase_Sound.
Local Open Scope list_scope.

(** The classes of characters of the regular expressions and of [str.strip]. *)
Theorem C86_classes : forall c, (is_digit c = true <-> digit_char_ok c) /\ (is_upper c = true <-> upper_ok c) /\
  (is_lower c = true <-> lower_ok c) /\ (is_letter c = true <-> upper_ok c \/ lower_ok c) /\
  (is_word c = true <-> upper_ok c \/ lower_ok c \/ digit_char_ok c \/ c = "_"%char) /\
  (is_space c = true <-> blank_ok c).
Proof. exact classes. Qed.
Print Assumptions C86_classes.

Theorem C86_strip : forall s t, strip s = t <-> stripped_of s t.
Proof. exact strip_iff. Qed.
Print Assumptions C86_strip.

Theorem C86_join : forall sep l s, join sep l = s <-> joined sep l s.
Proof. exact join_iff. Qed.
Print Assumptions C86_join.

Theorem C86_split : forall c s l, split_on c s = l <->
  l <> [] /\ Forall (fun w => ~ In c w) l /\ joined [c] l s.
Proof. exact split_iff. Qed.
Print Assumptions C86_split.

(** Digits are read by their places; an integer is written in one way, without leading zeros. *)
Theorem C86_read_integer : forall s, int_of s = whole s.
Proof. exact (fun s => eq_sym (whole_int s)). Qed.
Print Assumptions C86_read_integer.

Theorem C86_write_integer : forall z t, str_of_Z z = t <-> decimal z t.
Proof. exact str_of_Z_iff. Qed.
Print Assumptions C86_write_integer.

(** Dictionaries keep the places of their keys. *)
Theorem C86_lookup : forall V (d : dict V) k,
  (forall v, dindex d k = Ok v <-> exists a b, d = a ++ (k, v) :: b /\ ~ In k (map fst a)) /\
  (forall e, dindex d k = Err e <-> e = KeyError /\ ~ In k (map fst d)).
Proof. exact (fun V => @dindex_iff V). Qed.
Print Assumptions C86_lookup.

Theorem C86_assign : forall V (d : dict V) k v d', dset d k v = d' <-> assigned d k v d'.
Proof. exact (fun V => @dset_iff V). Qed.
Print Assumptions C86_assign.

Theorem C86_dict_equal : forall V (veqb : V -> V -> bool) (d1 d2 : dict V),
  (forall a b, veqb a b = true <-> a = b) -> NoDup (map fst d1) -> NoDup (map fst d2) ->
  (dict_eqb veqb d1 d2 = true <-> forall k, dget d1 k = dget d2 k).
Proof. exact (fun V => @dict_eqb_spec V). Qed.
Print Assumptions C86_dict_equal.

(** [sorted(set(l))] *)
Theorem C86_sorted : forall l r, sorted_set l = r <-> StronglySorted before r /\ forall x, In x r <-> In x l.
Proof. exact sorted_set_iff. Qed.
Print Assumptions C86_sorted.

Theorem C86_index : forall x l, (forall i, index_of x l = Some i <-> first_place x l i) /\
  (index_of x l = None <-> ~ In x l).
Proof. exact (fun x l => conj (index_of_iff x l) (index_of_None x l)). Qed.
Print Assumptions C86_index.

Theorem C86_element : forall A (l : list A) i,
  (forall x, lindex l i = Ok x <-> exists a b, l = a ++ x :: b /\ length a = i) /\
  (forall e, lindex l i = Err e <-> e = IndexError /\ (length l <= i)%nat).
Proof. exact (fun A => @lindex_iff A). Qed.
Print Assumptions C86_element.

Theorem C86_first : forall A (l : list A), (forall x, lfirst l = Ok x <-> exists b, l = x :: b) /\
  (forall e, lfirst l = Err e <-> e = IndexError /\ l = []).
Proof. exact (fun A => @lfirst_iff A). Qed.
Print Assumptions C86_first.

Theorem C86_last : forall A (l : list A), (forall x, llast l = Ok x <-> exists a, l = a ++ [x]) /\
  (forall e, llast l = Err e <-> e = IndexError /\ l = []).
Proof. exact (fun A => @llast_iff A). Qed.
Print Assumptions C86_last.

Theorem C86_repeat : forall A n (l : list A), repeat_list n l = concat (repeat l n).
Proof. exact (fun A => @repeat_list_iff A). Qed.
Print Assumptions C86_repeat.

(** A loop ends with the exception of the first element that raises one. *)
Theorem C86_loop : forall A B (f : A -> res B) l,
  (forall ys, mapM f l = Ok ys <-> Forall2 (fun x y => f x = Ok y) l ys) /\
  (forall e, mapM f l = Err e <->
     exists a x b ys, l = a ++ x :: b /\ Forall2 (fun x y => f x = Ok y) a ys /\ f x = Err e).
Proof. exact (fun A B f l => conj (mapM_ok_iff f l) (mapM_err_iff f l)). Qed.
Print Assumptions C86_loop.

(** ** Cases *)
Example C86_ex_strip : strip (L "  CO_g + *_s ") = L "CO_g + *_s".
Proof. reflexivity. Qed.
Example C86_ex_split : split_on "+" (L "CO_g + *_s") = [L "CO_g "; L " *_s"].
Proof. reflexivity. Qed.
Example C86_ex_join : joined (L ", ") [L "a"; L "b"; L "c"] (L "a, b, c").
Proof. apply join_iff. reflexivity. Qed.
Example C86_ex_write : decimal (-120) (L "-120") /\ decimal 0 (L "0").
Proof. split; apply str_of_Z_iff; reflexivity. Qed.
Example C86_ex_assign : dset [(L "a", 1); (L "b", 2)] (L "a") 3 = [(L "a", 3); (L "b", 2)] /\
  dset [(L "a", 1)] (L "b") 2 = [(L "a", 1); (L "b", 2)].
Proof. split; reflexivity. Qed.
Example C86_ex_lookup : dindex [(L "a", 1)] (L "b") = Err KeyError.
Proof. reflexivity. Qed.
Example C86_ex_equal : dict_eqb Nat.eqb [(L "a", 1); (L "b", 2)] [(L "b", 2); (L "a", 1)] = true.
Proof. reflexivity. Qed.
Example C86_ex_sorted : sorted_set [L "O"; L "CO"; L "C"; L "O"] = [L "C"; L "CO"; L "O"].
Proof. reflexivity. Qed.
Example C86_ex_before : before (L "C") (L "CO") /\ before (L "CO") (L "O").
Proof. split; apply str_lt_before; reflexivity. Qed.
Example C86_ex_index : first_place (L "b") [L "a"; L "b"; L "b"] 1.
Proof. apply index_of_iff. reflexivity. Qed.
Example C86_ex_loop : mapM (fun s => dindex [(L "a", 1)] s) [L "a"; L "c"; L "d"] = Err KeyError.
Proof. reflexivity. Qed.
