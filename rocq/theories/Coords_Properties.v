(** Property C50: coordinate groups.  Vocabulary: Coords_Spec.v. *)
From Coq Require Import String Ascii List ZArith QArith Qabs Bool Arith Lia.
From Verif Require Import PyBase PyBaseFacts Attr_Model Coords_Model Coords_Spec Coords_Proofs.
Import ListNotations.
Local Open Scope list_scope.
Local Open Scope nat_scope.

(** Adding a second group: the positions of the first are kept in place; then come exactly the
    entries of the second that coincide with no position of the first, in order; an element of the
    first group stays, except that a vacant one becomes the last non-vacant element which the
    second group has at a position coinciding first with this one. *)
Theorem C50_add : forall g1 g2, proper_group g1 ->
  exists g, add g1 g2 = Ok g /\ proper_group g /\
    firstn (length (coords g1)) (coords g) = coords g1 /\
    selects (fun p => far (fst p) (coords g1)) (entries g2) (skipn (length (coords g1)) (entries g)) /\
    forall i e, nth_error (elems g1) i = Some e ->
    exists e', nth_error (elems g) i = Some e' /\
      ((e <> vacant /\ e' = e) \/
       (e = vacant /\
        ((exists c, last_with (fun p => first_close (fst p) (coords g1) i /\ snd p <> vacant)
                      (entries g2) (c, e')) \/
         ((forall p, In p (entries g2) -> first_close (fst p) (coords g1) i -> snd p = vacant) /\
          e' = vacant)))).
Proof. exact add_exact. Qed.
Print Assumptions C50_add.

Definition slab : group :=
  {| coords := [[0; 0; 0]; [1 # 2; 1 # 2; 0]]%Q; elems := [L "V"; L "M"] |}.
Definition molecule : group :=
  {| coords := [[0; 1 # 100000; 0]; [1 # 2; 1 # 2; 0]; [0; 0; 3 # 2]]%Q; elems := [L "C"; L "O"; L "O"] |}.

Example C50_add_example : proper_group slab /\ proper_group molecule /\
  add slab molecule = Ok {| coords := [[0; 0; 0]; [1 # 2; 1 # 2; 0]; [0; 0; 3 # 2]]%Q;
                            elems := [L "C"; L "M"; L "O"] |}.
Proof. repeat split. Qed.

(** Groups without coinciding positions give a group without coinciding positions. *)
Theorem C50_apart : forall g1 g2 g, proper_group g1 -> proper_group g2 ->
  apart (coords g1) -> apart (coords g2) -> add g1 g2 = Ok g -> apart (coords g).
Proof. exact add_apart. Qed.
Print Assumptions C50_apart.

(** Adding a group to itself changes nothing; nor does adding the empty group on either side. *)
Theorem C50_self : forall g, proper_group g -> apart (coords g) -> add g g = Ok g.
Proof. exact add_self. Qed.
Print Assumptions C50_self.

Theorem C50_nothing : forall g, proper_group g ->
  add g {| coords := []; elems := [] |} = Ok g /\ add {| coords := []; elems := [] |} g = Ok g.
Proof. intros g P. split; [exact (add_nothing g P)|exact (nothing_add g P)]. Qed.
Print Assumptions C50_nothing.

Lemma far_by_component c d i x y : nth_error c i = Some x -> nth_error d i = Some y ->
  ((1 # 10000) < Qabs (x - y))%Q -> ~ close c d.
Proof. intros E1 E2 L H. apply (Qlt_not_le _ _ L). exact (H i x y E1 E2). Qed.

Example C50_self_example : proper_group slab /\ apart (coords slab).
Proof.
  split; [reflexivity|]. intros [|[|[|i]]] [|[|[|j]]] c d N E1 E2; try discriminate; try congruence;
    cbn in E1, E2; injection E1 as <-; injection E2 as <-;
    (eapply (far_by_component _ _ 0); [reflexivity|reflexivity|reflexivity]).
Qed.

(** The constructor. *)
Theorem C50_new : forall cs es,
  new (Some cs) (Some es) = (if length cs =? length es then Ok {| coords := cs; elems := es |} else Err ValueError) /\
  new (Some cs) None = Ok {| coords := cs; elems := map (fun _ => vacant) cs |} /\
  new None (Some es) = (match es with [] => Ok {| coords := []; elems := [] |} | _ => Err ValueError end) /\
  new None None = Ok {| coords := []; elems := [] |}.
Proof. exact new_exact. Qed.
Print Assumptions C50_new.

(** Appending: three floats in a list and a text (or nothing, for vacant) are stored at the end;
    anything else is a ValueError. *)
Theorem C50_append : forall g t u,
  match append g t u with
  | (Ok _, g1) => exists c e, good_coordinate t c /\ good_element u e /\
                  g1 = {| coords := coords g ++ [c]; elems := elems g ++ [e] |}
  | (Err x, g1) => x = ValueError /\
      (((forall c, ~ good_coordinate t c) /\ g1 = g) \/
       (exists c, good_coordinate t c /\ (forall e, ~ good_element u e) /\
          g1 = {| coords := coords g ++ [c]; elems := elems g |}))
  end.
Proof. exact append_exact. Qed.
Print Assumptions C50_append.

(** So a group stays proper under accepted appends. *)
Theorem C50_equal_lengths_partial : forall g t u g1, proper_group g -> append g t u = (Ok tt, g1) -> proper_group g1.
Proof.
  intros g t u g1 P E. pose proof (append_exact g t u) as X. rewrite E in X.
  destruct X as (c & e & _ & _ & ->). unfold proper_group in *. cbn. rewrite !app_length, P. reflexivity.
Qed.
Print Assumptions C50_equal_lengths_partial.

(** Refuted: a refused element leaves its position behind, and the group is no longer proper. *)
Theorem C50_equal_lengths_refuted : exists g t u g1, proper_group g /\
  append g t u = (Err ValueError, g1) /\ ~ proper_group g1.
Proof.
  exists slab, (TList [TFloat 1; TFloat 0; TFloat 0]), (TInt 6). eexists.
  split; [reflexivity|]. split; [reflexivity|]. unfold proper_group. cbn. discriminate.
Qed.
Print Assumptions C50_equal_lengths_refuted.

(** Extending works pair by pair, as far as the shorter of the two lists goes. *)
Theorem C50_extend : forall g l es cs xs,
  let ps := combine l (match es with None => map (fun _ => TStr vacant) l | Some e => e end) in
  Forall2 good_coordinate (map fst ps) cs -> Forall2 good_element (map snd ps) xs ->
  extend g l es = (Ok tt, {| coords := coords g ++ cs; elems := elems g ++ xs |}).
Proof.
  intros g l es cs xs ps F1 F2. unfold extend.
  replace (match es with None => repeat (TStr (L "V")) (length l) | Some e => e end)
    with (match es with None => map (fun _ => TStr vacant) l | Some e => e end).
  - exact (extend_complete g ps cs xs F1 F2).
  - destruct es; [reflexivity|]. clear. induction l as [|x l IH]; [reflexivity|]. cbn [map repeat length]. now rewrite IH.
Qed.
Print Assumptions C50_extend.

Theorem C50_extend_only : forall g l es g1,
  let ps := combine l (match es with None => map (fun _ => TStr vacant) l | Some e => e end) in
  extend g l es = (Ok tt, g1) ->
  exists cs xs, Forall2 good_coordinate (map fst ps) cs /\ Forall2 good_element (map snd ps) xs /\
    g1 = {| coords := coords g ++ cs; elems := elems g ++ xs |}.
Proof.
  intros g l es g1 ps. unfold extend.
  replace (match es with None => repeat (TStr (L "V")) (length l) | Some e => e end)
    with (match es with None => map (fun _ => TStr vacant) l | Some e => e end).
  - exact (extend_ok g l _ g1).
  - destruct es; [reflexivity|]. clear. induction l as [|x l IH]; [reflexivity|]. cbn [map repeat length]. now rewrite IH.
Qed.
Print Assumptions C50_extend_only.

(** When a pair is refused, those before it stay in the group. *)
Theorem C50_extend_stops : forall g l es x g1,
  let ps := combine l (match es with None => map (fun _ => TStr vacant) l | Some e => e end) in
  extend g l es = (Err x, g1) ->
  exists a c e b cs xs, ps = a ++ (c, e) :: b /\
    Forall2 good_coordinate (map fst a) cs /\ Forall2 good_element (map snd a) xs /\
    append {| coords := coords g ++ cs; elems := elems g ++ xs |} c e = (Err x, g1).
Proof.
  intros g l es x g1 ps. unfold extend.
  replace (match es with None => repeat (TStr (L "V")) (length l) | Some e => e end)
    with (match es with None => map (fun _ => TStr vacant) l | Some e => e end).
  - exact (extend_stops g ps x g1).
  - destruct es; [reflexivity|]. clear. induction l as [|y l IH]; [reflexivity|]. cbn [map repeat length]. now rewrite IH.
Qed.
Print Assumptions C50_extend_stops.

Example C50_extend_example :
  extend slab [TList [TFloat 1; TFloat 0; TFloat 0]; TList [TFloat 2; TFloat 0; TFloat 0]] None
  = (Ok tt, {| coords := coords slab ++ [[1; 0; 0]; [2; 0; 0]]%Q; elems := elems slab ++ [L "V"; L "V"] |}) /\
  fst (extend slab [TList [TFloat 1; TFloat 0; TFloat 0]; TList [TFloat 2; TInt 0; TFloat 0]] None) = Err ValueError.
Proof. split; reflexivity. Qed.

(** Moving adds the vector to every position and keeps the elements; the group itself is not
    changed.  Without a vector it moves by zero. *)
Theorem C50_move : forall g x y z, proper_group g -> spatial g -> coords g <> [] ->
  move g (Some (TList [TFloat x; TFloat y; TFloat z]))
  = Ok {| coords := map (shifted [x; y; z]) (coords g); elems := elems g |} /\
  move g None = move g (Some (TList [TFloat 0; TFloat 0; TFloat 0])).
Proof. intros g x y z P S N. split; [exact (move_exact g x y z P S N)|exact (move_default g P S N)]. Qed.
Print Assumptions C50_move.

Theorem C50_move_arguments : forall g v,
  (v <> TNone -> (forall l, v <> TList l) -> (forall l, v <> TTuple l) -> (forall t, v <> TStr t) ->
   (forall d, v <> TDict d) -> move g (Some v) = Err TypeError) /\
  (forall l, v = TTuple l -> length l <> 3 -> move g (Some v) = Err ValueError) /\
  (forall l, v = TTuple l -> length l = 3 -> move g (Some v) = move g (Some (TList l))) /\
  move g (Some TNone) = move g None.
Proof.
  intros g v. split; [exact (proj1 (move_refused g v))|]. split; [exact (proj2 (move_refused g v))|].
  split; [intros l -> E; exact (move_tuple g l E)|reflexivity].
Qed.
Print Assumptions C50_move_arguments.

(** Which lists of floats are accepted: three numbers, or one for all three axes. *)
Theorem C50_move_lengths : forall g l, proper_group g -> spatial g -> coords g <> [] ->
  move g (Some (TList (map TFloat l))) =
  match l with
  | [x] => Ok {| coords := map (shifted [x; x; x]) (coords g); elems := elems g |}
  | [x; y; z] => Ok {| coords := map (shifted [x; y; z]) (coords g); elems := elems g |}
  | _ => Err ValueError
  end.
Proof. exact move_lengths. Qed.
Print Assumptions C50_move_lengths.

(** Moving commutes with adding. *)
Theorem C50_move_add : forall x y z g1 g2 g m1 m2,
  let v := Some (TList [TFloat x; TFloat y; TFloat z]) in
  proper_group g1 -> proper_group g2 -> spatial g1 -> spatial g2 -> coords g1 <> [] -> coords g2 <> [] ->
  add g1 g2 = Ok g -> move g1 v = Ok m1 -> move g2 v = Ok m2 -> add m1 m2 = move g v.
Proof. exact move_add. Qed.
Print Assumptions C50_move_add.

Example C50_move_example : spatial slab /\ spatial molecule /\
  exists m, move slab (Some (TList [TFloat 0; TFloat 0; TFloat (1 # 2)])) = Ok m /\ elems m = elems slab /\
    map (map Qred) (coords m) = [[0; 0; 1 # 2]; [1 # 2; 1 # 2; 1 # 2]]%Q.
Proof.
  split; [intros c [<-|[<-|[]]]; reflexivity|]. split; [intros c [<-|[<-|[<-|[]]]]; reflexivity|].
  eexists. split; [reflexivity|]. split; reflexivity.
Qed.

(** Refuted: a list is accepted whatever its length; one number moves along all three axes. *)
Theorem C50_move_check_refuted : exists g l m, proper_group g /\ length l <> 3 /\
  move g (Some (TList l)) = Ok m /\ map (map Qred) (coords m) = [[1; 1; 1]; [3 # 2; 3 # 2; 1]]%Q.
Proof.
  exists slab, [TFloat 1]. eexists. split; [reflexivity|]. split; [discriminate|]. split; reflexivity.
Qed.
Print Assumptions C50_move_check_refuted.

(** Refuted: the empty group cannot be moved, except by a list of at most one number. *)
Theorem C50_move_empty_refuted : forall l,
  move {| coords := []; elems := [] |} (Some (TList (map TFloat l))) =
  if length l <=? 1 then Ok {| coords := []; elems := [] |} else Err ValueError.
Proof. exact move_nothing. Qed.
Print Assumptions C50_move_empty_refuted.

(** Refuted: positions are compared with the first group only, so that coinciding positions inside
    the second group are all kept. *)
Theorem C50_duplicates_refuted : exists g1 g2 g, proper_group g1 /\ proper_group g2 /\ apart (coords g1) /\
  add g1 g2 = Ok g /\ ~ apart (coords g).
Proof.
  exists slab, {| coords := [[0; 0; 3 # 2]; [0; 0; 3 # 2]]%Q; elems := [L "O"; L "N"] |}. eexists.
  split; [reflexivity|]. split; [reflexivity|]. split; [exact (proj2 C50_self_example)|]. split; [reflexivity|].
  intros A. apply (A 2 3 [0; 0; 3 # 2]%Q [0; 0; 3 # 2]%Q); [discriminate|reflexivity|reflexivity|].
  intros [|[|[|[|i]]]] x y E1 E2; try discriminate; cbn in E1, E2; injection E1 as <-; injection E2 as <-;
    discriminate.
Qed.
Print Assumptions C50_duplicates_refuted.
