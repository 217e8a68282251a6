(** Lemmas: changes in place (C47). *)
From Coq Require Import String Ascii List ZArith QArith Bool Arith Lia.
From Verif Require Import PyBase PyBaseFacts Attr_Model.
Import ListNotations.
Local Open Scope list_scope.
Local Open Scope nat_scope.

Lemma mutable_iff v : mutable v = true <->
  (exists l, v = TList l) \/ (exists l, v = TDict l) \/ (exists c, v = TObj c).
Proof.
  destruct v; cbn [mutable]; split; intro H; try discriminate; try reflexivity; eauto;
    destruct H as [[? H]|[[? H]|[? H]]]; discriminate.
Qed.

Lemma update_nth {A} (d x : A) : forall l p p', p < length l ->
  nth p' (firstn p l ++ x :: skipn (S p) l) d = if p' =? p then x else nth p' l d.
Proof.
  induction l as [|y l IH]; intros p p' H; [cbn in H; lia|].
  destruct p as [|p]; [destruct p'; reflexivity|]. destruct p' as [|p']; [reflexivity|].
  cbn in H. apply (IH p p'). lia.
Qed.
Lemma update_length {A} (x : A) : forall l p, p < length l -> length (firstn p l ++ x :: skipn (S p) l) = length l.
Proof.
  induction l as [|y l IH]; intros p H; [cbn in H; lia|]. destruct p as [|p]; [reflexivity|].
  cbn in H. change (S (length (firstn p l ++ x :: skipn (S p) l)) = S (length l)). now rewrite IH by lia.
Qed.

Lemma change_in_place : forall table ctor w p t,
  let '(r, w1) := step table ctor w (Change p t) in
  let changeable := fun v => (exists l, v = TList l) \/ (exists l, v = TDict l) \/ (exists c, v = TObj c) in
  (r = Ok None /\ p < length (heap w) /\ changeable (contents w p) /\ changeable t /\
   contents w1 p = t /\ (forall p', p' <> p -> contents w1 p' = contents w p') /\
   length (heap w1) = length (heap w) /\ objects w1 = objects w) \/
  (r = Err AttributeError /\ w1 = w /\
   ~ (p < length (heap w) /\ changeable (contents w p) /\ changeable t)).
Proof.
  intros table ctor w p t. cbn [step].
  destruct ((p <? length (heap w)) && mutable (contents w p) && mutable t) eqn:E.
  - left. apply andb_true_iff in E as [E E3]. apply andb_true_iff in E as [E1 E2].
    apply Nat.ltb_lt in E1. apply mutable_iff in E2, E3.
    split; [reflexivity|]. split; [exact E1|]. split; [exact E2|]. split; [exact E3|].
    unfold contents, overwrite. cbn [heap objects].
    split; [rewrite update_nth, Nat.eqb_refl by exact E1; reflexivity|].
    split; [|split; [now apply update_length|reflexivity]].
    intros p' N. rewrite update_nth by exact E1. apply Nat.eqb_neq in N. now rewrite N.
  - right. split; [reflexivity|]. split; [reflexivity|]. intros (H1 & H2 & H3).
    apply mutable_iff in H2, H3. apply Nat.ltb_lt in H1. now rewrite H1, H2, H3 in E.
Qed.
