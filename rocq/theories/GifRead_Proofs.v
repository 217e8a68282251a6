(** Lemmas on reading animated pictures (C104). *)
From Coq Require Import List Arith Lia.
Import ListNotations.
From Verif Require Import PyBase PyBaseFacts GifRead_Model GifRead_Spec.
Local Open Scope list_scope.

Section Read.
Variables array picture : Type.
Variable from_array : array -> res picture.
Notation read := (read_gif_file array picture from_array).
Notation loop := (read_loop array).

Lemma loop_all f l1 l2 fuel acc : l2 <> [] -> length l2 <= fuel -> starts_with f (l1 ++ l2) ->
  ends_at f (length (l1 ++ l2)) -> loop fuel f (length l1) acc = Returned (acc ++ l2).
Proof.
  revert l1 fuel acc. induction l2 as [|a l2 IH]; [congruence|]. intros l1 fuel acc _ F S1 E.
  destruct fuel as [|fuel]; [cbn in F; lia|]. cbn [read_loop].
  destruct (S1 (length l1) a) as [[d C] _]; [rewrite nth_error_app2, Nat.sub_diag; auto|]. rewrite C.
  destruct l2 as [|b l2].
  - red in E. rewrite app_length in E. cbn [length] in E. rewrite Nat.add_1_r in E. now rewrite E.
  - destruct (S1 (S (length l1)) b) as [_ K].
    { rewrite nth_error_app2 by lia. replace (S (length l1) - length l1) with 1 by lia. reflexivity. }
    rewrite K. replace (l1 ++ a :: b :: l2) with ((l1 ++ [a]) ++ b :: l2) in * by (now rewrite <- app_assoc).
    specialize (IH (l1 ++ [a]) fuel (acc ++ [a])). rewrite (app_length l1 [a]) in IH. cbn [length] in IH. rewrite Nat.add_1_r in IH.
    rewrite IH; auto; [now rewrite <- app_assoc|discriminate|cbn [length] in *; lia].
Qed.

Lemma read_all f l fuel : holds f l -> l <> [] -> length l <= fuel ->
  read true true true (Ok f) fuel true = Returned (Arrays l) /\
  forall ps, mapM from_array l = Ok ps -> read true true true (Ok f) fuel false = Returned (Pictures ps).
Proof.
  intros [S1 E] N F. unfold read_gif_file. cbn [negb].
  assert (K : seek_to f 0 = Ok tt).
  { destruct l as [|a l]; [congruence|]. now destruct (S1 0 a eq_refl). }
  rewrite K. change 0 with (@length array []). rewrite (loop_all f [] l fuel []); auto. cbn [app]. split; [reflexivity|]. intros ps ->. reflexivity.
Qed.

(** Whatever is returned was read, one after the other, up to an EOFError. *)
Lemma loop_sound f fuel i acc l : seek_to f i = Ok tt -> loop fuel f i acc = Returned l -> exists l2, l = acc ++ l2 /\
  (forall j a, nth_error l2 j = Some a -> (exists d, convert_at f (i + j) = Ok (S d, a)) /\ seek_to f (i + j) = Ok tt) /\
  (seek_to f (i + length l2) = Err EOFError \/
   seek_to f (i + length l2) = Ok tt /\ convert_at f (i + length l2) = Err EOFError).
Proof.
  revert i acc. induction fuel as [|fuel IH]; intros i acc K H; [discriminate|]. cbn [read_loop] in H.
  destruct (convert_at f i) as [[[|d] a]|e] eqn:C; [discriminate| |].
  - destruct (seek_to f (S i)) as [[]|e] eqn:E.
    + destruct (IH (S i) (acc ++ [a]) E H) as (l2 & -> & A & B). exists (a :: l2).
      split; [now rewrite <- app_assoc|]. cbn [length]. replace (i + S (length l2)) with (S i + length l2) by lia.
      split; [|exact B]. intros [|j] b Hb; cbn in Hb.
      * injection Hb as <-. rewrite Nat.add_0_r. split; [now exists d|exact K].
      * replace (i + S j) with (S i + j) by lia. now apply A.
    + destruct e; try discriminate. injection H as <-. exists [a]. split; [reflexivity|]. cbn [length].
      rewrite Nat.add_1_r. split; [|now left]. intros [|[|j]] b Hb; try discriminate. injection Hb as <-.
      rewrite Nat.add_0_r. split; [now exists d|exact K].
  - destruct e; try discriminate. injection H as <-. exists []. split; [now rewrite app_nil_r|]. cbn [length].
    rewrite Nat.add_0_r. split; [intros [|?] ? ?; discriminate|]. now right.
Qed.

Lemma read_sound f fuel l : read true true true (Ok f) fuel true = Returned (Arrays l) ->
  starts_with f l /\ (ends_at f (length l) \/ cut_off f (length l)).
Proof.
  unfold read_gif_file. cbn [negb]. destruct (seek_to f 0) as [[]|] eqn:K; [|discriminate].
  destruct (loop fuel f 0 []) as [l'| |] eqn:E; try discriminate. intro H. injection H as <-.
  destruct (loop_sound f fuel 0 [] l' K E) as (l2 & -> & A & B). cbn [app] in *. split; [exact A|exact B].
Qed.

(** Any other exception stops it. *)
Lemma loop_raises f l1 l2 fuel acc e : length l2 < fuel -> starts_with f (l1 ++ l2) -> e <> EOFError ->
  (l2 <> [] /\ seek_to f (length (l1 ++ l2)) = Err e \/
   seek_to f (length (l1 ++ l2)) = Ok tt /\ convert_at f (length (l1 ++ l2)) = Err e) ->
  loop fuel f (length l1) acc = Raised e.
Proof.
  revert l1 fuel acc. induction l2 as [|a l2 IH]; intros l1 fuel acc F S1 N H.
  - destruct fuel as [|fuel]; [cbn in F; lia|]. rewrite app_nil_r in H.
    destruct H as [[? _]|[_ H]]; [congruence|]. cbn [read_loop]. rewrite H. now destruct e.
  - destruct fuel as [|fuel]; [cbn in F; lia|]. cbn [read_loop].
    destruct (S1 (length l1) a) as [[d C] _]; [rewrite nth_error_app2, Nat.sub_diag; auto|]. rewrite C.
    specialize (IH (l1 ++ [a]) fuel (acc ++ [a])). rewrite <- app_assoc in IH. cbn [app] in IH.
    rewrite (app_length l1 [a]) in IH. cbn [length] in IH, F. rewrite Nat.add_1_r in IH.
    destruct l2 as [|b l2].
    + rewrite app_length in H. cbn [length] in H. rewrite Nat.add_1_r in H.
      destruct H as [[_ H]|[H1 H2]]; [rewrite H; now destruct e|rewrite H1].
      apply IH; auto; [cbn; lia|]. right. rewrite app_length. cbn [length]. rewrite Nat.add_1_r. auto.
    + destruct (S1 (S (length l1)) b) as [_ K].
      { rewrite nth_error_app2 by lia. replace (S (length l1) - length l1) with 1 by lia. reflexivity. }
      rewrite K. apply IH; auto; [lia|]. destruct H as [[_ H]|H]; [left; split; [discriminate|exact H]|now right].
Qed.

Lemma read_raises f l fuel e b : length l < fuel -> starts_with f l -> e <> EOFError -> seek_to f 0 = Ok tt ->
  (l <> [] /\ seek_to f (length l) = Err e \/ seek_to f (length l) = Ok tt /\ convert_at f (length l) = Err e) ->
  read true true true (Ok f) fuel b = Raised e.
Proof.
  intros F S1 N K H. unfold read_gif_file. cbn [negb]. rewrite K.
  change 0 with (@length array []). now rewrite (loop_raises f [] l fuel [] e).
Qed.

Lemma loop_reach f l2 l1 fuel acc : starts_with f (l1 ++ l2) -> seek_to f (length (l1 ++ l2)) = Ok tt ->
  loop (length l2 + fuel) f (length l1) acc = loop fuel f (length (l1 ++ l2)) (acc ++ l2).
Proof.
  revert l1 acc. induction l2 as [|a l2 IH]; intros l1 acc S1 E; [now rewrite !app_nil_r|].
  cbn [length Nat.add read_loop].
  destruct (S1 (length l1) a) as [[d C] _]; [rewrite nth_error_app2, Nat.sub_diag; auto|]. rewrite C.
  assert (K : seek_to f (S (length l1)) = Ok tt).
  { destruct l2 as [|b l2].
    - rewrite app_length in E. cbn [length] in E. now rewrite Nat.add_1_r in E.
    - destruct (S1 (S (length l1)) b) as [_ K]; auto.
      rewrite nth_error_app2 by lia. replace (S (length l1) - length l1) with 1 by lia. reflexivity. }
  rewrite K. specialize (IH (l1 ++ [a]) (acc ++ [a])). rewrite <- !app_assoc in IH. cbn [app] in IH.
  rewrite (app_length l1 [a]) in IH. cbn [length] in IH. rewrite Nat.add_1_r in IH. now apply IH.
Qed.

Lemma read_scalar f l a fuel b : length l < fuel -> starts_with f l -> seek_to f 0 = Ok tt ->
  seek_to f (length l) = Ok tt -> convert_at f (length l) = Ok (0, a) ->
  read true true true (Ok f) fuel b = MemoryError.
Proof.
  intros F S1 K E C. unfold read_gif_file. cbn [negb]. rewrite K.
  replace fuel with (length l + S (fuel - length l - 1)) by lia.
  change (loop (length l + S (fuel - length l - 1)) f 0 []) with
    (loop (length l + S (fuel - length l - 1)) f (@length array []) []).
  rewrite (loop_reach f l [] _ []); auto. cbn [app read_loop]. now rewrite C.
Qed.

Lemma read_refused b c open fuel n : read false b c open fuel n = Raised RuntimeError /\
  read true false c open fuel n = Raised RuntimeError /\ read true true false open fuel n = Raised IOError /\
  (forall e, read true true true (Err e) fuel n = Raised e) /\
  (forall f e, seek_to f 0 = Err e -> read true true true (Ok f) fuel n = Raised e).
Proof. repeat split; auto. intros f e E. unfold read_gif_file. cbn [negb]. now rewrite E. Qed.

Lemma read_picture_fails f l fuel e : holds f l -> l <> [] -> length l <= fuel -> mapM from_array l = Err e ->
  read true true true (Ok f) fuel false = Raised e.
Proof.
  intros H N F E. destruct (read_all f l fuel H N F) as [K _]. unfold read_gif_file in *. cbn [negb] in *.
  destruct (seek_to f 0); [|discriminate]. destruct (loop fuel f 0 []) as [l'| |]; try discriminate.
  injection K as ->. now rewrite E.
Qed.
End Read.

(** A file of three frames, the second of which is cut off. *)
Definition damaged : opened nat :=
  {| convert_at := fun i => match i with 1 => Err EOFError | _ => Ok (2, i) end;
     seek_to := fun i => if Nat.ltb i 3 then Ok tt else Err EOFError |}.
Definition whole : opened nat :=
  {| convert_at := fun i => Ok (2, i);
     seek_to := fun i => if Nat.ltb i 3 then Ok tt else Err EOFError |}.
Lemma whole_holds : holds whole [0; 1; 2].
Proof.
  split; [|reflexivity]. intros [|[|[|i]]] a H; try (destruct i; discriminate); injection H as <-;
    (split; [now exists 1|reflexivity]).
Qed.
