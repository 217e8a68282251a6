(** Coordinate groups. *)
From Coq Require Import String Ascii List ZArith QArith Qabs Bool Lia Lqa.
From Verif Require Import PyBase PyBaseFacts Attr_Model Coords_Model Coords_Spec.
Import ListNotations.
Local Open Scope list_scope.
Local Open Scope nat_scope.

Lemma compare_close c d : compare_coords c d = true <-> close c d.
Proof.
  revert d. induction c as [|x c IH]; intros d.
  - split; auto. intros _ [|i] a b E; discriminate.
  - destruct d as [|y d].
    + split; auto. intros _ i a b _ E. destruct i; discriminate.
    + cbn [compare_coords]. destruct (Qle_bool (Qabs (x - y)) tolerance) eqn:Q.
      * rewrite IH. apply Qle_bool_iff in Q. split.
        -- intros H [|i] a b E1 E2; cbn in E1, E2; [injection E1 as <-; injection E2 as <-; exact Q|eauto].
        -- intros H i a b E1 E2. apply (H (S i)); auto.
      * split; [discriminate|]. intros H. specialize (H 0 x y eq_refl eq_refl).
        apply Qle_bool_iff in H. unfold tolerance in Q. congruence.
Qed.

Lemma compare_far c d : compare_coords c d = false <-> ~ close c d.
Proof. rewrite <- compare_close. destruct (compare_coords c d); split; congruence. Qed.

Lemma close_sym c d : close c d -> close d c.
Proof. intros H i x y E1 E2. rewrite Qabs_Qminus. eauto. Qed.

Lemma close_refl c : close c c.
Proof.
  intros i x y E1 E2. rewrite E1 in E2. injection E2 as <-.
  setoid_replace (x - x)%Q with 0%Q by ring. cbn. discriminate.
Qed.

Lemma find_none c k refs : find_ref c k refs = None <-> far c (map fst refs).
Proof.
  revert k. induction refs as [|[r e] t IH]; intros k; cbn.
  - split; auto. intros _ d [].
  - destruct (compare_coords c r) eqn:E.
    + split; [discriminate|]. intros F. exfalso. apply (F r); [now left|]. now apply compare_close.
    + rewrite IH. apply compare_far in E. split.
      * intros F d [<-|I]; auto.
      * intros F d I. apply F. now right.
Qed.

Lemma find_some c k refs i e :
  find_ref c k refs = Some (i, e) <->
  k <= i /\ first_close c (map fst refs) (i - k) /\ nth_error (map snd refs) (i - k) = Some e.
Proof.
  revert k. induction refs as [|[r x] t IH]; intros k; cbn [find_ref map fst snd].
  - split; [discriminate|]. intros (_ & _ & E). destruct (i - k); discriminate.
  - destruct (compare_coords c r) eqn:E.
    + apply compare_close in E. split.
      * intros H. injection H as <- <-. split; auto. replace (k - k) with 0 by lia. split; [|reflexivity].
        split; [exists r; auto|]. intros; lia.
      * intros (H & [_ F] & G). destruct (i - k) as [|j] eqn:D.
        -- cbn in G. injection G as <-. f_equal. f_equal. lia.
        -- exfalso. apply (F 0 r); auto; lia.
    + apply compare_far in E. rewrite IH. split.
      * intros (H & [[d [G1 G2]] F] & G). split; [lia|]. replace (i - k) with (S (i - S k)) by lia.
        split; [|exact G]. split; [exists d; auto|]. intros [|j] d' Hj G'.
        -- cbn in G'. injection G' as <-. exact E.
        -- apply (F j d'); auto. lia.
      * intros (H & [[d [G1 G2]] F] & G). destruct (i - k) as [|j] eqn:D.
        -- cbn in G1. injection G1 as <-. contradiction.
        -- replace (i - S k) with j by lia. split; [lia|]. split; [|exact G].
           split; [exists d; auto|]. intros j' d' Hj G'. apply (F (S j') d'); auto. lia.
Qed.

(** ** The loop *)
Definition appended (refs l : list (list Q * str)) : list (list Q * str) :=
  filter (fun p => match find_ref (fst p) 0 refs with None => true | _ => false end) l.

Fixpoint replaced (refs l : list (list Q * str)) (me : list str) : list str :=
  match l with
  | [] => me
  | (c, e) :: t =>
      match find_ref c 0 refs with
      | Some (i, ref) =>
          replaced refs t (if negb (str_eqb e ref) && str_eqb ref (L "V") then set_nth me i e else me)
      | None => replaced refs t me
      end
  end.

Lemma set_nth_length l i x : length (set_nth l i x) = length l.
Proof. revert i. induction l as [|y l IH]; intros [|i]; cbn; auto. Qed.

Lemma set_nth_app l m i x : i < length l -> set_nth (l ++ m) i x = set_nth l i x ++ m.
Proof.
  revert i. induction l as [|y l IH]; intros [|i] H; cbn in *; try lia; auto. rewrite IH by lia. reflexivity.
Qed.

Lemma set_nth_get l i x j : nth_error (set_nth l i x) j =
  if (Nat.eqb i j && (j <? length l))%bool then Some x else nth_error l j.
Proof.
  revert i j. induction l as [|y l IH]; intros [|i] [|j]; cbn; auto.
  - now rewrite andb_false_r.
  - rewrite IH. reflexivity.
Qed.

Lemma merge_split refs l mc me1 me2 : length me1 = length refs ->
  merge refs l mc (me1 ++ me2) =
  (mc ++ map fst (appended refs l), replaced refs l me1 ++ me2 ++ map snd (appended refs l)).
Proof.
  revert mc me1 me2. induction l as [|[c e] t IH]; intros mc me1 me2 E.
  - cbn. now rewrite !app_nil_r.
  - cbn [merge appended filter replaced fst]. destruct (find_ref c 0 refs) as [[i ref]|] eqn:F.
    + apply find_some in F as (_ & [[d [G _]] _] & _).
      assert (i < length me1).
      { rewrite E. rewrite <- (map_length fst). apply nth_error_Some. rewrite Nat.sub_0_r in G. congruence. }
      destruct (negb (str_eqb e ref) && str_eqb ref (L "V")).
      * rewrite set_nth_app by auto. apply IH. now rewrite set_nth_length.
      * now apply IH.
    + rewrite <- app_assoc. rewrite IH by auto. cbn [map fst snd]. rewrite <- !app_assoc. reflexivity.
Qed.

Lemma replaced_length refs l me : length (replaced refs l me) = length me.
Proof.
  revert me. induction l as [|[c e] t IH]; intros me; [reflexivity|]. cbn.
  destruct (find_ref c 0 refs) as [[i ref]|]; rewrite IH; auto.
  destruct (_ && _); auto using set_nth_length.
Qed.

(** One element after the loop. *)
Lemma replaced_get refs l me i : forall ref e0,
  nth_error (map snd refs) i = Some ref -> nth_error me i = Some e0 ->
  exists e', nth_error (replaced refs l me) i = Some e' /\
    ((ref <> vacant /\ e' = e0) \/
     (ref = vacant /\
      ((exists c, last_with (fun p => first_close (fst p) (map fst refs) i /\ snd p <> vacant) l (c, e')) \/
       ((forall p, In p l -> first_close (fst p) (map fst refs) i -> snd p = vacant) /\ e' = e0)))).
Proof.
  revert me. induction l as [|[c e] t IH]; intros me ref e0 R E.
  - exists e0. split; [exact E|]. destruct (str_eqb_spec ref vacant) as [->|N]; [right|left; auto].
    split; auto. right. split; [intros p []|reflexivity].
  - cbn [replaced]. destruct (find_ref c 0 refs) as [[j rf]|] eqn:F.
    2:{ destruct (IH me ref e0 R E) as (e' & H1 & H2). exists e'. split; [exact H1|].
        destruct H2 as [H2|[H2 [[c' (a & b & -> & P & N)]|[H3 H4]]]]; [left; auto|right..]; (split; [exact H2|]).
        - left. exists c', ((c, e) :: a), b. auto.
        - right. split; [|exact H4]. intros p [<-|I] FC; [|auto]. exfalso.
          apply find_none in F. destruct FC as [[d [G1 G2]] _]. apply (F d); [eapply nth_error_In; eauto|exact G2]. }
    apply find_some in F as (_ & FC & FE). rewrite Nat.sub_0_r in FC, FE.
    assert (UNIQ : forall k, first_close c (map fst refs) k -> k = j).
    { intros k [[d [G1 G2]] N]. destruct FC as [[d' [G1' G2']] N'].
      destruct (Nat.lt_trichotomy k j) as [H|[H|H]]; auto; exfalso; [eapply N'|eapply N]; eauto. }
    destruct (Nat.eq_dec j i) as [->|D].
    + rewrite R in FE. injection FE as <-.
      destruct (str_eqb_spec ref (L "V")) as [EV|NV].
      * destruct (str_eqb_spec e ref) as [Ee|Ne]; cbn [negb andb].
        -- destruct (IH me ref e0 R E) as (e' & H1 & H2). exists e'. split; [exact H1|].
           destruct H2 as [H2|[H2 [[c' (a & b & -> & P & N)]|[H3 H4]]]]; [left; auto|right..]; (split; [exact H2|]).
           ++ left. exists c', ((c, e) :: a), b. auto.
           ++ right. split; [|exact H4]. intros p [<-|I] _'; [|auto]. cbn. rewrite Ee, EV. reflexivity.
        -- assert (E' : nth_error (set_nth me i e) i = Some e).
           { rewrite set_nth_get, Nat.eqb_refl. cbn [andb].
             assert (i < length me) by (apply nth_error_Some; congruence).
             apply Nat.ltb_lt in H. now rewrite H. }
           destruct (IH _ ref e R E') as (e' & H1 & H2). exists e'. split; [exact H1|]. right. split; [exact EV|].
           left. destruct H2 as [[H2 _]|[H2 [[c' (a & b & -> & P & N)]|[H3 ->]]]]; [contradiction|..].
           ++ exists c', ((c, e) :: a), b. auto.
           ++ exists c, [], t. split; [reflexivity|]. split; [split; [exact FC|intros X; apply Ne; rewrite EV; exact X]|].
              intros p I [P1 P2]. apply P2. auto.
      * rewrite andb_false_r. destruct (IH me ref e0 R E) as (e' & H1 & H2). exists e'. split; [exact H1|].
        left. destruct H2 as [H2|[H2 _]]; [exact H2|contradiction].
    + assert (E' : nth_error (if negb (str_eqb e rf) && str_eqb rf (L "V") then set_nth me j e else me) i = Some e0).
      { destruct (_ && _); [|exact E]. rewrite set_nth_get. destruct (Nat.eqb_spec j i); [contradiction|exact E]. }
      destruct (IH _ ref e0 R E') as (e' & H1 & H2). exists e'. split; [exact H1|].
      destruct H2 as [H2|[H2 [[c' (a & b & -> & P & N)]|[H3 H4]]]]; [left; auto|right..]; (split; [exact H2|]).
      * left. exists c', ((c, e) :: a), b. auto.
      * right. split; [|exact H4]. intros p [<-|I] P; [|auto]. exfalso. apply D. symmetry. apply UNIQ. exact P.
Qed.

Lemma appended_selects refs l : selects (fun p => far (fst p) (map fst refs)) l (appended refs l).
Proof.
  induction l as [|[c e] t IH]; [constructor|]. unfold appended. cbn [filter fst].
  destruct (find_ref c 0 refs) as [[i x]|] eqn:F.
  - apply sel_skip; [|exact IH]. intros H. apply (find_none c 0) in H. congruence.
  - apply sel_take; [|exact IH]. now apply find_none in F.
Qed.

Lemma map_fst_combine {A B} (l : list A) (m : list B) : length l = length m -> map fst (combine l m) = l.
Proof. revert m. induction l; intros [|b m] H; cbn in *; try lia; auto. f_equal. auto. Qed.
Lemma map_snd_combine {A B} (l : list A) (m : list B) : length l = length m -> map snd (combine l m) = m.
Proof. revert m. induction l; intros [|b m] H; cbn in *; try lia; auto. f_equal. auto. Qed.
Lemma combine_app' {A B} (a : list A) (b : list B) c d : length a = length b ->
  combine (a ++ c) (b ++ d) = combine a b ++ combine c d.
Proof. revert b. induction a; intros [|y b] H; cbn in *; try lia; auto. f_equal. auto. Qed.
Lemma combine_maps {A B} (l : list (A * B)) : combine (map fst l) (map snd l) = l.
Proof. induction l as [|[a b] l IH]; cbn; congruence. Qed.

Lemma add_eq g1 g2 : proper_group g1 ->
  add g1 g2 = Ok {| coords := coords g1 ++ map fst (appended (entries g1) (entries g2));
                    elems := replaced (entries g1) (entries g2) (elems g1)
                             ++ map snd (appended (entries g1) (entries g2)) |}.
Proof.
  intros P. unfold add. fold (entries g1) (entries g2).
  assert (H : length (elems g1) = length (entries g1)).
  { unfold entries. rewrite combine_length, P. lia. }
  pose proof (merge_split (entries g1) (entries g2) (coords g1) (elems g1) [] H) as M.
  rewrite app_nil_r in M. rewrite M. cbn [app]. unfold new.
  rewrite !app_length, !map_length, replaced_length, P, Nat.eqb_refl. reflexivity.
Qed.

Theorem add_exact g1 g2 : proper_group g1 ->
  exists g, add g1 g2 = Ok g /\ proper_group g /\
    firstn (length (coords g1)) (coords g) = coords g1 /\
    selects (fun p => far (fst p) (coords g1)) (entries g2) (skipn (length (coords g1)) (entries g)) /\
    forall i e, nth_error (elems g1) i = Some e ->
    exists e', nth_error (elems g) i = Some e' /\
      ((e <> vacant /\ e' = e) \/
       (e = vacant /\
        ((exists c, last_with (fun p => first_close (fst p) (coords g1) i /\ snd p <> vacant)
                      (entries g2) (c, e')) \/
         ((forall p, In p (entries g2) -> first_close (fst p) (coords g1) i -> snd p = vacant)
          /\ e' = vacant)))).
Proof.
  intros P. eexists. split; [now apply add_eq|].
  assert (MF : map fst (entries g1) = coords g1) by now apply map_fst_combine.
  assert (MS : map snd (entries g1) = elems g1) by now apply map_snd_combine.
  assert (LR : length (coords g1) = length (replaced (entries g1) (entries g2) (elems g1)))
    by (rewrite replaced_length; exact P).
  cbn [coords elems]. split; [|split; [|split]].
  - unfold proper_group. cbn [coords elems]. rewrite !app_length, !map_length. lia.
  - rewrite firstn_app, Nat.sub_diag, firstn_all. cbn. apply app_nil_r.
  - unfold entries at 2. cbn [coords elems]. rewrite combine_app' by auto. rewrite combine_maps.
    assert (LC : length (coords g1) = length (combine (coords g1) (replaced (entries g1) (entries g2) (elems g1)))).
    { rewrite combine_length. lia. }
    rewrite LC at 1. rewrite skipn_app, Nat.sub_diag, skipn_all. cbn [app skipn].
    rewrite <- MF. apply appended_selects.
  - intros i e E. destruct (replaced_get (entries g1) (entries g2) (elems g1) i e e) as (e' & H1 & H2); auto.
    + now rewrite MS.
    + rewrite MF in H2. exists e'. split.
      * rewrite nth_error_app1; [exact H1|]. rewrite replaced_length. apply nth_error_Some. congruence.
      * destruct H2 as [H2|(H2 & [H3|[H3 H4]])]; auto. right. split; auto. right. split; auto. congruence.
Qed.

(** ** No new coincidences *)

Lemma apart_cons c l : apart (c :: l) <-> far c l /\ apart l.
Proof.
  split.
  - intros A. split.
    + intros d I K. apply In_nth_error in I as [j J]. apply (A 0 (S j) c d); auto.
    + intros i j x y N E1 E2. apply (A (S i) (S j) x y); auto.
  - intros [F A] [|i] [|j] x y N E1 E2 K; cbn in E1, E2; try congruence.
    + injection E1 as <-. apply (F y); auto. eapply nth_error_In; eauto.
    + injection E2 as <-. apply (F x); [eapply nth_error_In; eauto|now apply close_sym].
    + apply (A i j x y); auto.
Qed.

Lemma selects_in {A} (P : A -> Prop) l m x : selects P l m -> In x m -> In x l /\ P x.
Proof.
  induction 1 as [|y l m Py S IH|y l m Ny S IH]; intros I; [destruct I| |].
  - destruct I as [<-|I]; [split; auto; now left|]. destruct (IH I). split; auto. now right.
  - destruct (IH I). split; auto. now right.
Qed.

Lemma selects_apart P l m : selects P l m -> apart (map fst l) -> apart (map (@fst (list Q) str) m).
Proof.
  induction 1 as [|y l m Py S IH|y l m Ny S IH]; cbn [map]; auto; intros A; apply apart_cons in A as [F A].
  - apply apart_cons. split; auto. intros d I. apply F. apply in_map_iff in I as (p & <- & I).
    apply in_map. exact (proj1 (selects_in _ _ _ _ S I)).
  - auto.
Qed.

Lemma apart_app l m : apart l -> apart m -> (forall c, In c m -> far c l) -> apart (l ++ m).
Proof.
  intros A B F. induction l as [|c l IH]; [exact B|]. apply apart_cons in A as [A1 A2]. cbn. apply apart_cons. split.
  - intros d I K. apply in_app_or in I as [I|I]; [eapply A1; eauto|]. apply (F d I c); [now left|now apply close_sym].
  - apply IH; auto. intros d I x J. apply (F d I). now right.
Qed.

Theorem add_apart g1 g2 g : proper_group g1 -> proper_group g2 -> apart (coords g1) -> apart (coords g2) ->
  add g1 g2 = Ok g -> apart (coords g).
Proof.
  intros P1 P2 A1 A2 E. rewrite add_eq in E by auto. injection E as <-. cbn [coords].
  pose proof (appended_selects (entries g1) (entries g2)) as S.
  assert (MF : map fst (entries g1) = coords g1) by now apply map_fst_combine.
  assert (MF2 : map fst (entries g2) = coords g2) by now apply map_fst_combine.
  apply apart_app; auto.
  - apply (selects_apart _ _ _ S). now rewrite MF2.
  - intros c I. apply in_map_iff in I as (p & <- & I). rewrite <- MF. apply (selects_in _ _ _ _ S I).
Qed.

Lemma nth_error_ext' {A} (l m : list A) : (forall i, nth_error l i = nth_error m i) -> l = m.
Proof.
  revert m. induction l as [|x l IH]; intros [|y m] H; auto.
  - specialize (H 0). discriminate.
  - specialize (H 0). discriminate.
  - f_equal; [specialize (H 0); cbn in H; congruence|]. apply IH. intros i. apply (H (S i)).
Qed.

(** ** Adding a group to itself, and empty groups *)
Theorem add_self g : proper_group g -> apart (coords g) -> add g g = Ok g.
Proof.
  intros P A. rewrite add_eq by auto.
  assert (MF : map fst (entries g) = coords g) by now apply map_fst_combine.
  assert (MS : map snd (entries g) = elems g) by now apply map_snd_combine.
  assert (F : forall c, In c (coords g) -> ~ far c (coords g)).
  { intros c I H. apply (H c I). apply close_refl. }
  assert (N : appended (entries g) (entries g) = []).
  { destruct (appended (entries g) (entries g)) as [|p l] eqn:E; auto. exfalso.
    pose proof (appended_selects (entries g) (entries g)) as S. rewrite E in S.
    destruct (selects_in _ _ _ p S (or_introl eq_refl)) as [I H]. rewrite MF in H.
    apply (F (fst p)); auto. rewrite <- MF. now apply in_map. }
  rewrite N, !app_nil_r. destruct g as [cs es]; cbn [coords elems] in *. f_equal. f_equal.
  (* element by element *)
  assert (G : forall i e, nth_error es i = Some e ->
     nth_error (replaced (entries {| coords := cs; elems := es |}) (entries {| coords := cs; elems := es |}) es) i = Some e).
  { intros i e E. destruct (replaced_get (entries {| coords := cs; elems := es |}) (entries {| coords := cs; elems := es |}) es i e e)
      as (e' & H1 & H2); auto; [now rewrite MS|].
    destruct H2 as [[_ ->]|(-> & [[c (a & b & EL & [[[d [G1 G2]] _] NV] & _)]|[_ ->]])]; auto.
    exfalso. rewrite MF in G1. cbn [fst snd] in *.
    assert (K : nth_error (entries {| coords := cs; elems := es |}) (length a) = Some (c, e')).
    { rewrite EL. rewrite nth_error_app2, Nat.sub_diag by lia. reflexivity. }
    assert (Kc : nth_error cs (length a) = Some c) by (rewrite <- MF; now apply (map_nth_error fst) in K).
    assert (Ke : nth_error es (length a) = Some e') by (rewrite <- MS; now apply (map_nth_error snd) in K).
    destruct (Nat.eq_dec (length a) i) as [<-|D]; [congruence|]. exact (A _ _ _ _ D Kc G1 G2). }
  apply nth_error_ext'. intros i. destruct (nth_error es i) as [e|] eqn:E.
  - now apply G.
  - apply nth_error_None. rewrite replaced_length. now apply nth_error_None.
Qed.

Theorem add_nothing g : proper_group g -> add g {| coords := []; elems := [] |} = Ok g.
Proof. intros P. rewrite add_eq by auto. cbn. rewrite !app_nil_r. now destruct g. Qed.

Theorem nothing_add g : proper_group g -> add {| coords := []; elems := [] |} g = Ok g.
Proof.
  intros P. rewrite add_eq by reflexivity. cbn.
  assert (A : forall l, appended [] l = l).
  { induction l as [|p l IH]; [reflexivity|]. unfold appended in *. cbn [filter find_ref]. f_equal. exact IH. }
  assert (R : forall l, replaced [] l [] = []) by (induction l as [|[c e] l IH]; auto).
  rewrite A, R. unfold entries. rewrite map_fst_combine, map_snd_combine by auto. now destruct g.
Qed.

(** ** Appending *)

Lemma check_coordinate_ok t c : check_coordinate t = Ok c <-> good_coordinate t c.
Proof.
  split.
  - intros H. destruct t as [| | | | |l| | |]; try discriminate. cbn in H.
    destruct l as [|a [|b [|d [|? ?]]]]; cbn in H; try discriminate.
    destruct a; cbn in H; try discriminate. destruct b; cbn in H; try discriminate.
    destruct d; cbn in H; try discriminate. injection H as <-. do 3 eexists. eauto.
  - intros (x & y & z & -> & ->). reflexivity.
Qed.

Lemma float_err t e : float_of t = Err e -> e = ValueError.
Proof. destruct t; cbn; congruence. Qed.

Lemma check_coordinate_err t e : check_coordinate t = Err e -> e = ValueError.
Proof.
  intros H. destruct t as [| | | | |l| | |]; cbn in H; try congruence.
  destruct l as [|a [|b [|d [|? ?]]]]; cbn in H; try congruence.
  destruct a; cbn in H; try congruence; destruct b; cbn in H; try congruence; destruct d; cbn in H; congruence.
Qed.

Theorem append_exact g t u : 
  match append g t u with
  | (Ok _, g1) => exists c e, good_coordinate t c /\ good_element u e /\
                  g1 = {| coords := coords g ++ [c]; elems := elems g ++ [e] |}
  | (Err x, g1) => x = ValueError /\
      (((forall c, ~ good_coordinate t c) /\ g1 = g) \/
       (exists c, good_coordinate t c /\ (forall e, ~ good_element u e) /\
          g1 = {| coords := coords g ++ [c]; elems := elems g |}))
  end.
Proof.
  unfold append. destruct (check_coordinate t) as [c|x] eqn:C.
  - apply check_coordinate_ok in C.
    assert (B : forall v : tree, v = u -> (v <> TNone) -> (forall s, v <> TStr s) -> forall e, ~ good_element u e).
    { intros v <- N1 N2 e [[E _]|E]; [auto|exact (N2 _ E)]. }
    destruct u; try (split; [reflexivity|right; exists c; split; [exact C|split; [|reflexivity]];
      apply (B _ eq_refl); [discriminate|intros; discriminate]]).
    + exists c, (L "V"). split; auto. split; auto. left. auto.
    + exists c, s. split; auto. split; auto. right. auto.
  - split; [eapply check_coordinate_err; eauto|]. left. split; auto.
    intros c G. apply check_coordinate_ok in G. congruence.
Qed.

Theorem extend_ok g l es g1 : append_all g (combine l es) = (Ok tt, g1) ->
  exists cs xs, Forall2 good_coordinate (map fst (combine l es)) cs /\
    Forall2 good_element (map snd (combine l es)) xs /\
    g1 = {| coords := coords g ++ cs; elems := elems g ++ xs |}.
Proof.
  generalize (combine l es) as m. clear l es. intros m. revert g. induction m as [|[c e] m IH]; intros g H.
  - injection H as <-. exists [], []. split; [constructor|]. split; [constructor|]. rewrite !app_nil_r. now destruct g.
  - cbn [append_all] in H. pose proof (append_exact g c e) as X. destruct (append g c e) as [[u|x] g2]; [|discriminate].
    destruct X as (q & s & G1 & G2 & ->). apply IH in H as (cs & xs & F1 & F2 & ->). cbn [coords elems] in *.
    exists (q :: cs), (s :: xs). cbn [map fst snd]. split; [now constructor|]. split; [now constructor|].
    rewrite <- !app_assoc. reflexivity.
Qed.

Theorem extend_complete g m cs xs : Forall2 good_coordinate (map fst m) cs -> Forall2 good_element (map snd m) xs ->
  append_all g m = (Ok tt, {| coords := coords g ++ cs; elems := elems g ++ xs |}).
Proof.
  revert g cs xs. induction m as [|[c e] m IH]; intros g cs xs F1 F2; inversion F1; inversion F2; subst.
  - rewrite !app_nil_r. now destruct g.
  - cbn [append_all]. pose proof (append_exact g c e) as X. destruct (append g c e) as [[[]|x] g2].
    + destruct X as (q & s & G1 & G2 & ->).
      assert (q = y).
      { destruct G1 as (a & b & d & -> & ->), H1 as (a' & b' & d' & E & ->). injection E as -> -> ->. reflexivity. }
      assert (s = y0).
      { destruct G2 as [[-> ->]| -> ], H6 as [[E ->]|E]; congruence. }
      subst. rewrite (IH _ l' l'0) by auto. cbn [coords elems]. rewrite <- !app_assoc. reflexivity.
    + exfalso. destruct X as [_ [[N _]|(q & G & N & _)]]; [eapply N; eauto|eapply N; eauto].
Qed.

Theorem extend_stops g m x g1 : append_all g m = (Err x, g1) ->
  exists a c e b cs xs, m = a ++ (c, e) :: b /\
    Forall2 good_coordinate (map fst a) cs /\ Forall2 good_element (map snd a) xs /\
    append {| coords := coords g ++ cs; elems := elems g ++ xs |} c e = (Err x, g1).
Proof.
  revert g. induction m as [|[c e] m IH]; intros g H; [discriminate|].
  cbn [append_all] in H. pose proof (append_exact g c e) as X. destruct (append g c e) as [[u|y] g2] eqn:EA.
  - destruct X as (q & s & G1 & G2 & ->). apply IH in H as (a & c' & e' & b & cs & xs & -> & F1 & F2 & E).
    exists ((c, e) :: a), c', e', b, (q :: cs), (s :: xs). cbn [coords elems] in E.
    rewrite <- !app_assoc in E. repeat split; auto; constructor; auto.
  - exists [], c, e, m, [], []. rewrite !app_nil_r. injection H as -> ->.
    repeat split; auto; try constructor. now destruct g.
Qed.

(** ** Moving *)
Lemma shifted_eq v c : length c = length v -> add_row v c = Ok (shifted v c).
Proof. intros E. unfold add_row. rewrite E, Nat.eqb_refl. reflexivity. Qed.


Lemma spatial_lengths g : spatial g -> same_lengths (coords g) = true.
Proof.
  unfold spatial, same_lengths. destruct (coords g) as [|r t]; intros H; [reflexivity|].
  apply forallb_forall. intros x I. apply Nat.eqb_eq. rewrite (H x), (H r); auto; [now left|now right].
Qed.

Lemma mapM_all {A B} (f : A -> res B) h l : (forall x, In x l -> f x = Ok (h x)) -> mapM f l = Ok (map h l).
Proof.
  induction l as [|x l IH]; intros H; [reflexivity|]. cbn. rewrite (H x) by now left.
  rewrite IH by (intros; apply H; now right). reflexivity.
Qed.

Theorem move_exact g x y z : proper_group g -> spatial g -> coords g <> [] ->
  move g (Some (TList [TFloat x; TFloat y; TFloat z])) =
  Ok {| coords := map (shifted [x; y; z]) (coords g); elems := elems g |}.
Proof.
  intros P S N. unfold move.
  change (mapM number_of [TFloat x; TFloat y; TFloat z]) with (Ok [x; y; z]).
  pose proof (spatial_lengths g S) as SL. unfold spatial in S. unfold proper_group in P.
  destruct (coords g) as [|r t]; [congruence|]. unfold bind at 1. rewrite SL.
  rewrite (mapM_all (add_row [x; y; z]) (shifted [x; y; z]) (r :: t)).
  - cbn [bind]. unfold new. rewrite map_length, P, Nat.eqb_refl. reflexivity.
  - intros c I. apply shifted_eq. now apply S.
Qed.

Theorem move_default g : proper_group g -> spatial g -> coords g <> [] ->
  move g None = move g (Some (TList [TFloat 0; TFloat 0; TFloat 0])).
Proof. reflexivity. Qed.

Lemma shifted_nth v c i x : nth_error (shifted v c) i = Some x <->
  exists a b, nth_error c i = Some a /\ nth_error v i = Some b /\ x = (a + b)%Q.
Proof.
  unfold shifted. revert v i. induction c as [|a c IH]; intros [|b v] [|i]; cbn;
    try (split; [discriminate|intros (? & ? & ? & ? & ?); discriminate]).
  - split.
    + intros E. injection E as <-. eauto.
    + intros (a' & b' & E1 & E2 & ->). congruence.
  - apply IH.
Qed.

Lemma shifted_close v c d : length c = length v -> length d = length v ->
  (close (shifted v c) (shifted v d) <-> close c d).
Proof.
  intros Lc Ld. split; intros H i x y E1 E2.
  - assert (V : exists b, nth_error v i = Some b).
    { destruct (nth_error v i) eqn:E; eauto. apply nth_error_None in E.
      assert (i < length c) by (apply nth_error_Some; congruence). lia. }
    destruct V as [b V].
    assert (Q1 : nth_error (shifted v c) i = Some (x + b)%Q) by (apply shifted_nth; eauto).
    assert (Q2 : nth_error (shifted v d) i = Some (y + b)%Q) by (apply shifted_nth; eauto).
    specialize (H i _ _ Q1 Q2). setoid_replace (x + b - (y + b))%Q with (x - y)%Q in H by ring. exact H.
  - apply shifted_nth in E1 as (a & b & E1 & V & ->). apply shifted_nth in E2 as (a' & b' & E2 & V' & ->).
    rewrite V in V'. injection V' as <-. setoid_replace (a + b - (a' + b))%Q with (a - a')%Q by ring. eauto.
Qed.

Definition shift_entry (v : list Q) (p : list Q * str) : list Q * str := (shifted v (fst p), snd p).

Lemma find_shift v c k refs : length c = length v -> (forall p, In p refs -> length (fst p) = length v) ->
  find_ref (shifted v c) k (map (shift_entry v) refs) = find_ref c k refs.
Proof.
  intros Lc. revert k. induction refs as [|[r e] t IH]; intros k H; [reflexivity|]. cbn [map find_ref shift_entry fst snd].
  assert (Lr : length r = length v) by (apply (H (r, e)); now left).
  assert (compare_coords (shifted v c) (shifted v r) = compare_coords c r) as ->.
  { pose proof (shifted_close v c r Lc Lr) as S. rewrite <- !compare_close in S.
    destruct (compare_coords (shifted v c) (shifted v r)), (compare_coords c r); auto; destruct S as [S1 S2];
      [symmetry; now apply S1|now apply S2]. }
  destruct (compare_coords c r); auto. apply IH. intros p I. apply H. now right.
Qed.

Lemma merge_shift v refs l mc me : (forall p, In p refs -> length (fst p) = length v) ->
  (forall p, In p l -> length (fst p) = length v) ->
  merge (map (shift_entry v) refs) (map (shift_entry v) l) (map (shifted v) mc) me =
  (map (shifted v) (fst (merge refs l mc me)), snd (merge refs l mc me)).
Proof.
  intros R. revert mc me. induction l as [|[c e] t IH]; intros mc me H; [reflexivity|].
  cbn [map merge shift_entry fst snd]. rewrite find_shift; auto; [|apply (H (c, e)); now left].
  assert (H' : forall p, In p t -> length (fst p) = length v) by (intros p I; apply H; now right).
  destruct (find_ref c 0 refs) as [[i ref]|].
  - now apply IH.
  - rewrite <- IH by auto. rewrite map_app. reflexivity.
Qed.

Lemma combine_shift v c e : combine (map (shifted v) c) e = map (shift_entry v) (combine c e).
Proof.
  revert e. induction c as [|x c IH]; intros [|y e]; cbn; auto. now rewrite IH.
Qed.

(** Moving commutes with adding. *)
Theorem add_shift v g1 g2 :
  (forall c, In c (coords g1) -> length c = length v) -> (forall c, In c (coords g2) -> length c = length v) ->
  add {| coords := map (shifted v) (coords g1); elems := elems g1 |}
      {| coords := map (shifted v) (coords g2); elems := elems g2 |}
  = (do g <- add g1 g2; Ok {| coords := map (shifted v) (coords g); elems := elems g |}).
Proof.
  intros H1 H2. unfold add. cbn [coords elems]. rewrite !combine_shift.
  rewrite merge_shift.
  - destruct (merge _ _ _ _) as [mc me] eqn:E. cbn [fst snd]. unfold new. rewrite map_length.
    destruct (length mc =? length me); reflexivity.
  - intros [c e] I. apply in_combine_l in I. auto.
  - intros [c e] I. apply in_combine_l in I. auto.
Qed.

Theorem move_add x y z g1 g2 g m1 m2 :
  let v := Some (TList [TFloat x; TFloat y; TFloat z]) in
  proper_group g1 -> proper_group g2 -> spatial g1 -> spatial g2 -> coords g1 <> [] -> coords g2 <> [] ->
  add g1 g2 = Ok g -> move g1 v = Ok m1 -> move g2 v = Ok m2 -> add m1 m2 = move g v.
Proof.
  intros v P1 P2 S1 S2 N1 N2 E M1 M2. subst v. rewrite move_exact in M1, M2 by auto.
  injection M1 as <-. injection M2 as <-.
  pose proof (add_shift [x; y; z] g1 g2 S1 S2) as A. rewrite A, E. cbn [bind].
  pose proof (add_exact g1 g2 P1) as (g' & E' & P & F & S & _). rewrite E in E'. injection E' as <-.
  symmetry. apply move_exact; auto.
  - intros c I. rewrite add_eq in E by auto. injection E as <-. cbn [coords] in I.
    apply in_app_or in I as [I|I]; [now apply S1|]. apply in_map_iff in I as ([c' e] & <- & I).
    apply (selects_in _ _ _ _ (appended_selects _ _)) in I as [I _]. apply in_combine_l in I. now apply S2.
  - intros Z. rewrite Z in F. rewrite firstn_nil in F. congruence.
Qed.

Theorem move_refused g v : 
  (v <> TNone -> (forall l, v <> TList l) -> (forall l, v <> TTuple l) -> (forall t, v <> TStr t) ->
   (forall d, v <> TDict d) -> move g (Some v) = Err TypeError) /\
  (forall l, v = TTuple l -> length l <> 3 -> move g (Some v) = Err ValueError).
Proof.
  split.
  - intros N A B C D. destruct v; try reflexivity; exfalso; [|eapply C|eapply A|eapply B|eapply D]; try reflexivity.
    apply N; reflexivity.
  - intros l -> N. unfold move. apply Nat.eqb_neq in N. rewrite N. reflexivity.
Qed.

Lemma numbers_of l : mapM number_of (map TFloat l) = Ok l.
Proof. induction l as [|x l IH]; [reflexivity|]. cbn. rewrite IH. reflexivity. Qed.

(** Vectors of any length. *)
Theorem move_lengths g l : proper_group g -> spatial g -> coords g <> [] ->
  move g (Some (TList (map TFloat l))) =
  match l with
  | [x] => Ok {| coords := map (shifted [x; x; x]) (coords g); elems := elems g |}
  | [x; y; z] => Ok {| coords := map (shifted [x; y; z]) (coords g); elems := elems g |}
  | _ => Err ValueError
  end.
Proof.
  intros P S N.
  assert (G : forall h, (forall c, length c = 3 -> add_row l c = Ok (h c)) ->
    move g (Some (TList (map TFloat l))) = Ok {| coords := map h (coords g); elems := elems g |}).
  { intros h H. unfold move. rewrite numbers_of. pose proof (spatial_lengths g S) as SL.
    unfold spatial in S. unfold proper_group in P.
    destruct (coords g) as [|r t]; [congruence|]. unfold bind at 1. rewrite SL.
    rewrite (mapM_all (add_row l) h (r :: t)) by (intros c I; apply H; now apply S).
    cbn [bind]. unfold new. rewrite map_length, P, Nat.eqb_refl. reflexivity. }
  assert (B : (forall c, length c = 3 -> add_row l c = Err ValueError) ->
    move g (Some (TList (map TFloat l))) = Err ValueError).
  { intros H. unfold move. rewrite numbers_of. pose proof (spatial_lengths g S) as SL.
    unfold spatial in S. destruct (coords g) as [|r t]; [congruence|]. unfold bind at 1. rewrite SL.
    cbn [mapM]. rewrite (H r) by (apply S; now left). reflexivity. }
  assert (L3 : forall c : list Q, length c = 3 -> exists a b d, c = [a; b; d]).
  { intros [|a [|b [|d [|? ?]]]] E; try discriminate. eauto. }
  destruct l as [|x [|y [|z [|w l]]]].
  - apply B. intros c E. apply L3 in E as (a & b & d & ->). reflexivity.
  - apply G. intros c E. apply L3 in E as (a & b & d & ->). reflexivity.
  - apply B. intros c E. apply L3 in E as (a & b & d & ->). reflexivity.
  - apply G. intros c E. apply L3 in E as (a & b & d & ->). reflexivity.
  - apply B. intros c E. apply L3 in E as (a & b & d & ->). reflexivity.
Qed.
Theorem move_nothing l :
  move {| coords := []; elems := [] |} (Some (TList (map TFloat l))) =
  if length l <=? 1 then Ok {| coords := []; elems := [] |} else Err ValueError.
Proof. unfold move. rewrite numbers_of. destruct l as [|x [|y l]]; reflexivity. Qed.

Theorem move_tuple g l : length l = 3 -> move g (Some (TTuple l)) = move g (Some (TList l)).
Proof. intros E. unfold move. rewrite E. reflexivity. Qed.

Theorem new_exact cs es :
  new (Some cs) (Some es) = (if length cs =? length es then Ok {| coords := cs; elems := es |} else Err ValueError) /\
  new (Some cs) None = Ok {| coords := cs; elems := map (fun _ => vacant) cs |} /\
  new None (Some es) = (match es with [] => Ok {| coords := []; elems := [] |} | _ => Err ValueError end) /\
  new None None = Ok {| coords := []; elems := [] |}.
Proof.
  split; [reflexivity|]. split; [|split; [|reflexivity]].
  - unfold new. rewrite repeat_length, Nat.eqb_refl. do 2 f_equal.
    induction cs as [|c cs IH]; cbn [repeat length map]; [reflexivity|]. now rewrite IH.
  - destruct es; reflexivity.
Qed.
