(** The reader of PyData_Model.v accepts exactly the grammar of PyData_Spec.v. *)
From Coq Require Import String Ascii List ZArith NArith Bool Arith Lia.
Import ListNotations.
From Verif Require Import PyBase PyBaseFacts PyData_Model PyData_Spec PyData_Proofs.
Local Open Scope list_scope.
Local Open Scope nat_scope.

Lemma bind_ok {A B} (r : res A) (k : A -> res B) x :
  (do y <- r; k y) = Ok x -> exists y, r = Ok y /\ k y = Ok x.
Proof. destruct r; [|discriminate]. cbn. eauto. Qed.

Scheme d_val_ind2 := Induction for d_val Sort Prop
with d_seq_ind2 := Induction for d_seq Sort Prop.
Combined Scheme d_mutind from d_val_ind2, d_seq_ind2.

Lemma d_seq_nonempty ts l : d_seq ts l -> l <> [].
Proof. intros []; [discriminate|]. now destruct l0. Qed.

(** ** Completeness *)
Definition fr (tup : bool) : frame := {| f_tuple := tup; f_items := []; f_item := false; f_comma := false |}.

Lemma open_step fs c tup : open_for_item fs -> (c, tup) = ("["%char, false) \/ (c, tup) = ("("%char, true) ->
  pstep (PPart fs) (DOpen c) = Ok (PPart (fr tup :: fs)).
Proof.
  intros Hfs [E|E]; injection E as -> ->; destruct fs as [|f r]; cbn in *; rewrite ?Hfs; reflexivity.
Qed.

Lemma comma_step f l r : pstep (PPart (item_frame f l :: r)) DComma =
  Ok (PPart ({| f_tuple := f_tuple f; f_items := f_items f ++ l; f_item := false; f_comma := true |} :: r)).
Proof. reflexivity. Qed.

Lemma close_step f r c v : Ascii.eqb c (if f_tuple f then ")" else "]")%char = true ->
  close_frame f = Ok v -> pstep (PPart (f :: r)) (DClose c) = feed v r.
Proof. intros E C. cbn [pstep]. now rewrite E, C. Qed.

Lemma complete :
  (forall ts v, d_val ts v -> forall fs, open_for_item fs -> prun (PPart fs) ts = feed v fs) /\
  (forall ts l, d_seq ts l -> forall f r, f_item f = false ->
     prun (PPart (f :: r)) ts = Ok (PPart (item_frame f l :: r))).
Proof.
  assert (FIN : forall fs v, open_for_item fs -> (do st' <- feed v fs; prun st' []) = feed v fs).
  { intros fs v H. destruct (feed_open v fs H) as [st ->]. reflexivity. }
  apply d_mutind.
  - intros s [|f r] H; cbn in *; rewrite ?H; reflexivity.
  - intros s [|f r] H; cbn in *; rewrite ?H; reflexivity.
  - intros fs H. cbn [prun]. rewrite (open_step fs _ false H) by auto. cbn [bind].
    rewrite (close_step _ _ _ (VList [])) by reflexivity. now apply FIN.
  - intros ts l _ IH fs H. cbn [prun]. rewrite (open_step fs _ false H) by auto. cbn [bind].
    rewrite prun_app, IH by reflexivity. cbn [bind prun].
    rewrite (close_step _ _ _ (VList l)) by reflexivity. now apply FIN.
  - intros ts l _ IH fs H. cbn [prun]. rewrite (open_step fs _ false H) by auto. cbn [bind].
    rewrite prun_app, IH by reflexivity. cbn [bind prun]. rewrite comma_step. cbn [bind].
    rewrite (close_step _ _ _ (VList l)) by reflexivity. now apply FIN.
  - intros fs H. cbn [prun]. rewrite (open_step fs _ true H) by auto. cbn [bind].
    rewrite (close_step _ _ _ (VTuple [])) by reflexivity. now apply FIN.
  - intros ts l _ IH N fs H. cbn [prun]. rewrite (open_step fs _ true H) by auto. cbn [bind].
    rewrite prun_app, IH by reflexivity. cbn [bind prun].
    rewrite (close_step _ _ _ (VTuple l)); [now apply FIN|reflexivity|].
    unfold close_frame, item_frame. cbn [f_tuple fr f_comma f_items orb app].
    destruct l as [|a [|b l]]; cbn in N; try lia. reflexivity.
  - intros ts l _ IH fs H. cbn [prun]. rewrite (open_step fs _ true H) by auto. cbn [bind].
    rewrite prun_app, IH by reflexivity. cbn [bind prun]. rewrite comma_step. cbn [bind].
    rewrite (close_step _ _ _ (VTuple l)) by reflexivity. now apply FIN.
  - intros ts v _ IH fs H. cbn [prun]. rewrite (open_step fs _ true H) by auto. cbn [bind].
    rewrite prun_app, IH by reflexivity. cbn [feed fr f_item bind prun].
    rewrite (close_step _ _ _ v) by reflexivity. now apply FIN.
  - intros ts v _ IH f r H. rewrite IH by exact H. cbn [feed]. rewrite H. unfold item_frame.
    cbn. now rewrite orb_false_r.
  - intros ts l tv v SQ IHs _ IHv f r H. rewrite prun_app, IHs by exact H. cbn [bind prun].
    rewrite comma_step. cbn [bind]. rewrite IHv by reflexivity. cbn [feed f_item f_tuple f_items f_comma].
    unfold item_frame. rewrite <- app_assoc. rewrite app_length. cbn [length].
    apply d_seq_nonempty in SQ. destruct l as [|a l]; [congruence|]. cbn [length].
    replace (1 <? S (length l) + 1) with true by (symmetry; apply Nat.ltb_lt; lia). now rewrite orb_true_r.
Qed.

(** ** Soundness *)
Inductive d_open : list dtok -> list val -> bool -> bool -> Prop :=
| do_nil : d_open [] [] false false
| do_seq ts l : d_seq ts l -> d_open ts l true (1 <? length l)
| do_comma ts l : d_seq ts l -> d_open (ts ++ [DComma]) l false true.

Inductive stack_inv : list frame -> list dtok -> Prop :=
| si_nil : stack_inv [] []
| si_cons fs a f ts : stack_inv fs a -> d_open ts (f_items f) (f_item f) (f_comma f) ->
    stack_inv (f :: fs) (a ++ DOpen (if f_tuple f then "(" else "[")%char :: ts).

Definition st_inv (st : pstate) (ts : list dtok) : Prop :=
  match st with PPart fs => stack_inv fs ts | PDone v => d_val ts v end.

Lemma feed_inv fs a tv v st : stack_inv fs a -> d_val tv v -> feed v fs = Ok st -> st_inv st (a ++ tv).
Proof.
  intros S V F. destruct S as [|fs a f ts S O]; cbn [feed] in F.
  - injection F as <-. exact V.
  - destruct (f_item f) eqn:I.
    { destruct (is_text _ && _); discriminate F. }
    injection F as <-. cbn [st_inv]. rewrite <- app_assoc. cbn [app].
    assert (X : d_open (ts ++ tv) (f_items f ++ [v]) true (f_comma f)).
    { remember (f_items f) as l eqn:El. remember (f_comma f) as cm eqn:Ec.
      clear -O V. inversion O; subst.
      - apply (do_seq tv [v]). now constructor.
      - rewrite <- app_assoc. cbn [app].
        replace true with (1 <? length (l ++ [v])) at 2.
        + apply do_seq. now constructor.
        + apply d_seq_nonempty in H. destruct l; [congruence|]. apply Nat.ltb_lt. rewrite app_length.
          cbn [length]. lia. }
    apply (si_cons fs a {| f_tuple := f_tuple f; f_items := f_items f ++ [v]; f_item := true;
                           f_comma := f_comma f |} (ts ++ tv) S X).
Qed.

Lemma single_seq ts v : d_seq ts [v] -> d_val ts v.
Proof.
  intros H. inversion H; subst; [assumption|]. destruct l as [|a [|b l]]; try discriminate.
  now apply d_seq_nonempty in H1.
Qed.

Lemma d_open_cases ts l i c : d_open ts l i c ->
  (ts = [] /\ l = [] /\ i = false /\ c = false) \/
  (d_seq ts l /\ i = true /\ c = (1 <? length l)) \/
  (exists ts', ts = ts' ++ [DComma] /\ d_seq ts' l /\ i = false /\ c = true).
Proof. intros []; [left|right; left|right; right]; eauto 10. Qed.

Lemma close_inv f ts v : d_open ts (f_items f) (f_item f) (f_comma f) -> close_frame f = Ok v ->
  d_val (DOpen (if f_tuple f then "(" else "[")%char :: ts ++ [DClose (if f_tuple f then ")" else "]")%char]) v.
Proof.
  intros O C. apply d_open_cases in O. unfold close_frame in C. destruct (f_tuple f).
  - destruct (f_comma f) eqn:EC.
    + injection C as <-. destruct O as [(_ & _ & _ & Q)|[(SQ & _ & Q)|(ts' & -> & SQ & _ & _)]].
      * discriminate Q.
      * apply dv_tuple; [assumption|]. symmetry in Q. now apply Nat.ltb_lt in Q.
      * rewrite <- app_assoc. now apply dv_tuple_comma.
    + destruct (f_items f) as [|x [|? ?]] eqn:EI.
      * injection C as <-. destruct O as [(-> & _)|[(SQ & _)|(ts' & _ & SQ & _)]];
          [constructor|now apply d_seq_nonempty in SQ|now apply d_seq_nonempty in SQ].
      * injection C as <-. destruct O as [(_ & Q & _)|[(SQ & _)|(ts' & _ & _ & _ & Q)]]; try discriminate Q.
        apply dv_paren. now apply single_seq.
      * discriminate C.
  - injection C as <-. destruct O as [(-> & -> & _)|[(SQ & _)|(ts' & -> & SQ & _)]].
    + constructor.
    + now apply dv_list.
    + rewrite <- app_assoc. now apply dv_list_comma.
Qed.

Definition bracket (t : dtok) : Prop := match t with DOpen c => In c (L "[({") | _ => True end.

Lemma open_inv fs a c st' : stack_inv fs a -> In c (L "[({") ->
  (if Ascii.eqb c "{" then Err Unsupported
   else Ok (PPart ({| f_tuple := Ascii.eqb c "("; f_items := []; f_item := false; f_comma := false |} :: fs)))
  = Ok st' -> st_inv st' (a ++ [DOpen c]).
Proof.
  intros V B H. destruct (Ascii.eqb_spec c "{") as [|N]; [discriminate H|]. injection H as <-.
  cbn [st_inv].
  assert (E : c = if Ascii.eqb c "(" then "("%char else "["%char).
  { cbn in B. destruct B as [<-|[<-|[<-|[]]]]; try reflexivity. congruence. }
  rewrite E at 2. apply (si_cons fs a (fr (Ascii.eqb c "(")) [] V). constructor.
Qed.

Lemma step_inv st a t st' : st_inv st a -> bracket t -> pstep st t = Ok st' -> st_inv st' (a ++ [t]).
Proof.
  intros V B H. destruct st as [fs|v]; cbn [pstep] in H; [|destruct t; discriminate H].
  cbn [st_inv] in V. destruct t as [s|s|s|c|c| | | | | | ]; try discriminate H.
  - destruct fs as [|f r]; [|destruct (f_item f)]; discriminate H.
  - assert (F : feed (VNum s) fs = Ok st').
    { destruct fs as [|f r]; [exact H|]. destruct (f_item f && _); [discriminate H|exact H]. }
    apply (feed_inv fs a _ _ _ V (dv_num s) F).
  - apply (feed_inv fs a _ _ _ V (dv_str s) H).
  - cbn in B. destruct fs as [|f r]; [|destruct (f_item f); [discriminate H|]]; now apply (open_inv _ _ _ _ V B).
  - destruct fs as [|f r]; [discriminate H|].
    destruct (Ascii.eqb_spec c (if f_tuple f then ")" else "]")%char) as [->|]; [|discriminate H].
    apply bind_ok in H as (v & C & F). inversion V as [|fs0 a0 f0 ts SI O]; subst.
    rewrite <- app_assoc. cbn [app]. apply (feed_inv r a0 _ v _ SI); [|exact F]. now apply close_inv.
  - destruct fs as [|f r]; [discriminate H|]. destruct (f_item f) eqn:I; [|discriminate H].
    injection H as <-. inversion V as [|fs0 a0 f0 ts SI O]; subst. rewrite <- app_assoc. cbn [app st_inv].
    rewrite I in O. inversion O; subst.
    apply (si_cons r a0 {| f_tuple := f_tuple f; f_items := f_items f; f_item := false; f_comma := true |}
             (ts ++ [DComma]) SI). now apply do_comma.
Qed.

Lemma run_inv ts : forall st a st', st_inv st a -> Forall bracket ts -> prun st ts = Ok st' ->
  st_inv st' (a ++ ts).
Proof.
  induction ts as [|t ts IH]; intros st a st' V B H.
  - injection H as <-. now rewrite app_nil_r.
  - cbn [prun] in H. apply bind_ok in H as (st1 & H1 & H). inversion B; subst.
    replace (a ++ t :: ts) with ((a ++ [t]) ++ ts) by (rewrite <- app_assoc; reflexivity).
    apply (IH st1); [|assumption|exact H]. now apply (step_inv st).
Qed.

Lemma parse_val_iff ts v : (forall c, In (DOpen c) ts -> In c (L "[({")) ->
  (parse_val ts = Ok v <-> d_val ts v).
Proof.
  intros B. unfold parse_val. split.
  - intros H. apply bind_ok in H as ([fs|v'] & H & H'); [discriminate H'|]. injection H' as ->.
    assert (BF : Forall bracket ts).
    { apply Forall_forall. intros [] IN; try exact I. apply B. exact IN. }
    exact (run_inv ts (PPart []) [] (PDone v) si_nil BF H).
  - intros V. rewrite (proj1 complete ts v V []) by exact I. reflexivity.
Qed.

Lemma d_val_unique ts v v' : d_val ts v -> d_val ts v' -> v = v'.
Proof.
  intros A B. pose proof (proj1 complete ts v A [] I). pose proof (proj1 complete ts v' B [] I).
  cbn in *. congruence.
Qed.

(** A dictionary of numbers. *)
Definition entry_toks (kv : str * str) : list dtok := [DStr (fst kv); DColon; DNum (snd kv); DComma].
Lemma parse_dict_iff ts : forall d, parse_dict ts = Ok d <->
  ts = concat (map entry_toks d) ++ [DClose "}"].
Proof.
  assert (X : forall n ts d, length ts <= n -> (parse_dict ts = Ok d <->
    ts = concat (map entry_toks d) ++ [DClose "}"])).
  { clear. intros n. induction n as [|n IH]; intros ts d LE.
    - destruct ts; [|cbn in LE; lia]. split; [discriminate|]. intros H. destruct d as [|kv d]; discriminate H.
    - split.
      + intros H. destruct ts as [|t ts]; [discriminate H|]. destruct t; try discriminate H.
        * destruct ts as [|[] ts]; try discriminate H. destruct ts as [|[] ts]; try discriminate H.
          destruct ts as [|[] ts]; try discriminate H. cbn [parse_dict] in H.
          apply bind_ok in H as (d' & H & E). injection E as <-. apply IH in H; [|cbn in LE; lia].
          rewrite H. reflexivity.
        * destruct ts; [|discriminate H]. cbn [parse_dict] in H.
          destruct (Ascii.eqb_spec c "}") as [->|]; [|discriminate H]. injection H as <-. reflexivity.
      + intros ->. destruct d as [|[k v] d]; [reflexivity|]. cbn [map concat app entry_toks fst snd parse_dict].
        assert (E : parse_dict (concat (map entry_toks d) ++ [DClose "}"]) = Ok d).
        { apply IH; [|reflexivity]. cbn in LE. rewrite !app_length in *. cbn [length] in *. lia. }
        rewrite E. reflexivity. }
  intros d. now apply (X (length ts)).
Qed.

(** ** Extending lists *)
Lemma fetch_iff g p v : fetch g p = Ok v <-> at_path g p v.
Proof.
  unfold fetch, at_path. destruct p as [n [i|]]; cbn [fst snd].
  - destruct (dget g n) as [[w|d]|].
    + assert (P : forall l, parts w l -> (lindex l i = Ok v <-> nth_error l i = Some v)).
      { intros l _. unfold lindex. destruct (nth_error l i); split; intros H; try discriminate H; now injection H as ->. }
      split.
      * intros H. exists w. destruct w; try discriminate H; exists l; (split; [reflexivity|]);
          (split; [first [now left|now right]|]); apply (P l); auto; first [now left|now right].
      * intros (w' & l & E & PT & N). injection E as <-. apply (P l PT) in N.
        destruct PT as [-> | ->]; exact N.
    + split; [discriminate|]. intros (w & l & E & _). discriminate E.
    + split; [discriminate|]. intros (w & l & E & _). discriminate E.
  - destruct (dget g n) as [[w|d]|]; split; intros H; try discriminate H; now injection H as ->.
Qed.

Lemma elements_iff v l : elements v = Ok l <-> parts v l.
Proof.
  unfold parts. destruct v; cbn; split; intros H; try discriminate H; try (destruct H as [H|H]; discriminate H).
  - injection H as ->. now left.
  - destruct H as [H|H]; [now injection H as ->|discriminate H].
  - injection H as ->. now right.
  - destruct H as [H|H]; [discriminate H|now injection H as ->].
Qed.

Lemma update_at_iff l : forall i f l', update_at l i f = Ok l' <->
  exists a x y b, l = a ++ x :: b /\ length a = i /\ f x = Ok y /\ l' = a ++ y :: b.
Proof.
  induction l as [|z t IH]; intros i f l'.
  - split; [destruct i; discriminate|]. intros (a & x & y & b & E & _). now destruct a.
  - destruct i as [|i]; cbn [update_at].
    + split.
      * intros H. apply bind_ok in H as (y & F & E). injection E as <-. exists [], z, y, t. auto.
      * intros (a & x & y & b & E & LA & F & ->). destruct a; [|discriminate LA]. injection E as -> ->.
        now rewrite F.
    + split.
      * intros H. apply bind_ok in H as (t' & F & E). injection E as <-.
        apply IH in F as (a & x & y & b & -> & LA & F & ->). exists (z :: a), x, y, b. cbn. auto.
      * intros (a & x & y & b & E & LA & F & ->). destruct a as [|z' a]; [discriminate LA|].
        injection E as -> ->. injection LA as LA.
        assert (U : update_at (a ++ x :: b) i f = Ok (a ++ y :: b)) by (apply IH; exists a, x, y, b; auto).
        now rewrite U.
Qed.

Lemma extend_iff g p q g' : exec_stmt g (SExtend p q) = Ok g' <->
  exists l w more, at_path g p (VList l) /\ at_path g q w /\ parts w more /\
    replaced g p (VList (l ++ more)) g'.
Proof.
  cbn [exec_stmt]. split.
  - intros H. apply bind_ok in H as (t & H1 & H). apply bind_ok in H as (u & H2 & H).
    apply bind_ok in H as (w & H3 & H). apply bind_ok in H as (more & H4 & H).
    apply fetch_iff in H1, H3. apply elements_iff in H4.
    destruct t as [s|s|l|l]; try discriminate H2. exists l, w, more. split; [exact H1|].
    split; [exact H3|]. split; [exact H4|]. unfold replaced, at_path in *. destruct p as [n [i|]]; cbn [fst snd] in *.
    + destruct H1 as (w0 & l0 & D & PT & N). rewrite D in H.
      destruct PT as [-> | ->].
      * apply bind_ok in H as (l' & U & E). injection E as <-. apply update_at_iff in U as (a & x & y & b & -> & LA & F & ->).
        rewrite nth_error_app2 in N by lia. rewrite LA, Nat.sub_diag in N. injection N as ->.
        cbn in F. injection F as <-. exists (VList (a ++ VList (l ++ more) :: b)). split; [reflexivity|].
        eexists. split; [exact D|]. exists a, (VList l), b. auto.
      * apply bind_ok in H as (l' & U & E). injection E as <-. apply update_at_iff in U as (a & x & y & b & -> & LA & F & ->).
        rewrite nth_error_app2 in N by lia. rewrite LA, Nat.sub_diag in N. injection N as ->.
        cbn in F. injection F as <-. exists (VTuple (a ++ VList (l ++ more) :: b)). split; [reflexivity|].
        eexists. split; [exact D|]. exists a, (VList l), b. auto.
    + rewrite H1 in H. cbn in H. injection H as <-. eexists. split; reflexivity.
  - intros (l & w & more & H1 & H3 & H4 & R). pose proof H1 as H1'.
    apply fetch_iff in H1, H3. apply elements_iff in H4. rewrite H1. cbn [bind extend_val].
    rewrite H3. cbn [bind]. rewrite H4. cbn [bind].
    unfold replaced, at_path in *. destruct p as [n [i|]]; cbn [fst snd] in *.
    + destruct R as (w' & -> & w0 & D & a & x & b & LA & WP). rewrite D.
      destruct H1' as (w1 & l1 & D1 & PT & N). rewrite D in D1. injection D1 as <-.
      destruct WP as [[-> ->]|[-> ->]]; destruct PT as [PT|PT]; try discriminate PT; injection PT as <-;
        rewrite nth_error_app2 in N by lia; rewrite LA, Nat.sub_diag in N; injection N as ->;
        (rewrite (proj2 (update_at_iff _ _ _ (a ++ VList (l ++ more) :: b)));
           [reflexivity|]); exists a, (VList l), (VList (l ++ more)), b; auto.
    + destruct R as (w' & -> & ->). rewrite H1'. reflexivity.
Qed.

Lemma extend_unknown g p q : exec_stmt g (SExtend p q) = Err NameError <->
  dget g (fst p) = None \/ (exists l, at_path g p (VList l)) /\ dget g (fst q) = None.
Proof.
  assert (FN : forall r, fetch g r = Err NameError <-> dget g (fst r) = None).
  { intros [n [i|]]; unfold fetch; cbn [fst snd]; destruct (dget g n) as [[[]|]|]; try (split; intro H; (discriminate H || reflexivity));
      unfold lindex; destruct (nth_error l i); split; discriminate. }
  cbn [exec_stmt]. destruct (fetch g p) as [t|e] eqn:F1.
  - cbn [bind]. assert (D : dget g (fst p) <> None) by (intro Q; apply FN in Q; congruence).
    destruct t as [s|s|l|l]; cbn [extend_val bind];
      try (split; [discriminate|intros [Q|[[l0 Q] _]]; [contradiction|apply fetch_iff in Q; congruence]]).
    destruct (fetch g q) as [sv|e] eqn:F2.
    + cbn [bind]. split.
      * intros H. exfalso. destruct (elements sv) as [more|e'] eqn:EL.
        -- cbn [bind] in H. apply fetch_iff in F1. unfold at_path in F1. destruct p as [n [i|]]; cbn [fst snd] in *.
           ++ destruct F1 as (w & l0 & DD & PT & N). rewrite DD in H. destruct PT as [-> | ->];
                destruct (update_at l0 i _) as [|e'] eqn:U; try discriminate H; cbn in H; injection H as ->;
                clear -U; revert i U; induction l0 as [|y t IH]; intros [|i] U; cbn in U; try discriminate U;
                try (destruct y; discriminate U);
                destruct (update_at t i _) eqn:V; try discriminate U; cbn in U; injection U as ->; eauto.
           ++ rewrite F1 in H. cbn in H. discriminate H.
        -- cbn [bind] in H. injection H as ->. destruct sv; discriminate EL.
      * intros [Q|[_ Q]]; [contradiction|]. apply FN in Q. congruence.
    + cbn [bind]. split.
      * intros H. injection H as ->. right. split; [|now apply FN]. exists l. now apply fetch_iff.
      * intros [Q|[_ Q]]; [contradiction|]. apply FN in Q. rewrite F2 in Q. now injection Q as ->.
  - cbn [bind]. split.
    + intros H. injection H as ->. left. now apply FN.
    + intros [Q|[[l Q] _]]; [apply FN in Q; rewrite F1 in Q; now injection Q as ->|]. apply fetch_iff in Q. congruence.
Qed.

Lemma extend_not_list g p q v : at_path g p v -> (forall l, v <> VList l) ->
  exec_stmt g (SExtend p q) = Err AttributeError.
Proof.
  intros A N. cbn [exec_stmt]. apply fetch_iff in A. rewrite A. cbn [bind].
  destruct v; try reflexivity. now destruct (N l).
Qed.

(** ** The words of a data file *)
Definition dlexf (st : dstate) (s : str) : res (list dtok) :=
  do (ts, st') <- drun st s; do ts' <- dflush st'; Ok (ts ++ ts').

Lemma dlexf_nil st : dlexf st [] = dflush st.
Proof. unfold dlexf. cbn. now destruct (dflush st). Qed.

Lemma dlexf_cons st c s : dlexf st (c :: s) =
  do (ts, st1) <- dstep st c; do ts' <- dlexf st1 s; Ok (ts ++ ts').
Proof.
  unfold dlexf. cbn [drun]. destruct (dstep st c) as [[ts st1]|e]; [|reflexivity]. cbn [bind].
  destruct (drun st1 s) as [[ts2 st2]|e]; cbn [bind demit]; [|reflexivity].
  destruct (dflush st2); cbn; [now rewrite app_assoc|reflexivity].
Qed.

(** After the end of a token, the next character is read as at the start. *)
Lemma dlexf_demit o c s : (do (ts, st1) <- demit o (dstart c); do ts' <- dlexf st1 s; Ok (ts ++ ts')) =
  do ts' <- dlexf SStart (c :: s); Ok (o ++ ts').
Proof.
  rewrite dlexf_cons. cbn [dstep]. destruct (dstart c) as [[ts st1]|e]; [|reflexivity]. cbn [demit bind].
  destruct (dlexf st1 s); cbn; [now rewrite app_assoc|reflexivity].
Qed.

Definition dst_ok (st : dstate) : Prop :=
  match st with
  | SName acc => exists c t, acc = c :: t /\ (is_letter c || Ascii.eqb c "_") = true /\ forallb is_word t = true
  | SStr acc | SStrEnd acc => ~ In quote acc /\ ~ In "\"%char acc /\ ~ In nl acc
  | _ => True
  end.

(** What a state of the reader and the rest of the text stand for. *)
Definition dmeans (st : dstate) (ts : list dtok) (s : str) : Prop :=
  match st with
  | SBol => d_reads true ts s
  | SStart => d_reads false ts s
  | SNum acc | SName acc => forall b, d_reads b ts (acc ++ s)
  | SStr acc => forall b, d_reads b ts (quote :: acc ++ s)
  | SStrEnd acc => forall b, d_reads b ts (quote :: acc ++ quote :: s)
  | SComment => exists c r, s = c ++ r /\ ~ In nl c /\ (r = [] \/ exists t, r = nl :: t) /\ d_reads false ts r
  end.

Ltac deq H := apply Ascii.eqb_eq in H; subst.

Lemma d_single b t ts s c : dtok_ok t -> dspell t = [c] -> (match t with DNum _ | DName _ | DStr _ => False | _ => True end) ->
  d_reads false ts s -> d_reads b (t :: ts) (c :: s).
Proof.
  intros Hok Hs Hn H. change (c :: s) with ([c] ++ s). rewrite <- Hs. apply dr_tok; try assumption.
  destruct t; cbn in *; try tauto.
Qed.

Lemma dstart_means c ts st1 : dstart c = Ok (ts, st1) ->
  dst_ok st1 /\ (forall ts' s b, (b = true -> c <> " "%char) -> dmeans st1 ts' s -> d_reads b (ts ++ ts') (c :: s)).
Proof.
  unfold dstart. intro H.
  destruct (Ascii.eqb c " ") eqn:E1.
  { injection H as <- <-. deq E1. split; [exact I|]. cbn. intros ts' s [] Hb D.
    - exfalso. now apply Hb.
    - now apply dr_blank. }
  destruct (Ascii.eqb c nl) eqn:E2.
  { injection H as <- <-. deq E2. split; [exact I|]. cbn. intros ts' s b _ D. now apply dr_nl. }
  destruct (is_digit c || Ascii.eqb c "-") eqn:E3.
  { injection H as <- <-. split; [exact I|]. cbn. intros ts' s b _ D. apply D. }
  destruct (is_letter c || Ascii.eqb c "_") eqn:E4.
  { injection H as <- <-. split; [|cbn; intros ts' s b _ D; apply D]. exists c, []. auto. }
  destruct (Ascii.eqb c quote) eqn:E5.
  { injection H as <- <-. deq E5. split; [cbn; tauto|]. cbn. intros ts' s b _ D. apply D. }
  destruct (Ascii.eqb c "#") eqn:E6.
  { injection H as <- <-. deq E6. split; [exact I|]. cbn. intros ts' s b _ (x & r & -> & Hx & Hr & D).
    now apply dr_comment. }
  destruct (Ascii.eqb c "[" || Ascii.eqb c "(" || Ascii.eqb c "{") eqn:E7.
  { injection H as <- <-. split; [exact I|]. cbn. intros ts' s b _ D. apply d_single; auto.
    cbn. rewrite !orb_true_iff, !Ascii.eqb_eq in E7. intuition. }
  destruct (Ascii.eqb c "]" || Ascii.eqb c ")" || Ascii.eqb c "}") eqn:E8.
  { injection H as <- <-. split; [exact I|]. cbn. intros ts' s b _ D. apply d_single; auto.
    cbn. rewrite !orb_true_iff, !Ascii.eqb_eq in E8. intuition. }
  destruct (Ascii.eqb c ",") eqn:E9.
  { injection H as <- <-. deq E9. split; [exact I|]. cbn. intros ts' s b _ D. apply d_single; cbn; auto. }
  destruct (Ascii.eqb c ":") eqn:E10.
  { injection H as <- <-. deq E10. split; [exact I|]. cbn. intros ts' s b _ D. apply d_single; cbn; auto. }
  destruct (Ascii.eqb c ".") eqn:E11.
  { injection H as <- <-. deq E11. split; [exact I|]. cbn. intros ts' s b _ D. apply d_single; cbn; auto. }
  destruct (Ascii.eqb c "=") eqn:E12; [|discriminate].
  injection H as <- <-. deq E12. split; [exact I|]. cbn. intros ts' s b _ D. apply d_single; cbn; auto.
Qed.

(** Completeness. *)
Lemma dlexf_bol c s : c <> " "%char -> dlexf SBol (c :: s) = dlexf SStart (c :: s).
Proof. intro H. rewrite !dlexf_cons. cbn [dstep]. now apply Ascii.eqb_neq in H as ->. Qed.

Lemma dlexf_sound s : forall st ts, dst_ok st -> dlexf st s = Ok ts -> dmeans st ts s.
Proof.
  induction s as [|c s IH]; intros st ts Hst H.
  - rewrite dlexf_nil in H. destruct st; cbn in *.
    + injection H as <-. constructor.
    + injection H as <-. constructor.
    + unfold end_num in H. destruct (number_text acc) eqn:N; [|discriminate]. injection H as <-.
      intro b. apply (dr_tok b (DNum acc)); cbn; auto. constructor.
    + unfold end_name in H. destruct (str_mem acc keywords) eqn:K; [discriminate|]. injection H as <-.
      intro b. apply (dr_tok b (DName acc)); cbn; auto; [|constructor].
      destruct Hst as (c0 & t & -> & H0 & Ht). unfold name_text. now rewrite H0, Ht, K.
    + discriminate.
    + injection H as <-. intro b.
      change (quote :: acc ++ [quote]) with (L "'" ++ acc ++ L "'").
      rewrite <- (app_nil_r (L "'" ++ acc ++ L "'")).
      apply (dr_tok b (DStr acc)); cbn; auto. constructor.
    + injection H as <-. exists [], []. repeat split; auto. constructor.
  - assert (Start : forall ts, dlexf SStart (c :: s) = Ok ts ->
        forall b, (b = true -> c <> " "%char) -> d_reads b ts (c :: s)).
    { intros us Hu b Hb. rewrite dlexf_cons in Hu. cbn [dstep] in Hu.
      apply bind_ok in Hu as ((o & st1) & D & Hu). apply bind_ok in Hu as (ts' & Hu & E). injection E as <-.
      destruct (dstart_means _ _ _ D) as (Ok1 & M). apply M; [assumption|]. now apply IH. }
    destruct st.
    + destruct (ascii_dec c " ") as [->|N].
      * rewrite dlexf_cons in H. cbn in H. apply bind_ok in H as (ts' & H & E). injection E as <-.
        cbn. apply dr_indent. now apply (IH SStart).
      * rewrite dlexf_bol in H by assumption. cbn. now apply Start.
    + cbn. apply Start; [assumption|discriminate].
    + rewrite dlexf_cons in H. cbn [dstep] in H. destruct (num_cont c) eqn:N.
      * cbn in H. apply bind_ok in H as (ts' & H & E). injection E as <-.
        apply IH in H; [|exact I]. cbn in H |- *. intro b. specialize (H b). now rewrite <- app_assoc in H.
      * unfold end_num in H. destruct (number_text acc) eqn:NT; [|discriminate]. cbn [bind] in H.
        rewrite dlexf_demit in H. apply bind_ok in H as (ts' & H & E). injection E as <-.
        intro b. apply (dr_tok b (DNum acc)); [exact NT|exact N|]. apply Start; [assumption|discriminate].
    + rewrite dlexf_cons in H. cbn [dstep] in H. destruct Hst as (c0 & t & Ea & H0 & Ht).
      destruct (is_word c) eqn:N.
      * cbn in H. apply bind_ok in H as (ts' & H & E). injection E as <-.
        apply IH in H; [|exists c0, (t ++ [c]); subst acc; repeat split; auto;
                         rewrite forallb_app, Ht; cbn; now rewrite N].
        cbn in H |- *. intro b. specialize (H b). now rewrite <- app_assoc in H.
      * destruct (Ascii.eqb c quote && literal_prefix acc) eqn:Q; [discriminate|].
        unfold end_name in H. destruct (str_mem acc keywords) eqn:K; [discriminate|]. cbn [bind] in H.
        rewrite dlexf_demit in H. apply bind_ok in H as (ts' & H & E). injection E as <-.
        intro b. apply (dr_tok b (DName acc)).
        -- cbn. subst acc. unfold name_text. now rewrite H0, Ht, K.
        -- cbn. split; [assumption|]. intros ->. rewrite Ascii.eqb_refl in Q. exact Q.
        -- apply Start; [assumption|discriminate].
    + rewrite dlexf_cons in H. cbn [dstep] in H.
      destruct (Ascii.eqb c quote) eqn:Q.
      { deq Q. cbn in H. apply bind_ok in H as (ts' & H & E). injection E as <-.
        apply IH in H; [|exact Hst]. exact H. }
      destruct (Ascii.eqb c "\") eqn:B; [discriminate|].
      destruct (Ascii.eqb c nl) eqn:Nl; [discriminate|].
      cbn in H. apply bind_ok in H as (ts' & H & E). injection E as <-.
      apply Ascii.eqb_neq in Q, B, Nl. cbn in Hst.
      apply IH in H; [|cbn; rewrite !in_app_iff; cbn; intuition congruence].
      cbn in H |- *. intro b. specialize (H b). now rewrite <- app_assoc in H.
    + rewrite dlexf_cons in H. cbn [dstep] in H.
      destruct (Ascii.eqb c quote) eqn:Q; [discriminate|].
      rewrite dlexf_demit in H. apply bind_ok in H as (ts' & H & E). injection E as <-.
      intro b.
      replace (quote :: acc ++ quote :: c :: s) with (dspell (DStr acc) ++ c :: s)
        by (cbn; now rewrite <- app_assoc).
      apply (dr_tok b (DStr acc)); [exact Hst|cbn; now apply Ascii.eqb_neq|].
      apply Start; [assumption|discriminate].
    + rewrite dlexf_cons in H. cbn [dstep] in H.
      destruct (Ascii.eqb c nl) eqn:Nl.
      * deq Nl. cbn in H. apply bind_ok in H as (ts' & H & E). injection E as <-.
        apply IH in H; [|exact I]. exists [], (nl :: s). repeat split; eauto. now apply dr_nl.
      * cbn in H. apply bind_ok in H as (ts' & H & E). injection E as <-.
        apply IH in H; [|exact I]. destruct H as (x & r & -> & Hx & Hr & D).
        exists (c :: x), r. repeat split; auto. apply Ascii.eqb_neq in Nl. cbn. intuition congruence.
Qed.

Lemma dlexf_app st a st1 s : drun st a = Ok ([], st1) -> dlexf st (a ++ s) = dlexf st1 s.
Proof.
  intro H. unfold dlexf. rewrite drun_app, H. cbn [bind]. now rewrite demit_nil.
Qed.

Lemma dlexf_end st o s : (dflush st = Ok o) ->
  (forall c t, s = c :: t -> dstep st c = demit o (dstart c)) ->
  dlexf st s = do ts' <- dlexf SStart s; Ok (o ++ ts').
Proof.
  intros F D. destruct s as [|c t].
  - rewrite !dlexf_nil, F. cbn. now rewrite app_nil_r.
  - rewrite dlexf_cons, (D c t eq_refl). apply dlexf_demit.
Qed.

Lemma drun_word a : forall acc, forallb is_word a = true -> drun (SName acc) a = Ok ([], SName (acc ++ a)).
Proof. intros acc H. pose proof (drun_name acc a [] H) as E. rewrite app_nil_r in E. now rewrite E. Qed.

Lemma drun_number a : forall acc, forallb num_cont a = true -> drun (SNum acc) a = Ok ([], SNum (acc ++ a)).
Proof. intros acc H. pose proof (drun_num acc a [] H) as E. rewrite app_nil_r in E. now rewrite E. Qed.

Lemma drun_text a : forall acc, ~ In quote a -> ~ In "\"%char a -> ~ In nl a ->
  drun (SStr acc) a = Ok ([], SStr (acc ++ a)).
Proof.
  induction a as [|c a IH]; intros acc H1 H2 H3; [cbn; now rewrite app_nil_r|].
  cbn in H1, H2, H3. cbn [drun dstep].
  assert (Ascii.eqb c quote = false) as -> by (apply Ascii.eqb_neq; tauto).
  assert (Ascii.eqb c "\" = false) as -> by (apply Ascii.eqb_neq; tauto).
  assert (Ascii.eqb c nl = false) as -> by (apply Ascii.eqb_neq; tauto).
  cbn [bind]. rewrite demit_nil, IH by tauto. now rewrite <- app_assoc.
Qed.

Lemma dlexf_tok t s : dtok_ok t -> dfollows t s ->
  dlexf SStart (dspell t ++ s) = do ts' <- dlexf SStart s; Ok (t :: ts').
Proof.
  intros Hok Hf. destruct t; cbn [dspell].
  - cbn in Hok. unfold name_text in Hok. apply andb_true_iff in Hok as [Hs Hk].
    apply negb_true_iff in Hk. destruct s0 as [|c0 w]; [discriminate|].
    apply andb_true_iff in Hs as [H0 Hw]. destruct (letter_not c0 H0) as (N1 & N2 & N3).
    assert (R : drun SStart (c0 :: w) = Ok ([], SName (c0 :: w))).
    { cbn [drun dstep]. unfold dstart. rewrite N1, N2, N3, H0. cbn [bind]. rewrite demit_nil, drun_word by assumption.
      reflexivity. }
    rewrite (dlexf_app _ _ _ _ R). change (DName (c0 :: w) :: ?x) with ([DName (c0 :: w)] ++ x).
    apply (dlexf_end _ [DName (c0 :: w)]).
    + cbn [dflush]. unfold end_name. now rewrite Hk.
    + intros c t ->. cbn in Hf. destruct Hf as (Hc & Hq). cbn [dstep]. rewrite Hc.
      destruct (Ascii.eqb_spec c quote) as [->|].
      * rewrite (Hq eq_refl). cbn [andb]. unfold end_name. now rewrite Hk.
      * cbn [andb]. unfold end_name. now rewrite Hk.
  - cbn in Hok. destruct (number_first _ Hok) as (c0 & w & E & Hd & Hn).
    destruct (first_not c0 Hd) as (H1 & H2 & H3).
    assert (R : drun SStart s0 = Ok ([], SNum s0)).
    { rewrite E. cbn [drun dstep]. unfold dstart. rewrite H1, H2, Hd. cbn [bind].
      rewrite demit_nil, drun_number by assumption. reflexivity. }
    rewrite (dlexf_app _ _ _ _ R). apply (dlexf_end _ [DNum s0]).
    + cbn [dflush]. unfold end_num. now rewrite Hok.
    + intros c t ->. cbn in Hf. cbn [dstep]. rewrite Hf. unfold end_num. now rewrite Hok.
  - destruct Hok as (H1 & H2 & H3).
    assert (R : drun SStart (L "'" ++ s0 ++ L "'") = Ok ([], SStrEnd s0)).
    { rewrite drun_app. change (drun SStart (L "'")) with (Ok ([] : list dtok, SStr [])). cbn [bind].
      rewrite demit_nil, drun_app, drun_text by assumption. cbn [bind]. rewrite demit_nil. reflexivity. }
    rewrite (dlexf_app _ _ _ _ R). apply (dlexf_end _ [DStr s0]); [reflexivity|].
    intros c t ->. cbn in Hf. cbn [dstep]. now apply Ascii.eqb_neq in Hf as ->.
  - cbn in Hok. destruct Hok as [<-|[<-|[<-|[]]]]; cbn [app]; rewrite dlexf_cons; reflexivity.
  - cbn in Hok. destruct Hok as [<-|[<-|[<-|[]]]]; cbn [app]; rewrite dlexf_cons; reflexivity.
  - cbn [L list_ascii_of_string app]; rewrite dlexf_cons; reflexivity.
  - cbn [L list_ascii_of_string app]; rewrite dlexf_cons; reflexivity.
  - cbn [L list_ascii_of_string app]; rewrite dlexf_cons; reflexivity.
  - cbn [L list_ascii_of_string app]; rewrite dlexf_cons; reflexivity.
  - destruct Hok.
  - destruct Hok.
Qed.

Lemma dspell_first t : dtok_ok t -> exists c w, dspell t = c :: w /\ c <> " "%char.
Proof.
  destruct t; cbn; intro H; try (now destruct H); try (eexists; eexists; split; [reflexivity|discriminate]).
  - unfold name_text in H. apply andb_true_iff in H as [Hs _]. destruct s as [|c w]; [discriminate|].
    apply andb_true_iff in Hs as [H0 _]. destruct (letter_not c H0) as (N1 & _).
    exists c, w. split; [reflexivity|now apply Ascii.eqb_neq].
  - destruct (number_first _ H) as (c & w & -> & Hd & _). destruct (first_not c Hd) as (N1 & _).
    exists c, w. split; [reflexivity|now apply Ascii.eqb_neq].
  - destruct H as [<-|[<-|[<-|[]]]]; eexists; eexists; split; try reflexivity; discriminate.
  - destruct H as [<-|[<-|[<-|[]]]]; eexists; eexists; split; try reflexivity; discriminate.
Qed.

Lemma dlexf_complete b ts s : d_reads b ts s -> dlexf (if b then SBol else SStart) s = Ok ts.
Proof.
  induction 1.
  - now destruct b.
  - rewrite dlexf_cons. cbn. now rewrite IHd_reads.
  - rewrite dlexf_cons. cbn. now rewrite IHd_reads.
  - assert (E : dlexf SStart (nl :: s) = Ok (DNl :: ts)) by (rewrite dlexf_cons; cbn; now rewrite IHd_reads).
    destruct b; [rewrite dlexf_bol by discriminate|]; exact E.
  - assert (E : dlexf SStart ("#"%char :: c ++ s) = Ok ts).
    { rewrite dlexf_cons. cbn [dstep]. change (dstart "#") with (Ok ([] : list dtok, SComment)). cbn [bind app].
      unfold dlexf at 1. rewrite drun_comment by assumption. fold (dlexf SComment s).
      assert (dlexf SComment s = dlexf SStart s) as ->; [|now rewrite IHd_reads].
      destruct H0 as [-> | (r & ->)]; [reflexivity|]. rewrite !dlexf_cons. reflexivity. }
    destruct b; [rewrite dlexf_bol by discriminate|]; exact E.
  - assert (E : dlexf SStart (dspell t ++ s) = Ok (t :: ts))
      by (rewrite dlexf_tok by assumption; now rewrite IHd_reads).
    destruct b; [|exact E]. destruct (dspell_first t H) as (c & w & Es & Hc). rewrite Es in E |- *.
    cbn [app] in *. now rewrite dlexf_bol.
Qed.

Lemma dlex_iff s ts : dlex s = Ok ts <-> d_reads true ts s.
Proof.
  split; [apply (dlexf_sound s SBol); exact I|apply (dlexf_complete true)].
Qed.

(** ** Lines *)
Lemma parse_dict_entries r d : parse_dict r = Ok d <-> r = d_entries d ++ [DClose "}"].
Proof. exact (parse_dict_iff r d). Qed.

Ltac crunch H :=
  repeat match type of H with
  | match ?x with _ => _ end = Ok _ => destruct x; try discriminate H
  end.

Definition good (ts : list dtok) : Prop := forall c, In (DOpen c) ts -> In c (L "[({").

Lemma index_text_some s i : index_text s = Some i <-> forallb is_digit s = true /\ i = Z.to_nat (int_of s).
Proof.
  unfold index_text. destruct (forallb is_digit s); split; intro H; try discriminate H.
  - injection H as <-. auto.
  - destruct H as (_ & ->). reflexivity.
  - destruct H; discriminate.
Qed.

Lemma line_sound ts s : good ts -> parse_line ts = Ok s -> d_line ts s.
Proof.
  intros G H. destruct ts as [|t0 ts]; [injection H as <-; constructor|].
  destruct t0; try discriminate H. destruct ts as [|t1 ts]; [discriminate H|].
  destruct t1; try discriminate H.
  - (* n[i].extend(m[j]) *)
    cbn [parse_line] in H.
    destruct c as [[] [] [] [] [] [] [] []]; try discriminate H.
    destruct ts as [|[] ts]; try discriminate H. destruct ts as [|[] ts]; try discriminate H.
    destruct c as [[] [] [] [] [] [] [] []]; try discriminate H.
    destruct ts as [|[] ts]; try discriminate H. destruct ts as [|[] ts]; try discriminate H.
    destruct ts as [|[] ts]; try discriminate H.
    destruct c as [[] [] [] [] [] [] [] []]; try discriminate H.
    destruct ts as [|[] ts]; try discriminate H. destruct ts as [|[] ts]; try discriminate H.
    destruct c as [[] [] [] [] [] [] [] []]; try discriminate H.
    destruct ts as [|[] ts]; try discriminate H. destruct ts as [|[] ts]; try discriminate H.
    destruct c as [[] [] [] [] [] [] [] []]; try discriminate H.
    destruct ts as [|[] ts]; try discriminate H.
    destruct c as [[] [] [] [] [] [] [] []]; try discriminate H.
    destruct ts; try discriminate H.
    destruct (index_text s1) as [i|] eqn:I1; [|discriminate H].
    destruct (index_text s4) as [j|] eqn:I2; [|discriminate H].
    destruct (str_eqb_spec s2 (L "extend")) as [->|]; [|discriminate H]. injection H as <-.
    apply index_text_some in I1 as (D1 & ->). apply index_text_some in I2 as (D2 & ->).
    apply (dl_extend [DName s0; DOpen "["; DNum s1; DClose "]"] _ [DName s3; DOpen "["; DNum s4; DClose "]"]);
      [now constructor|now constructor|right; discriminate].
  - (* n.extend(...) *)
    cbn [parse_line] in H.
    destruct ts as [|[] ts]; try discriminate H. destruct ts as [|[] ts]; try discriminate H.
    destruct c as [[] [] [] [] [] [] [] []]; try discriminate H.
    destruct ts as [|[] ts]; try discriminate H. destruct ts as [|[] ts]; try discriminate H.
    + destruct c as [[] [] [] [] [] [] [] []]; try discriminate H.
      destruct ts as [|[] ts]; try discriminate H. destruct ts as [|[] ts]; try discriminate H.
      destruct c as [[] [] [] [] [] [] [] []]; try discriminate H.
      destruct ts as [|[] ts]; try discriminate H.
      destruct c as [[] [] [] [] [] [] [] []]; try discriminate H.
      destruct ts; try discriminate H.
      destruct (index_text s3) as [j|] eqn:I2; [|discriminate H].
      destruct (str_eqb_spec s1 (L "extend")) as [->|]; [|discriminate H]. injection H as <-.
      apply index_text_some in I2 as (D2 & ->).
      apply (dl_extend [DName s0] _ [DName s2; DOpen "["; DNum s3; DClose "]"]);
        [now constructor|now constructor|now left].
    + destruct c as [[] [] [] [] [] [] [] []]; try discriminate H.
      destruct ts; try discriminate H.
      destruct (str_eqb_spec s1 (L "extend")) as [->|]; [|discriminate H]. injection H as <-.
      apply (dl_extend [DName s0] _ [DName s2]); [now constructor|now constructor|now left].
  - (* n = ... *)
    assert (V : forall v, parse_val ts = Ok v -> d_val ts v).
    { intros v. apply parse_val_iff. intros c I0. apply G. now right; right. }
    destruct ts as [|t2 ts]; [discriminate H|].
    destruct t2; try (change (parse_line (DName s0 :: DEq :: ?x :: ts)) with
        (do v <- parse_val (x :: ts); Ok (SAssign s0 (OVal v))) in H;
      apply bind_ok in H as (v & H & E); injection E as <-; apply dl_assign; now apply V).
    cbn [parse_line] in H. destruct (Ascii.eqb_spec c "{") as [->|].
    + apply bind_ok in H as (d & H & E). injection E as <-. apply parse_dict_entries in H as ->. apply dl_dict.
    + apply bind_ok in H as (v & H & E). injection E as <-. apply dl_assign. now apply V.
Qed.

Lemma d_val_first ts v : d_val ts v -> ts <> [] /\ (forall r, ts <> DOpen "{" :: r).
Proof. destruct 1; split; try discriminate; intros r E; discriminate E. Qed.

Lemma d_val_parse ts v : d_val ts v -> parse_val ts = Ok v.
Proof. intro V. unfold parse_val. now rewrite (proj1 complete ts v V []) by exact I. Qed.

Lemma line_complete ts s : d_line ts s -> parse_line ts = Ok s.
Proof.
  destruct 1 as [|n ts v V|n d|tp p tq q P Q C].
  - reflexivity.
  - destruct (d_val_first _ _ V) as (N & N'). pose proof (d_val_parse _ _ V) as E.
    destruct ts as [|t ts]; [now destruct N|].
    destruct t; cbn [parse_line]; try (rewrite E; reflexivity).
    destruct (Ascii.eqb_spec c "{") as [->|]; [now destruct (N' ts)|]. now rewrite E.
  - cbn [parse_line]. rewrite Ascii.eqb_refl.
    rewrite (proj2 (parse_dict_entries _ d) eq_refl). reflexivity.
  - destruct P as [n|n i Di], Q as [m|m j Dj]; cbn [app fst snd] in *.
    + reflexivity.
    + cbn [parse_line]. rewrite (proj2 (index_text_some j _) (conj Dj eq_refl)). reflexivity.
    + destruct C as [C|C]; [discriminate C|now destruct C].
    + cbn [parse_line]. rewrite (proj2 (index_text_some i _) (conj Di eq_refl)).
      rewrite (proj2 (index_text_some j _) (conj Dj eq_refl)). reflexivity.
Qed.

(** ** Logical lines *)
(** The brackets of a line are closed at its end and none before it is opened. *)
Fixpoint closes (n : nat) (us : list dtok) : Prop :=
  match us with
  | [] => n = 0
  | DOpen _ :: r => closes (S n) r
  | DClose _ :: r => match n with 0 => False | S m => closes m r end
  | _ :: r => closes n r
  end.

Lemma d_closes :
  (forall ts v, d_val ts v -> forall n r, closes n r -> closes n (ts ++ r)) /\
  (forall ts l, d_seq ts l -> forall n r, closes n r -> closes n (ts ++ r)).
Proof.
  apply d_mutind; intros; cbn [app closes]; auto; rewrite <- ?app_assoc; cbn [app]; auto;
    apply H; cbn [closes]; auto.
Qed.

Lemma entries_closes d n r : closes n r -> closes n (d_entries d ++ r).
Proof. intro H. induction d as [|kv d IH]; [exact H|]. cbn. exact IH. Qed.

Lemma line_closes us s : d_line us s -> closes 0 us.
Proof.
  destruct 1 as [|n ts v V|n d|tp p tq q P Q C]; cbn [closes].
  - reflexivity.
  - rewrite <- (app_nil_r ts). now apply (proj1 d_closes ts v V).
  - apply entries_closes. reflexivity.
  - destruct P, Q; reflexivity.
Qed.

Lemma group_joined n ts us : d_joined n ts us -> forall acc r,
  group n acc (ts ++ DNl :: r) = (acc ++ us) :: group 0 [] r /\ group n acc ts = [acc ++ us].
Proof.
  induction 1; intros acc r; cbn [app group].
  - now rewrite app_nil_r.
  - destruct (IHd_joined (acc ++ [DIndent]) r) as (A & B). rewrite <- app_assoc in *. auto.
  - destruct (IHd_joined acc r) as (A & B). destruct H as [-> | ->]; auto.
  - destruct (IHd_joined (acc ++ [DOpen c]) r) as (A & B). rewrite <- app_assoc in *. auto.
  - destruct (IHd_joined (acc ++ [DClose c]) r) as (A & B). rewrite <- app_assoc in *. auto.
  - destruct (IHd_joined (acc ++ [t]) r) as (A & B). rewrite <- app_assoc in *. destruct t; try destruct H; auto.
Qed.

Lemma group_split : forall ts n acc, exists us rest, group n acc ts = (acc ++ us) :: rest /\
  (closes n us -> (rest = [] /\ d_joined n ts us) \/
     (exists a r, ts = a ++ DNl :: r /\ d_joined n a us /\ rest = group 0 [] r)).
Proof.
  assert (Step : forall t ts n n' acc,
    (forall n acc, exists us rest, group n acc ts = (acc ++ us) :: rest /\
      (closes n us -> (rest = [] /\ d_joined n ts us) \/
        (exists a r, ts = a ++ DNl :: r /\ d_joined n a us /\ rest = group 0 [] r))) ->
    group n acc (t :: ts) = group n' (acc ++ [t]) ts ->
    (forall us, closes n (t :: us) -> closes n' us) ->
    (forall a us, closes n (t :: us) -> d_joined n' a us -> d_joined n (t :: a) (t :: us)) ->
    exists us rest, group n acc (t :: ts) = (acc ++ us) :: rest /\
      (closes n us -> (rest = [] /\ d_joined n (t :: ts) us) \/
        (exists a r, t :: ts = a ++ DNl :: r /\ d_joined n a us /\ rest = group 0 [] r))).
  { intros t ts n n' acc IH G C J. destruct (IH n' (acc ++ [t])) as (us & rest & E & K).
    exists (t :: us), rest. rewrite G, E, <- app_assoc. split; [reflexivity|]. intro Cl.
    destruct (K (C _ Cl)) as [(-> & D)|(a & r & -> & D & ->)].
    - left. split; [reflexivity|]. now apply J.
    - right. exists (t :: a), r. repeat split; auto. }
  assert (Word : forall t ts n acc, match t with DNl | DIndent | DOpen _ | DClose _ => False | _ => True end ->
    (forall n acc, exists us rest, group n acc ts = (acc ++ us) :: rest /\
      (closes n us -> (rest = [] /\ d_joined n ts us) \/
        (exists a r, ts = a ++ DNl :: r /\ d_joined n a us /\ rest = group 0 [] r))) ->
    exists us rest, group n acc (t :: ts) = (acc ++ us) :: rest /\
      (closes n us -> (rest = [] /\ d_joined n (t :: ts) us) \/
        (exists a r, t :: ts = a ++ DNl :: r /\ d_joined n a us /\ rest = group 0 [] r))).
  { intros t ts' n acc W IH. apply (Step t ts' n n acc IH).
    - destruct t; try destruct W; reflexivity.
    - intros us. destruct t; try destruct W; auto.
    - intros a us _ D. now apply dj_word. }
  induction ts as [|t ts IH]; intros n acc.
  - exists [], []. cbn [group]. rewrite app_nil_r. split; [reflexivity|]. cbn. intros ->. left. split; [reflexivity|constructor].
  - destruct t; try (apply Word; [exact I|exact IH]).
    + apply (Step _ _ n (S n) acc IH); auto. intros a us _ D. now apply dj_open.
    + destruct n as [|n].
      * destruct (IH 0 (acc ++ [DClose c])) as (us & rest & E & _).
        exists (DClose c :: us), rest. cbn [group pred]. rewrite E, <- app_assoc. split; [reflexivity|]. intros [].
      * apply (Step _ _ (S n) n acc IH); auto. intros a us _ D. now apply dj_close.
    + destruct n as [|n].
      * exists [], (group 0 [] ts). cbn [group]. rewrite app_nil_r. split; [reflexivity|]. intros _.
        right. exists [], ts. repeat split. constructor.
      * destruct (IH (S n) acc) as (us & rest & E & K). exists us, rest. cbn [group]. rewrite E.
        split; [reflexivity|]. intro Cl. destruct (K Cl) as [(-> & D)|(a & r & -> & D & ->)].
        -- left. split; [reflexivity|]. apply dj_skip; auto.
        -- right. exists (DNl :: a), r. repeat split; auto. apply dj_skip; auto.
    + destruct n as [|n].
      * apply (Step _ _ 0 0 acc IH); auto. intros a us _ D. now apply dj_indent.
      * destruct (IH (S n) acc) as (us & rest & E & K). exists us, rest. cbn [group]. rewrite E.
        split; [reflexivity|]. intro Cl. destruct (K Cl) as [(-> & D)|(a & r & -> & D & ->)].
        -- left. split; [reflexivity|]. apply dj_skip; auto.
        -- right. exists (DIndent :: a), r. repeat split; auto. apply dj_skip; auto.
Qed.

Lemma joined_in n ts us t : d_joined n ts us -> In t us -> In t ts.
Proof. induction 1; cbn; intuition. Qed.

Lemma file_complete ts l : d_file ts l -> mapM parse_line (group 0 [] ts) = Ok l.
Proof.
  induction 1 as [ts us s J D|ts us s r l J D F IH].
  - destruct (group_joined _ _ _ J [] []) as (_ & ->). cbn. now rewrite (line_complete _ _ D).
  - destruct (group_joined _ _ _ J [] r) as (-> & _). cbn [app mapM]. rewrite (line_complete _ _ D). cbn [bind].
    now rewrite IH.
Qed.

Lemma file_sound : forall k ts l, length ts <= k -> good ts -> mapM parse_line (group 0 [] ts) = Ok l -> d_file ts l.
Proof.
  induction k as [|k IH]; intros ts l Lk G H;
    destruct (group_split ts 0 []) as (us & rest & E & K); rewrite E in H; cbn [app mapM] in H;
    apply bind_ok in H as (s & Hs & H); apply bind_ok in H as (l1 & Hl & H); injection H as <-.
  - destruct ts; [|cbn in Lk; lia]. cbn in E. injection E as <- <-. injection Hs as <-. injection Hl as <-.
    apply (df_last _ []); constructor.
  - assert (U : good us -> d_line us s) by (intro Gu; now apply line_sound).
    assert (Gu : forall t, In t us -> In t ts).
    { clear - E. revert E. intro E.
      assert (X : forall ts n acc x y, group n acc ts = x :: y -> forall t, In t x -> In t acc \/ In t ts).
      { clear. induction ts as [|t ts IH]; intros n acc x y H u I0.
        - cbn in H. injection H as <- <-. auto.
        - assert (T : forall n', group n' (acc ++ [t]) ts = x :: y -> In u acc \/ In u (t :: ts)).
          { intros n' H'. destruct (IH _ _ _ _ H' _ I0) as [A|A]; [apply in_app_iff in A as [A|[A|[]]]|]; cbn; auto. }
          destruct t; cbn [group] in H; try (now apply (T n)).
          + now apply (T (S n)).
          + now apply (T (pred n)).
          + destruct n.
            * injection H as <- <-. auto.
            * destruct (IH _ _ _ _ H _ I0); cbn; auto.
          + destruct n.
            * now apply (T 0).
            * destruct (IH _ _ _ _ H _ I0); cbn; auto. }
      intros t I0. destruct (X _ _ _ _ _ E t I0) as [[]|A]. exact A. }
    assert (DL : d_line us s) by (apply U; intros c I0; apply G; now apply Gu).
    destruct (K (line_closes _ _ DL)) as [(-> & D)|(a & r & -> & D & ->)].
    + injection Hl as <-. now apply (df_last _ us).
    + apply (df_more _ us); auto. apply IH; auto.
      * rewrite app_length in Lk. cbn in Lk. lia.
      * intros c I0. apply G. apply in_app_iff. now right; right.
Qed.

Lemma reads_good b ts s : d_reads b ts s -> good ts.
Proof.
  induction 1; intros c0 I0; cbn in I0; intuition; try discriminate.
  subst t. exact H.
Qed.

Lemma parse_prog_iff s l : parse_prog s = Ok l <-> exists ts, d_reads true ts s /\ d_file ts l.
Proof.
  unfold parse_prog. split.
  - intro H. apply bind_ok in H as (ts & H1 & H). apply dlex_iff in H1. exists ts. split; [assumption|].
    apply (file_sound (length ts)); auto. now apply (reads_good true ts s).
  - intros (ts & H1 & H). apply dlex_iff in H1. rewrite H1. cbn. now apply file_complete.
Qed.

Lemma exec_stmt_iff g s g' : exec_stmt g s = Ok g' <-> does s g g'.
Proof.
  destruct s as [n o|p q|].
  - cbn. split; [intro H; now injection H as <-|now intros ->].
  - apply extend_iff.
  - cbn. split; [intro H; now injection H as <-|now intros ->].
Qed.

Lemma exec_stmts_iff l : forall g g', exec_stmts g l = Ok g' <-> all_do l g g'.
Proof.
  induction l as [|s l IH]; intros g g'; cbn [exec_stmts].
  - split; [intro H; injection H as <-; constructor|now inversion 1].
  - split.
    + intro H. apply bind_ok in H as (g1 & H1 & H). apply (ad_cons _ _ _ g1); [now apply exec_stmt_iff|now apply IH].
    + inversion 1 as [|? ? ? g1 ? A B]; subst. apply exec_stmt_iff in A. rewrite A. cbn. now apply IH.
Qed.

Lemma exec_file_iff s g : exec_file s = Ok g <->
  exists ts l, d_reads true ts s /\ d_file ts l /\ all_do l [] g.
Proof.
  unfold exec_file. split.
  - intro H. apply bind_ok in H as (l & H1 & H). apply parse_prog_iff in H1 as (ts & A & B).
    exists ts, l. repeat split; auto. now apply exec_stmts_iff.
  - intros (ts & l & A & B & C). rewrite (proj2 (parse_prog_iff s l)) by eauto. cbn. now apply exec_stmts_iff.
Qed.

(** ** Items without a comma between them *)
Lemma beside ts l v t rest : d_seq ts (l ++ [v]) ->
  parse_val (DOpen "[" :: ts ++ DStr t :: rest)
  = Err (match v with VStr _ => Unsupported | _ => SyntaxError end).
Proof.
  intro H. unfold parse_val. cbn [prun]. rewrite (open_step [] _ false) by (auto; exact I). cbn [bind].
  rewrite prun_app, (proj2 complete _ _ H) by reflexivity. cbn [bind prun pstep feed item_frame f_item f_items fr app].
  unfold last_item. rewrite rev_app_distr. cbn [rev app]. destruct v; reflexivity.
Qed.

Lemma literal_prefixes s : literal_prefix s = true <->
  (length s <= 2)%nat /\ forall c, In c s -> In c ["r"; "R"; "u"; "U"; "b"; "B"; "f"; "F"]%char.
Proof.
  unfold literal_prefix. rewrite andb_true_iff, Nat.leb_le, forallb_forall.
  split; intros [H1 H2].
  - split; [exact H2|]. intros c Hc. apply has_char_In. now apply H1.
  - split; [|exact H1]. intros c Hc. apply has_char_In. now apply H2.
Qed.

(** ** Wrong brackets and commas *)
Lemma misplaced (tup : bool) ts l rest : d_seq ts l ->
  let o := if tup then "("%char else "["%char in
  (forall c, c <> (if tup then ")" else "]")%char -> parse_val (DOpen o :: ts ++ DClose c :: rest) = Err SyntaxError) /\
  parse_val (DOpen o :: ts ++ DComma :: DComma :: rest) = Err SyntaxError /\
  parse_val (DOpen o :: DComma :: rest) = Err SyntaxError /\
  (forall n, parse_val (DOpen o :: ts ++ DName n :: rest) = Err SyntaxError).
Proof.
  intros H o. unfold parse_val. cbn [prun].
  assert (O : pstep (PPart []) (DOpen o) = Ok (PPart [fr tup])) by (unfold o; destruct tup; reflexivity).
  rewrite O. cbn [bind]. split.
  - intros c Hc. rewrite prun_app, (proj2 complete _ _ H) by reflexivity.
    cbn [bind prun pstep f_tuple item_frame fr app]. apply Ascii.eqb_neq in Hc. destruct tup; rewrite Hc; reflexivity.
  - split; [|split].
    + rewrite prun_app, (proj2 complete _ _ H) by reflexivity. reflexivity.
    + reflexivity.
    + intro n. rewrite prun_app, (proj2 complete _ _ H) by reflexivity. reflexivity.
Qed.
