(** Proofs: analysis plugins of several models; construction of a model from
    its setup dictionary. *)
From Coq Require Import String Ascii List ZArith QArith Bool Lia.
From Verif Require Import PyBase PyBaseFacts Attr_Model Attr_Spec Attr_Proofs Attr_Checks.
Import ListNotations.
Local Open Scope list_scope.
Local Open Scope nat_scope.

Section M.
Variable table : str -> str -> option attr.
Variable ctor : str -> option (list action * res unit).
Notation getattr := (Attr_Model.getattr table).
Notation setattr := (Attr_Model.setattr table ctor).
Notation construct := (Attr_Model.construct table).
Notation component_set := (Attr_Model.component_set table ctor).
Notation analysis_register := (Attr_Model.analysis_register table).
Notation step := (Attr_Model.step table ctor).
Notation run := (Attr_Model.run table ctor).

(** The heap only grows at its end. *)
Definition extends (w w1 : world) : Prop := exists l, heap w1 = heap w ++ l.

Lemma extends_refl w : extends w w.
Proof. exists []. now rewrite app_nil_r. Qed.

Lemma extends_trans a b c : extends a b -> extends b c -> extends a c.
Proof. intros [l A] [m B]. exists (l ++ m). now rewrite B, A, app_assoc. Qed.

Lemma extends_store w i k p : extends w (store w i k p).
Proof. exists []. now rewrite store_heap, app_nil_r. Qed.

Lemma extends_alloc w t p w1 : alloc w t = (p, w1) -> extends w w1.
Proof. intros E. apply alloc_spec in E as (_ & H & _). eexists. exact H. Qed.

Lemma extends_contents w w1 p : extends w w1 -> p < length (heap w) -> contents w1 p = contents w p.
Proof. intros [l H] LT. unfold contents. rewrite H, app_nth1 by exact LT. reflexivity. Qed.

Lemma get_extends w i n r w1 : getattr w i n = (r, w1) -> extends w w1.
Proof.
  intros E. apply get_cases in E as [(e & _ & -> & _)|(c & d & deep & w0 & CO & TA & W0 & P)];
    [apply extends_refl|].
  assert (X : extends w w0).
  { rewrite W0. destruct (held w i c n); [apply extends_refl|apply extends_store]. }
  destruct deep.
  - destruct P as (_ & H & _). eexists. exact H.
  - destruct P as (_ & ->). exact X.
Qed.

Lemma construct_extends i acts w r w1 : construct w i acts = (r, w1) -> extends w w1.
Proof.
  revert w r w1. induction acts as [|[m|m t|m|f] acts IH]; cbn [Attr_Model.construct]; intros w r w1 E.
  - injection E as <- <-. apply extends_refl.
  - destruct (getattr w i m) as [r2 w2] eqn:EG. pose proof (get_extends _ _ _ _ _ EG) as X.
    destruct r2; [|injection E as <- <-; exact X].
    eapply extends_trans; [exact X|]. eapply IH; eauto.
  - destruct (getattr w i m) as [r2 w2] eqn:EG. pose proof (get_extends _ _ _ _ _ EG) as X.
    destruct r2 as [p|]; [|injection E as <- <-; exact X].
    destruct (match contents w2 p with TStr s' => _ | _ => false end); [|injection E as <- <-; exact X].
    eapply extends_trans; [exact X|]. eapply IH; eauto.
  - destruct (nth_error (objects w) i) as [o|]; [destruct (dmem _ _)|].
    + eapply IH; eauto.
    + injection E as <- <-. apply extends_refl.
    + injection E as <- <-. apply extends_refl.
  - destruct (nth_error (objects w) i) as [o|]; [destruct (dget _ _) as [p|]; [destruct (f _)|]|].
    + eapply IH; eauto.
    + injection E as <- <-. apply extends_refl.
    + injection E as <- <-. apply extends_refl.
    + injection E as <- <-. apply extends_refl.
Qed.

Lemma component_extends w i pr cs v r w1 : component_set w i pr cs v = (r, w1) -> extends w w1.
Proof.
  unfold Attr_Model.component_set.
  destruct v; try (intros E; injection E as <- <-; apply extends_refl).
  destruct (negb _); [intros E; injection E as <- <-; apply extends_refl|].
  destruct (ctor s) as [[acts r0]|]; [|intros E; injection E as <- <-; apply extends_refl].
  destruct (construct w i acts) as [r2 w2] eqn:EC. pose proof (construct_extends _ _ _ _ _ EC) as X.
  destruct r2; [|intros E; injection E as <- <-; exact X].
  destruct r0; [|intros E; injection E as <- <-; exact X].
  destruct (alloc w2 (TObj s)) as [p w3] eqn:EA. pose proof (extends_alloc _ _ _ _ EA) as XA.
  intros E. injection E as <- <-. eapply extends_trans; [exact X|].
  eapply extends_trans; [exact XA|]. apply extends_store.
Qed.

Lemma set_extends w i n p r w1 : setattr w i n p = (r, w1) -> extends w w1.
Proof.
  unfold Attr_Model.setattr. destruct (nth_error (objects w) i) as [o|].
  2: { intros E. injection E as <- <-. apply extends_refl. }
  destruct (table (o_class o) n) as [[k d deep|d cs| |]|].
  - destruct (check k (contents w p)); [|intros E; injection E as <- <-; apply extends_refl].
    destruct (dmem _ _); intros E; injection E as <- <-; [apply extends_refl|apply extends_store].
  - apply component_extends.
  - intros E; injection E as <- <-; apply extends_refl.
  - intros E; injection E as <- <-; apply extends_store.
  - intros E; injection E as <- <-; apply extends_store.
Qed.

Lemma contents_overwrite w p t q :
  p < length (heap w) -> contents (overwrite w p t) q = if Nat.eqb p q then t else contents w q.
Proof.
  intros H. unfold contents, overwrite. cbn [heap].
  destruct (Nat.eqb_spec p q) as [<-|N].
  - apply nth_error_nth. rewrite nth_update by exact H. now rewrite Nat.eqb_refl.
  - destruct (Nat.lt_ge_cases q (length (heap w))) as [L|L].
    + apply nth_error_nth. rewrite nth_update by exact H.
      rewrite (proj2 (Nat.eqb_neq p q) N). now apply nth_error_nth'.
    + rewrite !nth_overflow; [reflexivity|exact L|]. now rewrite length_update.
Qed.

(** ** Registration *)
Definition place (w : world) (i : nat) (c n : str) (d : nat) : nat :=
  match held w i c n with Some p => p | None => d end.

Lemma register_exact w i c k d cl r w1 :
  class_of w i c -> table c (L "analysis") = Some (AValue k d false) ->
  analysis_register w i true cl = (r, w1) ->
  let p := place w i c (L "analysis") d in
  held w1 i c (L "analysis") = Some p /\
  match contents w p with
  | TList l => r = Ok tt /\ contents w1 p = TList (l ++ [TObj cl])
               /\ (forall q, q <> p -> contents w1 q = contents w q)
  | _ => r = Err AttributeError /\ heap w1 = heap w
  end.
Proof.
  intros CI TN E. unfold Attr_Model.analysis_register in E. cbn [negb] in E.
  destruct (getattr w i (L "analysis")) as [r2 w2] eqn:EG.
  apply get_cases in EG as [(e & _ & _ & N)|(c' & d' & deep' & w0 & CO & TA & W0 & P)].
  { exfalso. exact (N c k d false CI TN). }
  pose proof (class_unique _ _ _ _ CI CO) as <-.
  destruct TA as [(k' & TA)|(cs & TA & _)]; [|congruence].
  rewrite TN in TA. injection TA as <- <- <-. cbv zeta in P. destruct P as (-> & ->).
  fold (place w i c (L "analysis") d) in E. set (p := place w i c (L "analysis") d) in *.
  assert (HW : held w0 i c (L "analysis") = Some p).
  { subst p. unfold place. rewrite W0. destruct (held w i c (L "analysis")) as [q|] eqn:EH; [exact EH|].
    unfold held. rewrite entry_store, Nat.eqb_refl. destruct CI as (o & EO & _).
    now rewrite EO, str_eqb_refl. }
  assert (HH : heap w0 = heap w).
  { rewrite W0. destruct (held w i c (L "analysis")); [reflexivity|apply store_heap]. }
  assert (HC : forall q, contents w0 q = contents w q) by (intros q; unfold contents; now rewrite HH).
  rewrite HC in E. cbv zeta.
  destruct (contents w p) eqn:EC; try (injection E as <- <-; split; [exact HW|split; [reflexivity|exact HH]]).
  injection E as <- <-. split; [exact HW|]. split; [reflexivity|].
  assert (LT : p < length (heap w0)).
  { eapply contents_list_place. rewrite HC. exact EC. }
  split.
  - rewrite contents_overwrite, Nat.eqb_refl by exact LT. reflexivity.
  - intros q N. rewrite contents_overwrite by exact LT.
    rewrite (proj2 (Nat.eqb_neq p q)) by congruence. apply HC.
Qed.

(** The plugins that a history registers in model [j]. *)
Definition plugins (j : nat) (ops : list op) : list tree :=
  flat_map (fun x => match x with
                     | Register i true cl => if Nat.eqb i j then [TObj cl] else []
                     | _ => []
                     end) ops.

Section Own.
Variable j p : nat.
(** Every object is a model, and [p] is nobody's default. *)
Definition models (w : world) : Prop :=
  forall i o, nth_error (objects w) i = Some o ->
    exists k d, table (o_class o) (L "analysis") = Some (AValue k d false) /\ d <> p.

Definition alone (w : world) : Prop :=
  models w /\ p < length (heap w) /\
  (forall c, class_of w j c -> held w j c (L "analysis") = Some p) /\
  (forall i c, i <> j -> class_of w i c -> held w i c (L "analysis") <> Some p).

(** What the rest of the program must not do. *)
Definition leaves (ops : list op) : Prop :=
  (forall i, i <> j -> ~ In (Put i (L "analysis") p) ops) /\
  (forall t, ~ In (Change p t) ops) /\
  (forall i c q, ~ In (Put i (private_name c (L "analysis")) q) ops).

Lemma class_ex w i c : class_of w i c -> models w ->
  exists k d, table c (L "analysis") = Some (AValue k d false) /\ d <> p.
Proof. intros (o & E & <-) M. eauto. Qed.

Lemma models_keeps w w1 : keeps w w1 -> models w -> models w1.
Proof.
  intros (_ & K & _) M i o E.
  assert (C : class_of w i (o_class o)) by (apply K; exists o; auto).
  apply (class_ex _ _ _ C M).
Qed.

Lemma place_neq w i c k d :
  alone w -> i <> j -> class_of w i c -> table c (L "analysis") = Some (AValue k d false) ->
  place w i c (L "analysis") d <> p.
Proof.
  intros (M & _ & _ & H) N C T. unfold place. destruct (held w i c (L "analysis")) as [q|] eqn:E.
  - intros ->. eapply H; eauto.
  - destruct (class_ex _ _ _ C M) as (k' & d' & T' & N'). congruence.
Qed.

Lemma step_keeps w x r w1 : step w x = (r, w1) -> keeps w w1.
Proof.
  destruct x as [i m|i m q|t|q t|i b cl]; cbn [Attr_Model.step]; intros E.
  - destruct (getattr w i m) as [r2 w2] eqn:EG. pose proof (get_keeps _ _ _ _ _ _ EG).
    destruct r2; injection E as <- <-; assumption.
  - destruct (setattr w i m q) as [r2 w2] eqn:ES.
    assert (K : keeps w w2).
    { unfold Attr_Model.setattr in ES. destruct (nth_error (objects w) i) as [o|] eqn:EO.
      2: { injection ES as <- <-. apply keeps_refl. }
      destruct (table (o_class o) m) as [[k d deep|d cs| |]|].
      - destruct (check k (contents w q)); [|injection ES as <- <-; apply keeps_refl].
        destruct (dmem _ _); injection ES as <- <-; [apply keeps_refl|apply keeps_store].
      - revert ES. unfold Attr_Model.component_set.
        destruct (contents w q); try (intros ES; injection ES as <- <-; apply keeps_refl).
        destruct (negb _); [intros ES; injection ES as <- <-; apply keeps_refl|].
        destruct (ctor s) as [[acts r0]|]; [|intros ES; injection ES as <- <-; apply keeps_refl].
        assert (KC : forall acts w r w1, construct w i acts = (r, w1) -> keeps w w1).
        { intros acts0. induction acts0 as [|[a|a t|a|f] acts0 IH]; cbn [Attr_Model.construct]; intros v rr v1 EC.
          - injection EC as <- <-. apply keeps_refl.
          - destruct (getattr v i a) as [r3 v3] eqn:EG. pose proof (get_keeps _ _ _ _ _ _ EG) as KG.
            destruct r3; [|injection EC as <- <-; exact KG].
            eapply keeps_trans; [exact KG|]. eapply IH; eauto.
          - destruct (getattr v i a) as [r3 v3] eqn:EG. pose proof (get_keeps _ _ _ _ _ _ EG) as KG.
            destruct r3 as [p3|]; [|injection EC as <- <-; exact KG].
            destruct (match contents v3 p3 with TStr s' => _ | _ => false end);
              [|injection EC as <- <-; exact KG].
            eapply keeps_trans; [exact KG|]. eapply IH; eauto.
          - destruct (nth_error (objects v) i); [destruct (dmem _ _)|].
            + eapply IH; eauto.
            + injection EC as <- <-. apply keeps_refl.
            + injection EC as <- <-. apply keeps_refl.
          - destruct (nth_error (objects v) i) as [o1|]; [destruct (dget _ _) as [p1|]; [destruct (f _)|]|].
            + eapply IH; eauto.
            + injection EC as <- <-. apply keeps_refl.
            + injection EC as <- <-. apply keeps_refl.
            + injection EC as <- <-. apply keeps_refl. }
        destruct (construct w i acts) as [r3 w3] eqn:EC. pose proof (KC _ _ _ _ EC) as K3.
        destruct r3; [|intros ES; injection ES as <- <-; exact K3].
        destruct r0; [|intros ES; injection ES as <- <-; exact K3].
        destruct (alloc w3 (TObj s)) as [pp w4] eqn:EA. pose proof (keeps_alloc _ _ _ _ EA) as KA.
        intros ES. injection ES as <- <-. eapply keeps_trans; [exact K3|].
        eapply keeps_trans; [exact KA|]. apply keeps_store.
      - injection ES as <- <-. apply keeps_refl.
      - injection ES as <- <-. apply keeps_store.
      - injection ES as <- <-. apply keeps_store. }
    destruct r2; injection E as <- <-; exact K.
  - destruct (alloc w t) as [q w2] eqn:EA. injection E as <- <-. eapply keeps_alloc; eauto.
  - destruct (_ && _) eqn:EB; injection E as <- <-; [|apply keeps_refl].
    apply andb_true_iff in EB as [EB _]. apply andb_true_iff in EB as [EB _]. apply Nat.ltb_lt in EB.
    split; [reflexivity|]. split; [intros a b; reflexivity|].
    cbn [heap overwrite]. rewrite length_update; auto.
  - unfold Attr_Model.analysis_register in E. destruct b; cbn [negb] in E.
    2: { injection E as <- <-. apply keeps_refl. }
    destruct (getattr w i (L "analysis")) as [r2 w2] eqn:EG. pose proof (get_keeps _ _ _ _ _ _ EG) as K.
    destruct r2 as [q|]; [|injection E as <- <-; exact K].
    destruct (contents w2 q) eqn:EC; try (injection E as <- <-; exact K).
    injection E as <- <-. eapply keeps_trans; [exact K|].
    split; [reflexivity|]. split; [intros a b; reflexivity|].
    cbn [heap overwrite]. rewrite length_update; auto. eapply contents_list_place; eauto.
Qed.

Lemma held_only w i c : held w i c (L "analysis") = Some p -> exists c', class_of w i c'.
Proof.
  unfold held, entry. destruct (nth_error (objects w) i) as [o|] eqn:E; [|discriminate].
  intros _. exists (o_class o), o. auto.
Qed.

Lemma step_alone w x r w1 l :
  alone w -> leaves [x] -> contents w p = TList l -> step w x = (r, w1) ->
  (exists c, class_of w j c) ->
  alone w1 /\ contents w1 p = TList (l ++ plugins j [x]).
Proof.
  intros A LV CP E CX. pose proof A as (M & LP & HJ & HI).
  pose proof (step_keeps _ _ _ _ E) as K. destruct LV as (L1 & L2 & L3).
  assert (NPx : forall c a q, x <> Put a (private_name c (L "analysis")) q).
  { intros c a q ->. apply (L3 a c q). now left. }
  assert (A1 : alone w1).
  { split; [eapply models_keeps; eauto|]. split; [destruct K as (_ & _ & K); lia|]. split.
    - intros c C1. assert (C : class_of w j c) by (apply K; exact C1).
      destruct (class_ex _ _ _ C M) as (k & d & T & N).
      destruct (step_undisturbed _ _ c (L "analysis") k d false T j _ _ _ _ C E (NPx c))
        as [(q & -> & _ & HN & _)|[(_ & [U|[U _]]) _]].
      + rewrite (HJ c C) in HN. discriminate.
      + rewrite U. apply HJ. exact C.
      + rewrite (HJ c C) in U. discriminate.
    - intros i c NI C1. assert (C : class_of w i c) by (apply K; exact C1).
      destruct (class_ex _ _ _ C M) as (k & d & T & N).
      destruct (step_undisturbed _ _ c (L "analysis") k d false T i _ _ _ _ C E (NPx c))
        as [(q & -> & _ & HN & _ & ->)|[(_ & [U|[U U2]]) _]].
      + unfold held. rewrite entry_store, Nat.eqb_refl. destruct C as (o & EO & _).
        rewrite EO, str_eqb_refl. intros EQ. injection EQ as ->. apply (L1 i NI). now left.
      + rewrite U. apply HI; auto.
      + rewrite U2. congruence. }
  split; [exact A1|].
  destruct x as [i m|i m q|t|q t|i b cl]; cbn [Attr_Model.step plugins flat_map app] in E |- *;
    rewrite ?app_nil_r.
  - destruct (getattr w i m) as [r2 w2] eqn:EG. pose proof (get_extends _ _ _ _ _ EG) as X.
    destruct r2; injection E as <- <-; rewrite (extends_contents _ _ _ X LP); exact CP.
  - destruct (setattr w i m q) as [r2 w2] eqn:EG. pose proof (set_extends _ _ _ _ _ _ EG) as X.
    destruct r2; injection E as <- <-; rewrite (extends_contents _ _ _ X LP); exact CP.
  - destruct (alloc w t) as [q w2] eqn:EA. pose proof (extends_alloc _ _ _ _ EA) as X.
    injection E as <- <-. rewrite (extends_contents _ _ _ X LP); exact CP.
  - assert (NQ : q <> p) by (intros ->; apply (L2 t); now left).
    destruct (_ && _) eqn:EB; injection E as <- <-; [|exact CP].
    apply andb_true_iff in EB as [EB _]. apply andb_true_iff in EB as [EB _]. apply Nat.ltb_lt in EB.
    rewrite contents_overwrite by exact EB. now rewrite (proj2 (Nat.eqb_neq q p) NQ).
  - destruct b; cbn [app]; rewrite ?app_nil_r.
    2: { cbn in E. injection E as <- <-. exact CP. }
    destruct (analysis_register w i true cl) as [r2 w2] eqn:ER.
    assert (E2 : w1 = w2) by (destruct r2; congruence). subst w2.
    destruct (nth_error (objects w) i) as [o|] eqn:EO.
    + assert (C : class_of w i (o_class o)) by (exists o; auto).
      destruct (class_ex _ _ _ C M) as (k & d & T & N).
      pose proof (register_exact _ _ _ _ _ _ _ _ C T ER) as (_ & R).
      destruct (Nat.eqb_spec i j) as [->|NI].
      * assert (PL : place w j (o_class o) (L "analysis") d = p)
          by (unfold place; now rewrite (HJ _ C)).
        rewrite PL, CP in R. tauto.
      * pose proof (place_neq _ _ _ _ _ A NI C T) as NP.
        rewrite ?app_nil_r. destruct (contents w (place w i (o_class o) (L "analysis") d)) eqn:EC;
          try (destruct R as [_ R]; unfold contents in *; rewrite R; exact CP).
        destruct R as (_ & _ & R). rewrite R by congruence. exact CP.
    + unfold Attr_Model.analysis_register, Attr_Model.getattr in ER. cbn [negb] in ER.
      rewrite EO in ER. injection ER as <- <-.
      destruct (Nat.eqb_spec i j) as [->|NI].
      * destruct CX as (c & o & EO2 & _). congruence.
      * rewrite ?app_nil_r. exact CP.
Qed.

Lemma own_list ops w l :
  alone w -> leaves ops -> contents w p = TList l -> (exists c, class_of w j c) ->
  contents (snd (run w ops)) p = TList (l ++ plugins j ops).
Proof.
  revert w l. induction ops as [|x ops IH]; intros w l A LV CP CX.
  - cbn. now rewrite app_nil_r.
  - cbn [Attr_Model.run]. destruct (step w x) as [r w1] eqn:ES.
    assert (LX : leaves [x] /\ leaves ops).
    { destruct LV as (L1 & L2 & L3). split; (split; [|split]).
      - intros i N [H|[]]. apply (L1 i N). now left.
      - intros t [H|[]]. apply (L2 t). now left.
      - intros i c q [H|[]]. apply (L3 i c q). now left.
      - intros i N H. apply (L1 i N). now right.
      - intros t H. apply (L2 t). now right.
      - intros i c q H. apply (L3 i c q). now right. }
    destruct LX as [LX LO].
    destruct (step_alone _ _ _ _ _ A LX CP ES CX) as [A1 C1].
    assert (CX1 : exists c, class_of w1 j c).
    { destruct CX as [c C]. exists c. apply (step_keeps _ _ _ _ ES). exact C. }
    specialize (IH w1 _ A1 LO C1 CX1). destruct (run w1 ops) as [rs w2]. cbn [snd] in *.
    rewrite IH. unfold plugins. cbn [flat_map]. rewrite app_nil_r, app_assoc. reflexivity.
Qed.
End Own.
End M.
