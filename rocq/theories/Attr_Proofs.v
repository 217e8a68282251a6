(** Proofs about the setup attributes. *)
From Coq Require Import String Ascii List ZArith QArith Bool Lia.
From Verif Require Import PyBase PyBaseFacts Attr_Model Attr_Spec.
Import ListNotations.
Local Open Scope list_scope.
Local Open Scope nat_scope.

(** ** The instance dictionary *)
Lemma dget_dset_same {V} (d : dict V) k v : dget (dset d k v) k = Some v.
Proof.
  induction d as [|[k' v'] d IH]; cbn.
  - now rewrite str_eqb_refl.
  - destruct (str_eqb k k') eqn:E; cbn; rewrite E; auto.
Qed.

Lemma dget_dset_other {V} (d : dict V) k k' v : k <> k' -> dget (dset d k v) k' = dget d k'.
Proof.
  intros N. induction d as [|[k2 v2] d IH]; cbn.
  - rewrite (proj2 (str_eqb_neq k' k)); auto.
  - destruct (str_eqb_spec k k2) as [->|N2]; cbn.
    + destruct (str_eqb_spec k' k2) as [->|]; [contradiction|reflexivity].
    + destruct (str_eqb k' k2); auto.
Qed.

Lemma private_name_inj c n m : private_name c n = private_name c m -> n = m.
Proof.
  unfold private_name. intros E. injection E as E.
  apply app_inv_head in E. now injection E.
Qed.

(** The place an attribute holds, if any. *)
Definition entry (w : world) (i : nat) (key : str) : option nat :=
  match nth_error (objects w) i with
  | Some o => dget (o_dict o) key
  | None => None
  end.

Definition held (w : world) (i : nat) (c n : str) : option nat :=
  entry w i (private_name c n).

Lemma nth_update {A} (l : list A) i x j :
  i < length l ->
  nth_error (firstn i l ++ x :: skipn (S i) l) j
  = if Nat.eqb i j then Some x else nth_error l j.
Proof.
  revert i j. induction l as [|a l IH]; cbn [length]; intros i j H; [lia|].
  destruct i as [|i]; destruct j as [|j]; cbn; try reflexivity.
  apply (IH i j). lia.
Qed.

Lemma length_update {A} (l : list A) i x :
  i < length l -> length (firstn i l ++ x :: skipn (S i) l) = length l.
Proof.
  intros H. rewrite app_length, firstn_length. cbn [length]. rewrite skipn_length. lia.
Qed.

Lemma store_heap w i k p : heap (store w i k p) = heap w.
Proof. unfold store. destruct (nth_error (objects w) i); reflexivity. Qed.

Lemma store_object w i k p j :
  nth_error (objects (store w i k p)) j =
  match nth_error (objects w) j with
  | Some o => Some (if Nat.eqb i j
                    then {| o_class := o_class o; o_dict := dset (o_dict o) k p |} else o)
  | None => None
  end.
Proof.
  unfold store. destruct (nth_error (objects w) i) as [o|] eqn:E.
  - cbn [objects]. rewrite nth_update by (apply nth_error_Some; congruence).
    destruct (Nat.eqb_spec i j) as [<-|N].
    + rewrite E. reflexivity.
    + destruct (nth_error (objects w) j); reflexivity.
  - destruct (Nat.eqb_spec i j) as [<-|N].
    + rewrite E. reflexivity.
    + destruct (nth_error (objects w) j); reflexivity.
Qed.

Lemma entry_store w i k p j k' :
  entry (store w i k p) j k' =
  if Nat.eqb i j then
    match nth_error (objects w) i with
    | Some o => if str_eqb k k' then Some p else entry w j k'
    | None => None
    end
  else entry w j k'.
Proof.
  unfold entry. rewrite store_object.
  destruct (Nat.eqb_spec i j) as [<-|N].
  - destruct (nth_error (objects w) i) as [o|]; [|reflexivity]. cbn [o_dict].
    destruct (str_eqb_spec k k') as [->|N].
    + apply dget_dset_same.
    + now apply dget_dset_other.
  - destruct (nth_error (objects w) j); reflexivity.
Qed.

Lemma alloc_spec w t p w1 :
  alloc w t = (p, w1) ->
  p = length (heap w) /\ heap w1 = heap w ++ [t] /\ objects w1 = objects w.
Proof. unfold alloc. intros E. injection E as <- <-. auto. Qed.

Lemma class_store w i k p j c : class_of (store w i k p) j c <-> class_of w j c.
Proof.
  unfold class_of. rewrite store_object.
  destruct (nth_error (objects w) j) as [o|].
  - split; intros (o' & E & C); injection E as <-.
    + exists o. split; [reflexivity|]. destruct (Nat.eqb i j); exact C.
    + eexists. split; [reflexivity|]. destruct (Nat.eqb i j); exact C.
  - split; intros (o' & E & C); discriminate.
Qed.

Section M.
Variable table : str -> str -> option attr.
Variable ctor : str -> option (list action * res unit).
Notation getattr := (Attr_Model.getattr table).
Notation setattr := (Attr_Model.setattr table ctor).
Notation construct := (Attr_Model.construct table).
Notation component_set := (Attr_Model.component_set table ctor).
Notation analysis_register := (Attr_Model.analysis_register table).
Notation step := (Attr_Model.step table ctor).
Notation run := (Attr_Model.run table ctor).

(** What is kept by everything: classes of objects, the objects there are, and
    the heap only grows. *)
Definition keeps (w w1 : world) : Prop :=
  length (objects w1) = length (objects w) /\
  (forall j c, class_of w1 j c <-> class_of w j c) /\
  length (heap w) <= length (heap w1).

Lemma keeps_refl w : keeps w w.
Proof. repeat split; auto. Qed.

Lemma keeps_trans a b c : keeps a b -> keeps b c -> keeps a c.
Proof.
  intros (A1 & A2 & A3) (B1 & B2 & B3). split; [congruence|]. split; [|lia].
  intros j k. rewrite B2. apply A2.
Qed.

Lemma keeps_store w i k p : keeps w (store w i k p).
Proof.
  split; [|split].
  - unfold store. destruct (nth_error (objects w) i) eqn:E; [|reflexivity].
    cbn [objects]. apply length_update. apply nth_error_Some. congruence.
  - intros j c. apply class_store.
  - now rewrite store_heap.
Qed.

Lemma keeps_alloc w t p w1 : alloc w t = (p, w1) -> keeps w w1.
Proof.
  intros E. apply alloc_spec in E as (-> & H & O). split; [now rewrite O|]. split.
  - intros j c. unfold class_of. now rewrite O.
  - rewrite H, app_length. lia.
Qed.

Lemma class_unique w i c c' : class_of w i c -> class_of w i c' -> c = c'.
Proof. intros (o & E & <-) (o' & E' & <-). congruence. Qed.

Lemma get_cases w i n r w1 :
  getattr w i n = (r, w1) ->
  (exists e, r = Err e /\ w1 = w /\
     (forall c k d deep, class_of w i c -> table c n <> Some (AValue k d deep)))
  \/ (exists c d deep w0,
        class_of w i c
        /\ ((exists k, table c n = Some (AValue k d deep))
            \/ (exists cs, table c n = Some (AComponent d cs) /\ deep = false))
        /\ w0 = (match held w i c n with
                 | Some _ => w
                 | None => store w i (private_name c n) d
                 end)
        /\ let p := match held w i c n with Some p => p | None => d end in
           if deep then r = Ok (length (heap w)) /\ heap w1 = heap w ++ [contents w p]
                        /\ objects w1 = objects w0
           else r = Ok p /\ w1 = w0).
Proof.
  unfold Attr_Model.getattr. destruct (nth_error (objects w) i) as [o|] eqn:EO.
  2: { intros E. injection E as <- <-. left. eexists. split; [reflexivity|]. split; [reflexivity|].
       intros c k d deep (o & E & _). congruence. }
  assert (CO : class_of w i (o_class o)) by (exists o; auto).
  assert (CU : forall c, class_of w i c -> c = o_class o)
    by (intros c Hc; eapply class_unique; eauto).
  assert (HD : held w i (o_class o) n = dget (o_dict o) (private_name (o_class o) n))
    by (unfold held, entry; now rewrite EO).
  destruct (table (o_class o) n) as [[k d deep|d cs| |]|] eqn:ET.
  - destruct (desc_get w i o (private_name (o_class o) n) d deep) as [p w2] eqn:ED.
    intros E. injection E as <- <-. right.
    exists (o_class o), d, deep, (match held w i (o_class o) n with
                 | Some _ => w
                 | None => store w i (private_name (o_class o) n) d
                 end).
    split; [exact CO|]. split; [left; eauto|]. split; [reflexivity|].
    unfold desc_get, dmem in ED. rewrite HD.
    destruct (dget (o_dict o) (private_name (o_class o) n)) as [q|].
    + destruct deep.
      * apply alloc_spec in ED as (-> & H & O). auto.
      * injection ED as <- <-. auto.
    + destruct deep.
      * apply alloc_spec in ED as (-> & H & O). rewrite !store_heap in *.
        unfold contents in *. rewrite store_heap in H. auto.
      * injection ED as <- <-. auto.
  - destruct (desc_get w i o (private_name (o_class o) n) d false) as [p w2] eqn:ED.
    intros E. injection E as <- <-. right.
    exists (o_class o), d, false, (match held w i (o_class o) n with
                 | Some _ => w
                 | None => store w i (private_name (o_class o) n) d
                 end).
    split; [exact CO|]. split; [right; eauto|]. split; [reflexivity|].
    unfold desc_get, dmem in ED. rewrite HD.
    destruct (dget (o_dict o) (private_name (o_class o) n)) as [q|];
      injection ED as <- <-; auto.
  - intros E. injection E as <- <-. left. eexists. split; [reflexivity|]. split; [reflexivity|].
    intros c k d deep Hc. rewrite (CU _ Hc). congruence.
  - intros E. injection E as <- <-. left. eexists. split; [reflexivity|]. split; [reflexivity|].
    intros c k d deep Hc. rewrite (CU _ Hc). congruence.
  - intros E. injection E as <- <-. left. eexists. split; [reflexivity|]. split; [reflexivity|].
    intros c k d deep Hc. rewrite (CU _ Hc). congruence.
Qed.

(** The effect of any read on the attribute [n] of object [i]: nothing, except
    that it may take its default. *)
Lemma entry_objects w w' i k : objects w = objects w' -> entry w i k = entry w' i k.
Proof. unfold entry. now intros ->. Qed.

Lemma class_objects w w' i c : objects w = objects w' -> class_of w i c <-> class_of w' i c.
Proof. unfold class_of. now intros ->. Qed.

Lemma get_keeps w i n r w1 : getattr w i n = (r, w1) -> keeps w w1.
Proof.
  intros E. apply get_cases in E as [(e & _ & -> & _)|(c & d & deep & w0 & CO & TA & W0 & P)].
  - apply keeps_refl.
  - assert (K : keeps w w0).
    { rewrite W0. destruct (held w i c n); [apply keeps_refl|apply keeps_store]. }
    assert (HH : heap w0 = heap w).
    { rewrite W0. destruct (held w i c n); [reflexivity|apply store_heap]. }
    destruct deep.
    + destruct P as (_ & H & O). destruct K as (K1 & K2 & K3).
      split; [now rewrite O|]. split.
      * intros j c'. rewrite (class_objects w1 w0) by exact O. apply K2.
      * rewrite H, app_length. lia.
    + destruct P as (_ & ->). exact K.
Qed.

(** What one step can do to the place held by a value attribute. *)
Section One.
Variable c n : str.
Variable k : kind.
Variable d : nat.
Variable deep : bool.
Hypothesis TN : table c n = Some (AValue k d deep).
Variable i : nat.

(** [w1] comes from [w] without an accepted write to [i].[n]. *)
Definition undisturbed (w w1 : world) : Prop :=
  keeps w w1 /\
  (held w1 i c n = held w i c n \/ (held w i c n = None /\ held w1 i c n = Some d)).

Lemma undisturbed_refl w : undisturbed w w.
Proof. split; [apply keeps_refl|]. auto. Qed.

Lemma undisturbed_trans a b e : undisturbed a b -> undisturbed b e -> undisturbed a e.
Proof.
  intros (A1 & A2) (B1 & B2). split; [eapply keeps_trans; eauto|].
  destruct A2 as [A|[A A']]; destruct B2 as [B|[B B']].
  - left. congruence.
  - right. split; congruence.
  - right. split; congruence.
  - congruence.
Qed.

Lemma undisturbed_objects w w' w1 :
  undisturbed w w' -> keeps w' w1 -> objects w1 = objects w' -> undisturbed w w1.
Proof.
  intros (K & H) K' O. split; [eapply keeps_trans; eauto|].
  unfold held in *. now rewrite (entry_objects w1 w') by exact O.
Qed.

Lemma store_undisturbed w j key p :
  (class_of w i c -> i = j -> key <> private_name c n) ->
  class_of w i c ->
  undisturbed w (store w j key p).
Proof.
  intros D CI. split; [apply keeps_store|]. left.
  unfold held. rewrite entry_store.
  destruct (Nat.eqb_spec j i) as [->|]; [|reflexivity].
  destruct (nth_error (objects w) i) as [o|] eqn:E.
  - rewrite (proj2 (str_eqb_neq key (private_name c n))) by (apply D; auto). reflexivity.
  - destruct CI as (o & E2 & _). congruence.
Qed.

Lemma get_undisturbed w j m r w1 :
  class_of w i c -> getattr w j m = (r, w1) -> undisturbed w w1.
Proof.
  intros CI E. pose proof (get_keeps _ _ _ _ _ E) as KK.
  apply get_cases in E as [(e & _ & -> & _)|(c' & d' & deep' & w0 & CO & TA & W0 & P)];
    [apply undisturbed_refl|].
  assert (U : undisturbed w w0).
  { destruct (Nat.eqb_spec i j) as [<-|N].
    - pose proof (class_unique _ _ _ _ CI CO) as <-.
      destruct (str_eqb_spec m n) as [->|NM].
      + rewrite W0. destruct (held w i c n) as [q|] eqn:EH; [apply undisturbed_refl|].
        split; [apply keeps_store|]. right. split; [exact EH|].
        unfold held. rewrite entry_store, Nat.eqb_refl.
        destruct CI as (o & E2 & _). rewrite E2, str_eqb_refl.
        destruct TA as [(k' & TA)|(cs & TA & _)]; congruence.
      + rewrite W0. destruct (held w i c m); [apply undisturbed_refl|].
        apply store_undisturbed; [|exact CI]. intros _ _ EN.
        apply private_name_inj in EN. congruence.
    - rewrite W0. destruct (held w j c' m); [apply undisturbed_refl|].
      apply store_undisturbed; [|exact CI]. congruence. }
  destruct deep'.
  - destruct P as (_ & H & O). eapply undisturbed_objects; [exact U| |exact O].
    assert (K : keeps w w0) by apply U.
    assert (HH : heap w0 = heap w).
    { rewrite W0. destruct (held w j c' m); [reflexivity|apply store_heap]. }
    split; [now rewrite O|]. split.
    + intros a b. now apply class_objects.
    + rewrite H, HH, app_length. lia.
  - destruct P as (_ & ->). exact U.
Qed.

Lemma undisturbed_class w w1 : class_of w i c -> undisturbed w w1 -> class_of w1 i c.
Proof. intros C (K & _). apply K. exact C. Qed.

Lemma construct_undisturbed j acts w r w1 :
  class_of w i c -> construct w j acts = (r, w1) -> undisturbed w w1.
Proof.
  revert w r w1. induction acts as [|[m|m t|m|f] acts IH]; cbn [Attr_Model.construct]; intros w r w1 CI E.
  - injection E as <- <-. apply undisturbed_refl.
  - destruct (getattr w j m) as [r2 w2] eqn:EG. pose proof (get_undisturbed _ _ _ _ _ CI EG) as U.
    destruct r2 as [x|e].
    + eapply undisturbed_trans; [exact U|]. eapply IH; [|exact E].
      eapply undisturbed_class; eauto.
    + injection E as <- <-. exact U.
  - destruct (getattr w j m) as [r2 w2] eqn:EG. pose proof (get_undisturbed _ _ _ _ _ CI EG) as U.
    destruct r2 as [x|e].
    + destruct (match contents w2 x with TStr s' => _ | _ => false end); [|injection E as <- <-; exact U].
      eapply undisturbed_trans; [exact U|]. eapply IH; [|exact E].
      eapply undisturbed_class; eauto.
    + injection E as <- <-. exact U.
  - destruct (nth_error (objects w) j) as [o|].
    + destruct (dmem _ _).
      * eapply IH; eauto.
      * injection E as <- <-. apply undisturbed_refl.
    + injection E as <- <-. apply undisturbed_refl.
  - destruct (nth_error (objects w) j) as [o|]; [destruct (dget _ _) as [p|]; [destruct (f _)|]|].
    + eapply IH; eauto.
    + injection E as <- <-. apply undisturbed_refl.
    + injection E as <- <-. apply undisturbed_refl.
    + injection E as <- <-. apply undisturbed_refl.
Qed.

Lemma component_undisturbed w j m d' cs v r w1 c' :
  class_of w i c -> class_of w j c' -> table c' m = Some (AComponent d' cs) ->
  component_set w j (private_name c' m) cs v = (r, w1) -> undisturbed w w1.
Proof.
  intros CI CJ TM. unfold Attr_Model.component_set.
  destruct v; try (intros E; injection E as <- <-; apply undisturbed_refl).
  destruct (negb (str_mem s cs)); [intros E; injection E as <- <-; apply undisturbed_refl|].
  destruct (ctor s) as [[acts r0]|]; [|intros E; injection E as <- <-; apply undisturbed_refl].
  destruct (construct w j acts) as [r2 w2] eqn:EC.
  pose proof (construct_undisturbed _ _ _ _ _ CI EC) as U.
  destruct r2 as [x|e]; [|intros E; injection E as <- <-; exact U].
  destruct r0 as [x0|e]; [|intros E; injection E as <- <-; exact U].
  destruct (alloc w2 (TObj s)) as [p w3] eqn:EA. intros E. injection E as <- <-.
  pose proof (keeps_alloc _ _ _ _ EA) as KA. apply alloc_spec in EA as (-> & H & O).
  assert (U3 : undisturbed w w3) by (eapply undisturbed_objects; eauto).
  eapply undisturbed_trans; [exact U3|].
  assert (CI3 : class_of w3 i c) by (eapply undisturbed_class; eauto).
  apply store_undisturbed; [|exact CI3].
  intros _ <- EN. pose proof (class_unique _ _ _ _ CI CJ) as <-.
  apply private_name_inj in EN. subst m. congruence.
Qed.

Lemma set_undisturbed w j m p r w1 :
  class_of w i c -> setattr w j m p = (r, w1) ->
  m <> private_name c n ->
  (i = j /\ m = n /\ r = Ok tt /\ held w i c n = None /\ check k (contents w p) = Ok tt
   /\ w1 = store w i (private_name c n) p)
  \/ (undisturbed w w1 /\ ~ (i = j /\ m = n /\ r = Ok tt)).
Proof.
  intros CI E NP. unfold Attr_Model.setattr in E.
  destruct (nth_error (objects w) j) as [o|] eqn:EO.
  2: { injection E as <- <-. right. split; [apply undisturbed_refl|]. intros (_ & _ & H). discriminate. }
  assert (CJ : class_of w j (o_class o)) by (exists o; auto).
  destruct (table (o_class o) m) as [[k' d' deep'|d' cs| |]|] eqn:ET.
  - destruct (check k' (contents w p)) as [x|e] eqn:EK.
    2: { injection E as <- <-. right. split; [apply undisturbed_refl|]. intros (_ & _ & H). discriminate. }
    destruct (dmem (o_dict o) (private_name (o_class o) m)) eqn:EM.
    1: { injection E as <- <-. right. split; [apply undisturbed_refl|]. intros (_ & _ & H). discriminate. }
    injection E as <- <-.
    destruct (Nat.eqb_spec i j) as [<-|N].
    + pose proof (class_unique _ _ _ _ CI CJ) as EC. rewrite <- EC in ET, EM |- *.
      destruct (str_eqb_spec m n) as [->|NM].
      * left. repeat split; auto.
        -- unfold held, entry. rewrite EO. unfold dmem in EM.
           destruct (dget (o_dict o) (private_name c n)); congruence.
        -- destruct x. congruence.
      * right. split; [|intros (_ & H & _); contradiction].
        apply store_undisturbed; [|exact CI]. intros _ _ EN. apply private_name_inj in EN. contradiction.
    + right. split; [|intros (H & _); contradiction].
      apply store_undisturbed; [|exact CI]. congruence.
  - pose proof (component_undisturbed _ _ _ _ _ _ _ _ _ CI CJ ET E) as U.
    right. split; [exact U|]. intros (<- & -> & _).
    pose proof (class_unique _ _ _ _ CI CJ) as EC. congruence.
  - injection E as <- <-. right. split; [apply undisturbed_refl|]. intros (_ & _ & H). discriminate.
  - injection E as <- <-. right. split.
    + apply store_undisturbed; [|exact CI]. intros _ _. exact NP.
    + intros (<- & -> & _). pose proof (class_unique _ _ _ _ CI CJ) as EC. congruence.
  - injection E as <- <-. right. split.
    + apply store_undisturbed; [|exact CI]. intros _ _. exact NP.
    + intros (<- & -> & _). pose proof (class_unique _ _ _ _ CI CJ) as EC. congruence.
Qed.

Lemma overwrite_undisturbed w p t : p < length (heap w) -> undisturbed w (overwrite w p t).
Proof.
  intros H. eapply undisturbed_objects; [apply undisturbed_refl| |reflexivity].
  split; [reflexivity|]. split; [intros a b; reflexivity|].
  cbn [heap overwrite]. rewrite length_update; auto.
Qed.

Lemma contents_list_place w p l : contents w p = TList l -> p < length (heap w).
Proof.
  unfold contents. intros E. destruct (Nat.lt_ge_cases p (length (heap w))) as [H|H]; [exact H|].
  rewrite nth_overflow in E by exact H. discriminate.
Qed.

Lemma step_undisturbed w x r w1 :
  class_of w i c -> step w x = (r, w1) ->
  (forall j p, x <> Put j (private_name c n) p) ->
  (exists p, x = Put i n p /\ r = Ok None /\ held w i c n = None
             /\ check k (contents w p) = Ok tt /\ w1 = store w i (private_name c n) p)
  \/ (undisturbed w w1 /\ forall p, ~ (x = Put i n p /\ r = Ok None)).
Proof.
  intros CI E NP. destruct x as [j m|j m p|t|p t|j b cl]; cbn [Attr_Model.step] in E.
  - right. destruct (getattr w j m) as [r2 w2] eqn:EG.
    pose proof (get_undisturbed _ _ _ _ _ CI EG) as U.
    destruct r2; injection E as <- <-; (split; [exact U|intros p [H _]; discriminate]).
  - destruct (setattr w j m p) as [r2 w2] eqn:ES.
    assert (NM : m <> private_name c n) by (intros ->; eapply NP; reflexivity).
    destruct (set_undisturbed _ _ _ _ _ _ CI ES NM) as [(-> & -> & -> & A & B & C)|[U N]].
    + left. injection E as <- <-. exists p. auto.
    + right. destruct r2 as [[]|e]; injection E as <- <-; (split; [exact U|]).
      * intros q [H _]. injection H as -> -> ->. apply N; auto.
      * intros q [_ H]. discriminate.
  - right. destruct (alloc w t) as [p w2] eqn:EA. injection E as <- <-.
    pose proof (keeps_alloc _ _ _ _ EA) as KA. apply alloc_spec in EA as (-> & H & O).
    split; [|intros q [H2 _]; discriminate].
    eapply undisturbed_objects; [apply undisturbed_refl|exact KA|exact O].
  - right. split; [|intros q [H2 _]; discriminate].
    destruct ((p <? length (heap w)) && mutable (contents w p) && mutable t) eqn:EB;
      injection E as <- <-; [|apply undisturbed_refl].
    apply overwrite_undisturbed. apply andb_true_iff in EB as [EB _].
    apply andb_true_iff in EB as [EB _]. now apply Nat.ltb_lt.
  - right. split; [|intros q [H2 _]; discriminate].
    unfold Attr_Model.analysis_register in E. destruct b; cbn [negb] in E.
    2: { injection E as <- <-. apply undisturbed_refl. }
    destruct (getattr w j (L "analysis")) as [r2 w2] eqn:EG.
    pose proof (get_undisturbed _ _ _ _ _ CI EG) as U.
    destruct r2 as [p|e]; [|injection E as <- <-; exact U].
    destruct (contents w2 p) eqn:EC; try (injection E as <- <-; exact U).
    injection E as <- <-. eapply undisturbed_trans; [exact U|].
    apply overwrite_undisturbed. eapply contents_list_place; eauto.
Qed.

(** ** Histories *)
Lemma run_app w a b :
  run w (a ++ b) = let '(rs, w1) := run w a in let '(rs2, w2) := run w1 b in (rs ++ rs2, w2).
Proof.
  revert w. induction a as [|x a IH]; intros w.
  - cbn. destruct (run w b); reflexivity.
  - cbn [app Attr_Model.run]. destruct (step w x) as [r w1]. rewrite IH.
    destruct (run w1 a) as [rs w2]. destruct (run w2 b); reflexivity.
Qed.

Lemma run_length w ops : length (fst (run w ops)) = length ops.
Proof.
  revert w. induction ops as [|x ops IH]; intros w; [reflexivity|].
  cbn [Attr_Model.run]. destruct (step w x) as [r w1]. specialize (IH w1).
  destruct (run w1 ops). cbn in *. lia.
Qed.

(** The world before the [k]-th operation. *)
Definition before (w : world) (ops : list op) (m : nat) : world := snd (run w (firstn m ops)).

Lemma run_at w ops m x :
  nth_error ops m = Some x ->
  nth_error (fst (run w ops)) m = Some (fst (step (before w ops m) x))
  /\ before w ops (S m) = snd (step (before w ops m) x).
Proof.
  unfold before. revert w m. induction ops as [|y ops IH]; intros w m H; [destruct m; discriminate|].
  destruct m as [|m].
  - injection H as ->. cbn [firstn Attr_Model.run].
    cbn [fst snd]. destruct (step w x) as [r w1]. destruct (run w1 ops). split; reflexivity.
  - cbn [nth_error] in H. cbn [firstn Attr_Model.run].
    destruct (step w y) as [r w1] eqn:ES.
    specialize (IH w1 m H). destruct IH as [I1 I2].
    destruct (run w1 ops) as [rs w2]. destruct (run w1 (firstn m ops)) as [rs3 w3] eqn:E3.
    cbn [fst snd nth_error] in *. split; [exact I1|].
    destruct ops as [|z ops']; [destruct m; discriminate|].
    cbn [firstn] in I2 |- *. destruct (run w1 (z :: firstn m ops')) as [rs4 w4].
    cbn [snd] in *. exact I2.
Qed.

Section Hist.
Variable w : world.
Variable ops : list op.
Hypothesis CI : class_of w i c.
Hypothesis NP : respects c n ops.

Lemma step_at m x :
  nth_error ops m = Some x ->
  class_of (before w ops m) i c ->
  class_of (before w ops (S m)) i c.
Proof.
  intros H C. destruct (run_at w ops m x H) as [_ ->].
  destruct (step (before w ops m) x) as [r w1] eqn:E. cbn [snd].
  destruct (step_undisturbed _ _ _ _ C E) as [(p & -> & -> & A & B & ->)|[U _]].
  - intros j p ->. apply nth_error_In in H. eapply NP; eauto.
  - now apply class_store.
  - eapply undisturbed_class; eauto.
Qed.

Lemma class_before m : m <= length ops -> class_of (before w ops m) i c.
Proof.
  induction m as [|m IH]; intros H; [exact CI|].
  destruct (nth_error ops m) as [x|] eqn:E; [|apply nth_error_None in E; lia].
  apply (step_at m x E). apply IH. lia.
Qed.

Lemma in_range m x : nth_error ops m = Some x -> m < length ops.
Proof. intros H. apply nth_error_Some. congruence. Qed.

(** Once held, always held. *)
Lemma held_kept m m' q :
  m <= m' -> m' <= length ops ->
  held (before w ops m) i c n = Some q -> held (before w ops m') i c n = Some q.
Proof.
  intros LE. induction LE as [|m' LE IH]; intros LN H; [exact H|].
  assert (H' : held (before w ops m') i c n = Some q) by (apply IH; [lia|exact H]).
  destruct (nth_error ops m') as [x|] eqn:E; [|apply nth_error_None in E; lia].
  destruct (run_at w ops m' x E) as [_ ->].
  destruct (step (before w ops m') x) as [r w1] eqn:ES. cbn [snd].
  assert (C : class_of (before w ops m') i c) by (apply class_before; lia).
  destruct (step_undisturbed _ _ _ _ C ES) as [(p & -> & -> & A & _)|[[_ [U|[U _]]] _]].
  - intros j p ->. apply nth_error_In in E. eapply NP; eauto.
  - congruence.
  - congruence.
  - congruence.
Qed.

Lemma happened_run m x r :
  happened ops (fst (run w ops)) m x r ->
  m < length ops /\ nth_error ops m = Some x /\
  step (before w ops m) x = (r, before w ops (S m)).
Proof.
  intros [H1 H2]. destruct (run_at w ops m x H1) as [A B].
  split; [eapply in_range; eauto|]. split; [exact H1|].
  rewrite A in H2. injection H2 as <-. rewrite B. apply surjective_pairing.
Qed.

Lemma write_happened m p :
  happened ops (fst (run w ops)) m (Put i n p) (Ok None) ->
  held (before w ops m) i c n = None /\ held (before w ops (S m)) i c n = Some p
  /\ check k (contents (before w ops m) p) = Ok tt.
Proof.
  intros H. apply happened_run in H as (LT & E & ES).
  assert (C : class_of (before w ops m) i c) by (apply class_before; lia).
  destruct (step_undisturbed _ _ _ _ C ES) as [(q & EQ & _ & A & B & ->)|[_ N]].
  - intros j q EQ. rewrite EQ in E. apply nth_error_In in E. eapply NP; eauto.
  - injection EQ as <-. split; [exact A|]. split; [|exact B].
    unfold held. rewrite entry_store, Nat.eqb_refl.
    destruct C as (o & EO & _). now rewrite EO, str_eqb_refl.
  - exfalso. eapply N. eauto.
Qed.

(** A successful read leaves the attribute holding a place; what it returns. *)
Lemma read_happened m q :
  happened ops (fst (run w ops)) m (Get i n) (Ok (Some q)) ->
  let p := match held (before w ops m) i c n with Some p => p | None => d end in
  held (before w ops (S m)) i c n = Some p
  /\ (deep = false -> q = p)
  /\ (deep = true ->
      q = length (heap (before w ops m))
      /\ heap (before w ops (S m)) = heap (before w ops m) ++ [contents (before w ops m) p]).
Proof.
  intros H. apply happened_run in H as (LT & E & ES). cbn [Attr_Model.step] in ES.
  assert (C : class_of (before w ops m) i c) by (apply class_before; lia).
  set (v := before w ops m) in *.
  destruct (getattr v i n) as [r2 w2] eqn:EG.
  destruct r2 as [q'|e]; [|discriminate]. injection ES as -> EW.
  apply get_cases in EG as [(e & EE & _)|(c' & d' & deep' & w0 & CO & TA & W0 & P)];
    [discriminate|].
  pose proof (class_unique _ _ _ _ C CO) as <-.
  destruct TA as [(k' & TA)|(cs & TA & _)]; [|congruence].
  rewrite TN in TA. injection TA as <- <- <-.
  assert (HW : held w0 i c n = Some match held v i c n with Some p => p | None => d end).
  { rewrite W0. destruct (held v i c n) as [p|] eqn:EH; [exact EH|].
    unfold held. rewrite entry_store, Nat.eqb_refl.
    destruct C as (o & EO & _). now rewrite EO, str_eqb_refl. }
  cbv zeta in P |- *. rewrite <- EW in *.
  destruct deep.
  - destruct P as (P1 & P2 & P3). injection P1 as ->. split.
    + unfold held in *. rewrite (entry_objects w2 w0) by exact P3. exact HW.
    + split; [discriminate|]. intros _. split; [reflexivity|exact P2].
  - destruct P as (P1 & ->). injection P1 as ->. split; [exact HW|].
    split; [reflexivity|discriminate].
Qed.

Lemma single_write m m' p p' :
  happened ops (fst (run w ops)) m (Put i n p) (Ok None) ->
  happened ops (fst (run w ops)) m' (Put i n p') (Ok None) -> m = m'.
Proof.
  intros A B. pose proof (happened_run _ _ _ A) as (LA & _). pose proof (happened_run _ _ _ B) as (LB & _).
  apply write_happened in A as (A1 & A2 & _). apply write_happened in B as (B1 & B2 & _).
  destruct (Nat.lt_trichotomy m m') as [H|[H|H]]; [|exact H|].
  - pose proof (held_kept (S m) m' p ltac:(lia) ltac:(lia) A2). congruence.
  - pose proof (held_kept (S m') m p' ltac:(lia) ltac:(lia) B2). congruence.
Qed.

Lemma read_after_write m m' p q :
  deep = false -> m < m' ->
  happened ops (fst (run w ops)) m (Put i n p) (Ok None) ->
  happened ops (fst (run w ops)) m' (Get i n) (Ok (Some q)) -> q = p.
Proof.
  intros DF LT A B. pose proof (happened_run _ _ _ B) as (LB & _).
  apply write_happened in A as (_ & A2 & _). apply read_happened in B as (_ & B2 & _).
  rewrite (held_kept (S m) m' p ltac:(lia) ltac:(lia) A2) in B2. auto.
Qed.

Lemma copy_after_write m m' p q :
  deep = true -> m < m' ->
  happened ops (fst (run w ops)) m (Put i n p) (Ok None) ->
  happened ops (fst (run w ops)) m' (Get i n) (Ok (Some q)) ->
  q = length (heap (before w ops m')) /\
  contents (before w ops (S m')) q = contents (before w ops m') p.
Proof.
  intros DF LT A B. pose proof (happened_run _ _ _ B) as (LB & _).
  apply write_happened in A as (_ & A2 & _). apply read_happened in B as (_ & _ & B2).
  rewrite (held_kept (S m) m' p ltac:(lia) ltac:(lia) A2) in B2.
  destruct (B2 DF) as [-> H]. split; [reflexivity|]. unfold contents at 1. rewrite H.
  rewrite app_nth2, Nat.sub_diag by lia. reflexivity.
Qed.

(** A read is never followed by an accepted write. *)
Lemma write_after_read m m' q p r :
  m < m' ->
  happened ops (fst (run w ops)) m (Get i n) (Ok (Some q)) ->
  happened ops (fst (run w ops)) m' (Put i n p) r ->
  r <> Ok None.
Proof.
  intros LT A B ->. pose proof (happened_run _ _ _ B) as (LB & _).
  apply read_happened in A as (A & _). apply write_happened in B as (B & _).
  pose proof (held_kept (S m) m' _ ltac:(lia) ltac:(lia) A). congruence.
Qed.

(** Two reads give the same object. *)
Lemma reads_agree m m' q q' :
  deep = false ->
  happened ops (fst (run w ops)) m (Get i n) (Ok (Some q)) ->
  happened ops (fst (run w ops)) m' (Get i n) (Ok (Some q')) -> q = q'.
Proof.
  intros DF. assert (W : forall m m' q q', m < m' ->
    happened ops (fst (run w ops)) m (Get i n) (Ok (Some q)) ->
    happened ops (fst (run w ops)) m' (Get i n) (Ok (Some q')) -> q = q').
  { intros a b q0 q1 LT A B. pose proof (happened_run _ _ _ B) as (LB & _).
    apply read_happened in A as (A & A2 & _). apply read_happened in B as (_ & B2 & _).
    rewrite (held_kept (S a) b _ ltac:(lia) ltac:(lia) A) in B2.
    rewrite (A2 DF), (B2 DF). reflexivity. }
  intros A B. destruct (Nat.lt_trichotomy m m') as [H|[H|H]].
  - eauto.
  - subst m'. destruct A as [_ A]. destruct B as [_ B]. congruence.
  - symmetry. eauto.
Qed.

(** Without an accepted write, a read gives the default. *)
Lemma default_held m :
  fresh w -> m <= length ops ->
  (forall m' p, m' < m -> ~ happened ops (fst (run w ops)) m' (Put i n p) (Ok None)) ->
  held (before w ops m) i c n = None \/ held (before w ops m) i c n = Some d.
Proof.
  intros FR. induction m as [|m IH]; intros LE NW.
  - left. unfold held, entry, before. cbn. destruct (nth_error (objects w) i) as [o|] eqn:EO; [|reflexivity].
    now rewrite (FR _ _ EO).
  - destruct (nth_error ops m) as [x|] eqn:E; [|apply nth_error_None in E; lia].
    assert (IH' := IH ltac:(lia) ltac:(intros m' p LT; apply NW; lia)).
    destruct (run_at w ops m x E) as [ER EB].
    destruct (step (before w ops m) x) as [r w1] eqn:ES. cbn [fst snd] in *. rewrite EB.
    assert (C : class_of (before w ops m) i c) by (apply class_before; lia).
    destruct (step_undisturbed _ _ _ _ C ES) as [(p & -> & -> & A & _)|[[_ U] _]].
    + intros j p ->. apply nth_error_In in E. eapply NP; eauto.
    + exfalso. apply (NW m p); [lia|]. split; assumption.
    + destruct IH' as [I|I]; destruct U as [U|[U U2]]; rewrite ?U, ?U2; auto; congruence.
Qed.

Lemma read_default m q :
  fresh w -> deep = false ->
  happened ops (fst (run w ops)) m (Get i n) (Ok (Some q)) ->
  (forall m' p, m' < m -> ~ happened ops (fst (run w ops)) m' (Put i n p) (Ok None)) ->
  q = d.
Proof.
  intros FR DF A NW. pose proof (happened_run _ _ _ A) as (LA & _).
  apply read_happened in A as (_ & A & _). rewrite (A DF).
  destruct (default_held m FR ltac:(lia) NW) as [-> | ->]; reflexivity.
Qed.

(** The outcome of a write, exactly: the check's exception if the value is not
    acceptable, AttributeError if the attribute was used before, else accepted. *)
Lemma write_outcome m p r :
  happened ops (fst (run w ops)) m (Put i n p) r ->
  match check k (contents (before w ops m) p) with
  | Err e => r = Err e /\ before w ops (S m) = before w ops m
  | Ok _ =>
      match held (before w ops m) i c n with
      | Some _ => r = Err AttributeError /\ before w ops (S m) = before w ops m
      | None => r = Ok None /\ before w ops (S m) = store (before w ops m) i (private_name c n) p
      end
  end.
Proof.
  intros H. apply happened_run in H as (LT & E & ES). cbn [Attr_Model.step] in ES.
  assert (C : class_of (before w ops m) i c) by (apply class_before; lia).
  set (v := before w ops m) in *. unfold Attr_Model.setattr in ES.
  destruct C as (o & EO & EC). unfold held, entry. rewrite EO in *. rewrite EC in *. rewrite TN in ES.
  destruct (check k (contents v p)) as [x|e]; [|injection ES as <- <-; auto].
  unfold dmem in ES. destruct (dget (o_dict o) (private_name c n)); injection ES as <- <-; auto.
Qed.

(** Used before: an accepted write or a successful read happened. *)
Lemma used_rejected m p r :
  (exists m' q, m' < m /\ (happened ops (fst (run w ops)) m' (Get i n) (Ok (Some q))
                           \/ happened ops (fst (run w ops)) m' (Put i n q) (Ok None))) ->
  happened ops (fst (run w ops)) m (Put i n p) r ->
  before w ops (S m) = before w ops m /\
  r = match check k (contents (before w ops m) p) with Err e => Err e | Ok _ => Err AttributeError end.
Proof.
  intros (m' & q & LT & U) H. pose proof (happened_run _ _ _ H) as (LH & _).
  pose proof (write_outcome _ _ _ H) as WO.
  assert (HH : exists z, held (before w ops m) i c n = Some z).
  { destruct U as [U|U].
    - apply read_happened in U as (U & _). eexists. eapply held_kept; [| |exact U]; lia.
    - apply write_happened in U as (_ & U & _). eexists. eapply held_kept; [| |exact U]; lia. }
  destruct HH as [z HZ]. rewrite HZ in WO.
  destruct (check k (contents (before w ops m) p)); destruct WO; auto.
Qed.

Lemma wrong_kind m p r e :
  check k (contents (before w ops m) p) = Err e ->
  happened ops (fst (run w ops)) m (Put i n p) r ->
  r = Err e /\ before w ops (S m) = before w ops m.
Proof. intros EK H. pose proof (write_outcome _ _ _ H) as WO. now rewrite EK in WO. Qed.

End Hist.
End One.
End M.
