(** Proofs: equality of values, candidates, the refusals of species definitions, the defaults. *)
From Coq Require Import String Ascii List ZArith QArith Bool Lia.
From Verif Require Import PyBase PyBaseFacts Attr_Model Attr_Spec Attr_Checks.
Import ListNotations.
Local Open Scope list_scope.
Local Open Scope nat_scope.

(** Induction over values and what they contain. *)
Section Ind.
  Variable P : tree -> Prop.
  Hypothesis Hnone : P TNone.
  Hypothesis Hbool : forall b, P (TBool b).
  Hypothesis Hint : forall z, P (TInt z).
  Hypothesis Hfloat : forall q, P (TFloat q).
  Hypothesis Hstr : forall s, P (TStr s).
  Hypothesis Hlist : forall l, Forall P l -> P (TList l).
  Hypothesis Htuple : forall l, Forall P l -> P (TTuple l).
  Hypothesis Hdict : forall l, Forall (fun kv => P (fst kv) /\ P (snd kv)) l -> P (TDict l).
  Hypothesis Hobj : forall c, P (TObj c).
  Fixpoint tree_all (t : tree) : P t :=
    match t with
    | TNone => Hnone | TBool b => Hbool b | TInt z => Hint z | TFloat q => Hfloat q
    | TStr s => Hstr s
    | TList l => Hlist l ((fix go l := match l return Forall P l with
                           | [] => Forall_nil P | x :: r => Forall_cons x (tree_all x) (go r) end) l)
    | TTuple l => Htuple l ((fix go l := match l return Forall P l with
                           | [] => Forall_nil P | x :: r => Forall_cons x (tree_all x) (go r) end) l)
    | TDict l => Hdict l ((fix go l := match l return Forall (fun kv => P (fst kv) /\ P (snd kv)) l with
                           | [] => Forall_nil _
                           | (k, v) :: r => Forall_cons (k, v) (conj (tree_all k) (tree_all v)) (go r) end) l)
    | TObj c => Hobj c
    end.
End Ind.

Lemma number_numeric t q : number t = Some q <-> numeric t q.
Proof.
  destruct t as [|[] | | | | | | |]; cbn; split; intro H; try discriminate; try (injection H as <-; constructor);
    inversion H; reflexivity.
Qed.

Fixpoint all2 (l m : list tree) {struct l} : bool :=
  match l, m with
  | [], [] => true
  | x :: l', y :: m' => py_eq x y && all2 l' m'
  | _, _ => false
  end.
Fixpoint sub (l m : list (tree * tree)) {struct l} : bool :=
  match l with
  | [] => true
  | (k, v) :: l' => existsb (fun kv => py_eq k (fst kv) && py_eq v (snd kv)) m && sub l' m
  end.
Lemma eq_list l m : py_eq (TList l) (TList m) = all2 l m.
Proof. reflexivity. Qed.
Lemma eq_tuple l m : py_eq (TTuple l) (TTuple m) = all2 l m.
Proof. reflexivity. Qed.
Lemma eq_dict l m : py_eq (TDict l) (TDict m) = Nat.eqb (length l) (length m) && sub l m.
Proof. reflexivity. Qed.

Lemma all2_iff l : Forall (fun a => forall b, py_eq a b = true <-> same_value a b) l ->
  forall m, all2 l m = true <-> same_values l m.
Proof.
  induction 1 as [|a l Ha F IH]; intros [|b m]; cbn [all2].
  - split; [constructor|auto].
  - split; [discriminate|intro H; inversion H].
  - split; [discriminate|intro H; inversion H].
  - rewrite andb_true_iff, Ha, IH. split; [intros [A B]; now constructor|intro H; inversion H; auto].
Qed.

Lemma sub_iff l : Forall (fun kv => (forall b, py_eq (fst kv) b = true <-> same_value (fst kv) b) /\
                                    (forall b, py_eq (snd kv) b = true <-> same_value (snd kv) b)) l ->
  forall m, sub l m = true <->
    forall k v, In (k, v) l -> exists k' v', In (k', v') m /\ same_value k k' /\ same_value v v'.
Proof.
  induction 1 as [|[k v] l [Hk Hv] F IH]; intro m; cbn [sub fst snd] in *.
  - split; [intros _ k v []|auto].
  - rewrite andb_true_iff, existsb_exists, IH. split.
    + intros [([k' v'] & I & E) R] k0 v0 [E0|I0]; [|now apply R]. injection E0 as <- <-.
      cbn [fst snd] in E. apply andb_true_iff in E as [E1 E2]. exists k', v'. split; auto. split; [now apply Hk|now apply Hv].
    + intro R. split.
      * destruct (R k v (or_introl eq_refl)) as (k' & v' & I & E1 & E2). exists (k', v'). split; auto.
        cbn [fst snd]. apply andb_true_iff. split; [now apply Hk|now apply Hv].
      * intros k0 v0 I0. apply R. now right.
Qed.

Lemma py_eq_iff a : forall b, py_eq a b = true <-> same_value a b.
Proof.
  assert (N : forall a, (number a <> None \/ exists c, a = TObj c) ->
    forall b, py_eq a b = match number a, number b with Some p, Some q => Qeq_bool p q | _, _ => false end).
  { intros x [H|[c ->]] b; [|reflexivity]. destruct x; cbn in H; try congruence; reflexivity. }
  assert (G : forall a, (number a <> None \/ exists c, a = TObj c) -> forall b, py_eq a b = true <-> same_value a b).
  { intros x H b. rewrite (N x H). split.
    - destruct (number x) as [p|] eqn:Ex; [|discriminate]. destruct (number b) as [q|] eqn:Eb; [|discriminate].
      intro E. apply Qeq_bool_iff in E. apply (same_number x b p q); auto; now apply number_numeric.
    - intro S. destruct S as [|s|x b p q Np Nq E|l m S|l m S|l m E S].
      3: { apply number_numeric in Np, Nq. rewrite Np, Nq. now apply Qeq_bool_iff. }
      all: exfalso; cbn in H; destruct H as [H|[c H]]; congruence. }
  induction a as [| | | |s|l IH|l IH|l IH|c] using tree_all;
    try solve [apply G; left; discriminate]; try solve [apply G; right; eexists; reflexivity].
  - intro b. split.
    + destruct b; cbn; intro H; try discriminate. constructor.
    + intro S. inversion S as [| |x y p q Np Nq E| | |]; subst; [reflexivity|inversion Np].
  - intro b. rewrite py_eq_text. split; [intros ->; constructor|].
    intro S. inversion S as [| |x y p q Np Nq E| | |]; subst; [reflexivity|inversion Np].
  - intro b. split.
    + destruct b as [| | | | |m| | |]; try (cbn; intro H; discriminate). rewrite eq_list. intro H. constructor. now apply (all2_iff l IH).
    + intro S. inversion S as [| |x y p q Np Nq E|l' m' S'| |]; subst; [inversion Np|]. rewrite eq_list. now apply (all2_iff l IH).
  - intro b. split.
    + destruct b as [| | | | | |m| |]; try (cbn; intro H; discriminate). rewrite eq_tuple. intro H. constructor. now apply (all2_iff l IH).
    + intro S. inversion S as [| |x y p q Np Nq E| |l' m' S'|]; subst; [inversion Np|]. rewrite eq_tuple. now apply (all2_iff l IH).
  - intro b. split.
    + destruct b as [| | | | | | |m|]; try (cbn; intro H; discriminate). rewrite eq_dict, andb_true_iff, Nat.eqb_eq.
      intros [H1 H2]. constructor; auto. now apply (sub_iff l IH).
    + intro S. inversion S as [| |x y p q Np Nq E| | |l' m' S1 S2]; subst; [inversion Np|].
      rewrite eq_dict, andb_true_iff, Nat.eqb_eq. split; auto. now apply (sub_iff l IH).
Qed.

Lemma py_in_iff t l : py_in t l = true <-> among l t.
Proof.
  unfold py_in, among. rewrite existsb_exists. split; intros (c & I & E); exists c; split; auto; now apply py_eq_iff.
Qed.

Lemma candidates_iff c t : check_candidates c t = Ok tt <-> (forall l, c = Some l -> among l t).
Proof.
  unfold check_candidates. destruct c as [l|].
  - destruct (py_in t l) eqn:E.
    + split; [|auto]. intros _ l' H. injection H as <-. now apply py_in_iff.
    + split; [discriminate|]. intro H. apply (proj2 (py_in_iff t l)) in H; auto. congruence.
  - split; [discriminate|auto].
Qed.

Lemma type_is t ty : type_of t = ty <-> of_type t ty.
Proof. split; [intros <-; destruct t; constructor|]. intros []; reflexivity. Qed.

Lemma type_iff ty c t : check (KType ty c) t = Ok tt <-> type_of t = ty /\ (forall l, c = Some l -> among l t).
Proof.
  cbn [check]. destruct (str_eqb_spec (type_of t) ty) as [E|E].
  - rewrite candidates_iff. tauto.
  - split; [discriminate|tauto].
Qed.

Lemma float_iff c t : check (KFloat c) t = Ok tt <->
  (type_of t = L "float" \/ type_of t = L "int") /\ (forall l, c = Some l -> among l t).
Proof.
  cbn [check]. destruct (str_eqb_spec (type_of t) (L "float")) as [E|E];
    destruct (str_eqb_spec (type_of t) (L "int")) as [F|F]; cbn [orb]; rewrite ?candidates_iff; try tauto.
  split; [discriminate|tauto].
Qed.

Lemma sequence_iff entry c t : check (KSequence entry c) t = Ok tt <->
  is_sequence_of (fun x => (forall ty, entry = Some ty -> type_of x = ty) /\ (forall l, c = Some l -> among l x)) t.
Proof.
  assert (G : forall l, (do _ <- match entry with
                  | Some ty => mapM (fun x => if str_eqb (type_of x) ty then Ok tt else Err ValueError) l
                  | None => Ok []
                  end;
          do _ <- mapM (check_candidates c) l;
          Ok tt) = Ok tt <-> forall x, In x l -> (forall ty, entry = Some ty -> type_of x = ty) /\ (forall l, c = Some l -> among l x)).
  { intro l.
    assert (A : (do _ <- match entry with
                  | Some ty => mapM (fun x => if str_eqb (type_of x) ty then Ok tt else Err ValueError) l
                  | None => Ok []
                  end; Ok tt) = Ok tt <-> forall x, In x l -> forall ty, entry = Some ty -> type_of x = ty).
    { destruct entry as [ty|].
      - rewrite mapM_check. split; intros H x Hx.
        + intros ty' E. injection E as <-. specialize (H x Hx). destruct (str_eqb_spec (type_of x) ty); [auto|discriminate].
        + rewrite (H x Hx ty eq_refl), str_eqb_refl. reflexivity.
      - cbn. split; [discriminate|auto]. }
    pose proof (mapM_check (check_candidates c) l) as B.
    destruct (match entry with
                  | Some ty => mapM (fun x => if str_eqb (type_of x) ty then Ok tt else Err ValueError) l
                  | None => Ok []
                  end) as [u|e]; cbn [bind] in A |- *.
    - rewrite B. split.
      + intros H x Hx. split; [now apply (proj1 A eq_refl)|]. apply candidates_iff. auto.
      + intros H x Hx. apply candidates_iff. apply (H x Hx).
    - split; [discriminate|]. intro H. apply A. intros x Hx. apply (H x Hx). }
  unfold is_sequence_of. cbn [check]. destruct t; try (split; [discriminate|]; intros (l' & [E|E] & _); discriminate);
    rewrite G; (split; [intro H; exists l; auto|]); intros (l' & E & H); destruct E as [E|E]; inversion E; subst; auto.
Qed.

(** Refusals of species definitions. *)
Lemma contains_error key t e : contains key t = Err e -> ~ container t /\ e = TypeError.
Proof.
  unfold container. destruct t; cbn; intro H; try discriminate; injection H as <-; (split; [|reflexivity]);
    intros [(l' & E)|[(l' & E)|[(l' & E)|(s' & E)]]]; discriminate.
Qed.
Lemma contains_container key t b : contains key t = Ok b -> container t.
Proof. unfold container. destruct t; cbn; intro H; try discriminate; eauto 6. Qed.

Lemma species1_fault k v e : check_species1 (k, v) = Err e <-> species_fault k v e.
Proof.
  unfold species_fault, is_text, check_species1. cbn [fst snd]. split.
  - destruct k; try (intro H; injection H as <-; left; split; [intros [s' E]; discriminate|reflexivity]).
    destruct (endswith s (L "_g")) eqn:E; [|discriminate]. apply endswith_spec in E as (s0 & ->).
    intro H. right. exists s0. split; [reflexivity|].
    destruct (contains (L "pressure") v) as [b|x] eqn:C; cbn [bind] in H.
    + right. destruct b; [discriminate|]. injection H as <-. split; [eapply contains_container; eauto|].
      split; [|reflexivity]. intro Q. apply has_pressure_spec in Q. congruence.
    + left. injection H as <-. now apply contains_error in C.
  - intros [[H ->]|(s0 & -> & H)].
    + destruct k; try reflexivity. destruct H. eauto.
    + assert (endswith (s0 ++ L "_g") (L "_g") = true) as -> by (apply endswith_spec; eauto).
      destruct (contains (L "pressure") v) as [b|x] eqn:C; cbn [bind].
      * destruct H as [[H ->]|(H1 & H2 & ->)]; [destruct H; eapply contains_container; eauto|].
        destruct b; [|reflexivity]. destruct H2. now apply has_pressure_spec.
      * apply contains_error in C as [C ->]. destruct H as [[H ->]|(H1 & H2 & ->)]; [reflexivity|tauto].
Qed.

Lemma mapM_error {A} (f : A -> res unit) l e : (do _ <- mapM f l; Ok tt) = Err e <->
  exists before x after, l = before ++ x :: after /\ (forall y, In y before -> f y = Ok tt) /\ f x = Err e.
Proof.
  induction l as [|a l IH]; cbn [mapM].
  - split; [discriminate|]. intros (b & x & t & E & _). now destruct b.
  - destruct (f a) as [[]|e'] eqn:E; cbn [bind].
    + assert (X : (do _ <- (do ys <- mapM f l; Ok (tt :: ys)); Ok tt) = (do _ <- mapM f l; Ok tt)) by (destruct (mapM f l); reflexivity).
      rewrite X, IH. split.
      * intros (b & x & t & -> & H1 & H2). exists (a :: b), x, t. split; [reflexivity|]. split; [|exact H2].
        intros y [<-|Hy]; auto.
      * intros (b & x & t & Eq & H1 & H2). destruct b as [|b0 b]; cbn in Eq; injection Eq as -> ->.
        -- congruence.
        -- exists b, x, t. split; [reflexivity|]. split; [|exact H2]. intros; apply H1; now right.
    + split.
      * intro H. injection H as <-. exists [], a, l. split; [reflexivity|]. split; [intros y []|auto].
      * intros (b & x & t & Eq & H1 & H2). destruct b as [|b0 b]; cbn in Eq; injection Eq as -> ->; [congruence|].
        rewrite (H1 b0 (or_introl eq_refl)) in E. discriminate.
Qed.

Lemma species_refusal t e : check KSpecies t = Err e <->
  ((forall l, t <> TDict l) /\ e = SetupError) \/
  (exists before k v after, t = TDict (before ++ (k, v) :: after) /\
     good_species (TDict before) /\ species_fault k v e).
Proof.
  cbn [check]. assert (D : (exists l, t = TDict l) \/ forall l, t <> TDict l) by (destruct t; eauto; right; discriminate).
  destruct D as [[l ->]|D].
  - cbn [check_species]. rewrite mapM_error. split.
    + intros (b & [k v] & a & -> & H1 & H2). right. exists b, k, v, a. split; [reflexivity|]. split.
      * apply check_species_ok. cbn [check check_species]. now apply mapM_check.
      * now apply species1_fault.
    + intros [[H _]|(b & k & v & a & E & G & F)]; [now destruct (H l)|]. injection E as ->.
      exists b, (k, v), a. split; [reflexivity|]. split; [|now apply species1_fault].
      apply check_species_ok in G. cbn [check check_species] in G. now apply mapM_check.
  - assert (check_species t = Err SetupError) as -> by (destruct t; try reflexivity; now destruct (D l)).
    split.
    + intro H. injection H as <-. left. auto.
    + intros [[_ ->]|(b & k & v & a & E & _)]; [reflexivity|]. now apply D in E.
Qed.

Lemma documented_ok n t : In (n, t) documented ->
  exists k d deep, model_table micro n = Some (AValue k d deep) /\ nth_error defaults d = Some t /\
    (deep = true <-> n = L "species_definitions").
Proof.
  intro H. unfold documented in H. cbn [In] in H.
  repeat (destruct H as [H|H];
    [injection H as <- <-; do 3 eexists; split; [reflexivity|split; [reflexivity|
       split; [intro Q; first [reflexivity|discriminate]|intro Q; first [reflexivity|discriminate Q]]]]|]).
  destruct H.
Qed.
Lemma documented_all n k d deep : model_table micro n = Some (AValue k d deep) -> exists t, In (n, t) documented.
Proof.
  assert (A : forallb (fun na => match snd na with AValue _ _ _ => str_mem (fst na) (map fst documented) | _ => true end)
                micro_attrs = true) by (vm_compute; reflexivity).
  rewrite forallb_forall in A. unfold model_table. rewrite str_eqb_refl. intro H. apply dget_In in H.
  specialize (A _ H). cbn [fst snd] in A. apply str_mem_In in A. apply in_map_iff in A as ([n' t] & E & I).
  cbn in E. subst. eauto.
Qed.

(** The defaults of KMCModel. *)
Lemma kmc_documented_ok n t : In (n, t) (firstn 12 documented ++ kmc_documented) ->
  exists k d deep, model_table kmc n = Some (AValue k d deep) /\
    nth_error (defaults ++ kmc_defaults) d = Some t /\ (deep = true <-> n = L "species_definitions").
Proof.
  intro H. unfold documented, kmc_documented in H. cbn [In firstn app] in H.
  repeat (destruct H as [H|H];
    [injection H as <- <-; do 3 eexists; split; [reflexivity|split; [reflexivity|
       split; [intro Q; first [reflexivity|discriminate]|intro Q; first [reflexivity|discriminate Q]]]]|]).
  destruct H.
Qed.
Lemma kmc_documented_all n k d deep : model_table kmc n = Some (AValue k d deep) ->
  exists t, In (n, t) (firstn 12 documented ++ kmc_documented).
Proof.
  assert (A : forallb (fun na => match snd na with AValue _ _ _ =>
                str_mem (fst na) (map fst (firstn 12 documented ++ kmc_documented)) | _ => true end)
                kmc_attrs = true) by (vm_compute; reflexivity).
  rewrite forallb_forall in A.
  assert (K : model_table kmc n = dget kmc_attrs n) by reflexivity.
  rewrite K. clear K. intro H. apply dget_In in H.
  specialize (A _ H). cbn [fst snd] in A. apply str_mem_In in A. apply in_map_iff in A as ([n' t] & E & I).
  cbn in E. subst. eauto.
Qed.
(** Every default of KMCModel except those that are None is an acceptable value of its attribute. *)
Lemma kmc_default_accepted n t k d deep : In (n, t) kmc_documented -> t <> TNone ->
  model_table kmc n = Some (AValue k d deep) -> check k t = Ok tt.
Proof.
  assert (A : forallb (fun nt => match model_table kmc (fst nt), snd nt with
                | Some (AValue k _ _), TNone => true
                | Some (AValue k _ _), t => match check k t with Ok _ => true | Err _ => false end
                | _, _ => false end) kmc_documented = true) by (vm_compute; reflexivity).
  rewrite forallb_forall in A. intros H N E. specialize (A _ H). cbn [fst snd] in A. rewrite E in A.
  destruct t; try (now destruct N); destruct (check k _) as [[]|]; congruence.
Qed.
