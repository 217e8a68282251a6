(** Proofs: which values the checks accept; the plugin metaclass. *)
From Coq Require Import String Ascii List ZArith QArith Bool Lia.
From Verif Require Import PyBase PyBaseFacts Attr_Model Attr_Spec.
Import ListNotations.
Local Open Scope list_scope.
Local Open Scope nat_scope.

Lemma mapM_unit {A} (f : A -> res unit) l :
  (exists ys, mapM f l = Ok ys) <-> (forall x, In x l -> f x = Ok tt).
Proof.
  induction l as [|a l IH]; cbn [mapM].
  - split; [intros _ x []|eexists; reflexivity].
  - split.
    + intros [ys H]. destruct (f a) as [[]|e] eqn:E; [|discriminate]. cbn [bind] in H.
      destruct (mapM f l) as [zs|e] eqn:E2; [|discriminate].
      intros x [<-|H2]; [exact E|]. apply IH; eauto.
    + intros H. rewrite (H a (or_introl eq_refl)). cbn [bind].
      destruct (proj2 IH) as [ys ->]; [intros x Hx; apply H; now right|].
      eexists. reflexivity.
Qed.

Lemma mapM_check {A} (f : A -> res unit) l :
  (do _ <- mapM f l; Ok tt) = Ok tt <-> (forall x, In x l -> f x = Ok tt).
Proof.
  rewrite <- mapM_unit. destruct (mapM f l) as [ys|e]; cbn [bind].
  - split; [eauto|reflexivity].
  - split; [discriminate|intros [ys H]; discriminate].
Qed.

Lemma str_prefix_spec p s : str_prefix p s = true <-> exists t, s = p ++ t.
Proof.
  revert s. induction p as [|a p IH]; intros s; cbn.
  - split; [eauto|reflexivity].
  - destruct s as [|b s].
    + split; [discriminate|intros [t H]; discriminate].
    + rewrite andb_true_iff, Ascii.eqb_eq, IH. split.
      * intros [-> [t ->]]. eauto.
      * intros [t H]. injection H as -> ->. eauto.
Qed.

Lemma endswith_spec s x : endswith s x = true <-> exists s0, s = s0 ++ x.
Proof.
  unfold endswith. rewrite str_prefix_spec. split.
  - intros [t H]. exists (rev t). rewrite <- (rev_involutive s), H, rev_app_distr, rev_involutive.
    reflexivity.
  - intros [s0 ->]. exists (rev s0). now rewrite rev_app_distr.
Qed.

Lemma substring_spec p s : substring p s = true <-> occurs p s.
Proof.
  induction s as [|a s IH]; cbn [substring]; rewrite orb_true_iff, str_prefix_spec.
  - split.
    + intros [[t H]|H]; [exists [], t; exact H|discriminate].
    + intros (x & y & H). left. symmetry in H. apply app_eq_nil in H as [_ H].
      exists y. congruence.
  - rewrite IH. split.
    + intros [[t H]|(x & y & ->)]; [exists [], t; exact H|exists (a :: x), y; reflexivity].
    + intros (x & y & H). destruct x as [|b x]; [left; eauto|].
      injection H as -> ->. right. exists x, y. reflexivity.
Qed.

Lemma py_eq_text s t : py_eq (TStr s) t = true <-> t = TStr s.
Proof.
  destruct t; cbn; try (split; [discriminate|intros H; discriminate]).
  rewrite str_eqb_eq. split; [now intros ->|intros H; now injection H].
Qed.

Lemma py_eq_int z t : py_eq (TInt z) (TInt t) = true <-> z = t.
Proof.
  cbn. unfold Qeq_bool, inject_Z. cbn [Qnum Qden]. rewrite !Z.mul_1_r.
  rewrite <- Zeq_is_eq_bool. reflexivity.
Qed.

Lemma contains_ok key t : contains key t = Ok true ->
  (exists l v, t = TDict l /\ In (TStr key, v) l) \/
  (exists l, (t = TList l \/ t = TTuple l) /\ In (TStr key) l) \/
  (exists s, t = TStr s /\ occurs key s).
Proof.
  destruct t; cbn; intros H; try discriminate; injection H as H.
  - right. right. exists s. split; [reflexivity|now apply substring_spec].
  - right. left. exists l. split; [auto|]. unfold py_in in H.
    apply existsb_exists in H as (x & Hx & E). apply (py_eq_text key x) in E. congruence.
  - right. left. exists l. split; [auto|]. unfold py_in in H.
    apply existsb_exists in H as (x & Hx & E). apply (py_eq_text key x) in E. congruence.
  - left. apply existsb_exists in H as ([a b] & Hx & E). cbn [fst] in E.
    apply (py_eq_text key a) in E. subst a. eauto.
Qed.

Lemma has_pressure_spec t : contains (L "pressure") t = Ok true <-> has_pressure t.
Proof.
  split.
  - intros H. apply contains_ok in H as [(l & v & -> & H)|[(l & [-> | ->] & H)|(s & -> & H)]].
    + econstructor; eauto.
    + now constructor.
    + now constructor.
    + now constructor.
  - intros [l v H|l H|l H|s H]; unfold contains, py_in; f_equal.
    + apply existsb_exists. exists (TStr (L "pressure"), v). split; [exact H|]. now apply py_eq_text.
    + apply existsb_exists. exists (TStr (L "pressure")). split; [exact H|]. now apply py_eq_text.
    + apply existsb_exists. exists (TStr (L "pressure")). split; [exact H|]. now apply py_eq_text.
    + now apply substring_spec.
Qed.

Lemma check_species_ok t : check KSpecies t = Ok tt <-> good_species t.
Proof.
  unfold good_species. cbn [check]. destruct t; cbn [check_species];
    try (split; [discriminate|intros (l' & H & _); discriminate]).
  rewrite mapM_check. split.
  - intros H. exists l. split; [reflexivity|]. intros k v Hin. specialize (H _ Hin).
    unfold check_species1 in H. cbn [fst snd] in H. destruct k; try discriminate.
    exists s. split; [reflexivity|]. intros E. apply endswith_spec in E. rewrite E in H.
    destruct (contains (L "pressure") v) as [b|e] eqn:EC; [|discriminate]. cbn [bind] in H.
    destruct b; [|discriminate]. now apply has_pressure_spec.
  - intros (l' & E & H) [k v] Hin. injection E as <-.
    destruct (H k v Hin) as (s & -> & HP). unfold check_species1. cbn [fst snd].
    destruct (endswith s (L "_g")) eqn:EE; [|reflexivity].
    apply endswith_spec in EE. apply HP in EE. apply has_pressure_spec in EE. now rewrite EE.
Qed.

Lemma check_ref_ok t : check KRef t = Ok tt <-> good_ref t.
Proof.
  unfold good_ref, is_text. cbn [check]. destruct t; cbn [check_ref];
    try (split; [discriminate|intros (l' & H & _); discriminate]).
  rewrite mapM_check. split.
  - intros H. exists l. split; [reflexivity|]. intros k v Hin. specialize (H _ Hin).
    unfold check_ref1 in H. destruct k; try discriminate. destruct v; try discriminate. eauto.
  - intros (l' & E & H) [k v] Hin. injection E as <-.
    destruct (H k v Hin) as ([s ->] & [q ->]). reflexivity.
Qed.

Lemma interval3 l :
  (if negb (Nat.eqb (length l) 3) then Err SetupError
   else if negb (forallb is_int l) then Err SetupError
   else match l with
        | [TInt start; TInt stop; TInt step] =>
            if (stop <? start)%Z then Err SetupError
            else if (stop - start <? step)%Z then Err SetupError
            else Ok tt
        | _ => Err SetupError
        end) = Ok tt <->
  exists a b s, l = [TInt a; TInt b; TInt s] /\ (a <= b)%Z /\ (s <= b - a)%Z.
Proof.
  destruct l as [|x [|y [|z [|u l]]]]; cbn [length Nat.eqb negb];
    try (split; [discriminate|intros (a & b & s & H & _); discriminate]).
  split.
  - intros H. destruct (negb (forallb is_int [x; y; z])); [discriminate|].
    destruct x; try discriminate. destruct y; try discriminate. destruct z; try discriminate.
    destruct (Z.ltb_spec z1 z0); [discriminate|]. destruct (Z.ltb_spec (z1 - z0) z); [discriminate|].
    exists z0, z1, z. auto.
  - intros (a & b & s & H & A & B). injection H as -> -> ->. cbn [forallb is_int negb].
    change (is_int (TInt a)) with true. change (is_int (TInt b)) with true.
    change (is_int (TInt s)) with true. cbn [andb negb].
    destruct (Z.ltb_spec b a); [lia|]. destruct (Z.ltb_spec (b - a) s); [lia|]. reflexivity.
Qed.

Lemma check_interval1_ok t : check_interval1 t = Ok tt <-> good_interval1 t.
Proof.
  unfold good_interval1, is_integer. destruct t; cbn [check_interval1];
    try (split; [discriminate|
                 intros [[z1 H]|(a1 & b1 & s1 & [H|H] & _)]; discriminate]).
  - split; [eauto|reflexivity].
  - rewrite interval3. split.
    + intros (a & b & s & -> & H). right. exists a, b, s. auto.
    + intros [[z H]|(a & b & s & [H|H] & A)]; try discriminate. injection H as ->. eauto.
  - rewrite interval3. split.
    + intros (a & b & s & -> & H). right. exists a, b, s. auto.
    + intros [[z H]|(a & b & s & [H|H] & A)]; try discriminate. injection H as ->. eauto.
Qed.

Lemma check_interval_ok t : check KInterval t = Ok tt <-> good_interval t.
Proof.
  unfold good_interval, is_sequence_of, is_integer. cbn [check].
  destruct t; cbn [check_interval];
    try (split; [discriminate|intros [[z' H]|(l' & [H|H] & _)]; discriminate]).
  - split; [eauto|reflexivity].
  - rewrite mapM_check. split.
    + intros H. right. exists l. split; [auto|]. intros x Hx. apply check_interval1_ok. auto.
    + intros [[z H]|(l' & [H|H] & A)]; try discriminate. injection H as <-.
      intros x Hx. apply check_interval1_ok. auto.
  - rewrite mapM_check. split.
    + intros H. right. exists l. split; [auto|]. intros x Hx. apply check_interval1_ok. auto.
    + intros [[z H]|(l' & [H|H] & A)]; try discriminate. injection H as <-.
      intros x Hx. apply check_interval1_ok. auto.
Qed.

Lemma type_text t : str_eqb (type_of t) (L "str") = true ->
  is_text t \/ exists c, t = TObj c.
Proof. destruct t; cbn; try discriminate; unfold is_text; eauto. Qed.

(** An instance of a class of the user is not of a builtin type. *)
Definition builtin (s : str) : Prop :=
  In s [L "NoneType"; L "bool"; L "int"; L "float"; L "str"; L "list"; L "tuple"; L "dict"].
Definition proper (t : tree) : Prop :=
  match t with TObj c => ~ builtin c | _ => True end.

Lemma proper_type t s : proper t -> builtin s -> type_of t = s -> forall c, t <> TObj c.
Proof. intros P B E c ->. cbn in *. subst s. contradiction. Qed.

Ltac builtins := unfold builtin; cbn; tauto.

Lemma check_text t : proper t -> (check (KType (L "str") None) t = Ok tt <-> is_text t).
Proof.
  intros P. cbn [check]. split.
  - destruct (str_eqb (type_of t) (L "str")) eqn:E; [|discriminate]. intros _.
    destruct (type_text t E) as [H|[c ->]]; [exact H|].
    cbn in P, E. exfalso. apply P. apply str_eqb_eq in E. rewrite E. builtins.
  - intros [s ->]. reflexivity.
Qed.

Lemma check_text_among t l : proper t ->
  (check (KType (L "str") (Some (map TStr l))) t = Ok tt <-> exists s, t = TStr s /\ In s l).
Proof.
  intros P. cbn [check check_candidates]. split.
  - destruct (str_eqb (type_of t) (L "str")) eqn:E; [|discriminate]. intros H.
    destruct (type_text t E) as [[s ->]|[c ->]].
    + exists s. split; [reflexivity|]. unfold py_in in H.
      destruct (existsb (py_eq (TStr s)) (map TStr l)) eqn:EX; [|discriminate].
      apply existsb_exists in EX as (x & Hx & EQ). apply (py_eq_text s x) in EQ.
      apply in_map_iff in Hx as (s' & <- & Hs). congruence.
    + cbn in P, E. exfalso. apply P. apply str_eqb_eq in E. rewrite E. builtins.
  - intros (s & -> & H). change (str_eqb (type_of (TStr s)) (L "str")) with true. cbv iota.
    unfold py_in. replace (existsb (py_eq (TStr s)) (map TStr l)) with true; [reflexivity|].
    symmetry. apply existsb_exists. exists (TStr s). split; [now apply in_map|]. now apply py_eq_text.
Qed.

Lemma type_int t : proper t -> str_eqb (type_of t) (L "int") = true -> is_integer t.
Proof.
  intros P. destruct t; try discriminate; cbn.
  - intros _. exists z. reflexivity.
  - intros E. exfalso. apply P. apply str_eqb_eq in E. rewrite E. builtins.
Qed.

Lemma check_integer t : proper t -> (check (KType (L "int") None) t = Ok tt <-> is_integer t).
Proof.
  intros P. cbn [check]. split.
  - destruct (str_eqb (type_of t) (L "int")) eqn:E; [|discriminate]. intros _. now apply type_int.
  - intros [z ->]. reflexivity.
Qed.

Lemma check_integer_among t l : proper t ->
  (check (KType (L "int") (Some (map TInt l))) t = Ok tt <-> exists z, t = TInt z /\ In z l).
Proof.
  intros P. cbn [check check_candidates]. split.
  - destruct (str_eqb (type_of t) (L "int")) eqn:E; [|discriminate]. intros H.
    destruct (type_int t P E) as [z ->].
    exists z. split; [reflexivity|]. unfold py_in in H.
    destruct (existsb (py_eq (TInt z)) (map TInt l)) eqn:EX; [|discriminate].
    apply existsb_exists in EX as (x & Hx & EQ).
    apply in_map_iff in Hx as (s' & <- & Hs). apply (py_eq_int z s') in EQ. congruence.
  - intros (z & -> & H). change (str_eqb (type_of (TInt z)) (L "int")) with true. cbv iota.
    unfold py_in. replace (existsb (py_eq (TInt z)) (map TInt l)) with true; [reflexivity|].
    symmetry. apply existsb_exists. exists (TInt z). split; [now apply in_map|]. now apply py_eq_int.
Qed.

Lemma check_number t : proper t -> (check (KFloat None) t = Ok tt <-> is_number t).
Proof.
  intros P. cbn [check]. unfold is_number. split.
  - destruct (str_eqb (type_of t) (L "float") || str_eqb (type_of t) (L "int")) eqn:E; [|discriminate].
    intros _. apply orb_true_iff in E as [E|E].
    + destruct t; try discriminate; cbn in *.
      * right. eauto.
      * exfalso. apply P. apply str_eqb_eq in E. rewrite E. builtins.
    + left. apply (type_int t P E).
  - intros [[z ->]|[q ->]]; reflexivity.
Qed.

Lemma check_dict t : proper t -> (check (KType (L "dict") None) t = Ok tt <-> exists l, t = TDict l).
Proof.
  intros P. cbn [check]. split.
  - destruct (str_eqb (type_of t) (L "dict")) eqn:E; [|discriminate]. intros _.
    destruct t; try discriminate; [eauto|].
    cbn in P, E. exfalso. apply P. apply str_eqb_eq in E. rewrite E. builtins.
  - intros [l ->]. reflexivity.
Qed.

(** A sequence whose entries are exactly of the named type. *)
Lemma check_sequence_ok ty t :
  check (KSequence (Some ty) None) t = Ok tt <-> is_sequence_of (fun x => type_of x = ty) t.
Proof.
  cbn [check]. unfold is_sequence_of. destruct t; try (split; [discriminate|intros (l' & [H|H] & _); discriminate]).
  1,2: split.
  - destruct (mapM _ l) as [ys|e] eqn:E; [|discriminate]. intros _. exists l. split; [auto|].
    intros x Hx. assert (H := proj1 (mapM_unit _ l) (ex_intro _ ys E) x Hx). cbn in H.
    destruct (str_eqb_spec (type_of x) ty); [assumption|discriminate].
  - intros (l' & [H|H] & A); [injection H as <-|discriminate].
    destruct (proj2 (mapM_unit (fun x => if str_eqb (type_of x) ty then Ok tt else Err ValueError) l)) as [ys ->].
    { intros x Hx. rewrite (A x Hx), str_eqb_refl. reflexivity. }
    cbn [bind]. destruct (proj2 (mapM_unit (check_candidates None) l)) as [zs ->]; [reflexivity|]. reflexivity.
  - destruct (mapM _ l) as [ys|e] eqn:E; [|discriminate]. intros _. exists l. split; [auto|].
    intros x Hx. assert (H := proj1 (mapM_unit _ l) (ex_intro _ ys E) x Hx). cbn in H.
    destruct (str_eqb_spec (type_of x) ty); [assumption|discriminate].
  - intros (l' & [H|H] & A); [discriminate|injection H as <-].
    destruct (proj2 (mapM_unit (fun x => if str_eqb (type_of x) ty then Ok tt else Err ValueError) l)) as [ys ->].
    { intros x Hx. rewrite (A x Hx), str_eqb_refl. reflexivity. }
    cbn [bind]. destruct (proj2 (mapM_unit (check_candidates None) l)) as [zs ->]; [reflexivity|]. reflexivity.
Qed.

(** ** The exception of a refused value *)
Lemma mapM_err {A} (f : A -> res unit) l e :
  (forall x e', In x l -> f x = Err e' -> e' = e) ->
  forall e', (do _ <- mapM f l; Ok tt) = Err e' -> e' = e.
Proof.
  intros H. induction l as [|a l IH]; cbn [mapM]; intros e' E; [discriminate|].
  destruct (f a) as [[]|e1] eqn:EA; cbn [bind] in E.
  - apply IH.
    + intros x e2 Hx. apply H. now right.
    + destruct (mapM f l); [discriminate|exact E].
  - injection E as <-. eapply H; [now left|exact EA].
Qed.

Lemma check_refusal_value k t e :
  k <> KSpecies -> k <> KRef -> k <> KInterval ->
  check k t = Err e -> e = ValueError.
Proof.
  intros N1 N2 N3. assert (CC : forall c t e, check_candidates c t = Err e -> e = ValueError).
  { intros [l|] t' e'; cbn; [destruct (py_in t' l)|]; congruence. }
  destruct k as [|ty c|c| | | |en c|wd]; cbn [check].
  - discriminate.
  - destruct (str_eqb _ _); [apply CC|congruence].
  - destruct (_ || _); [apply CC|congruence].
  - congruence.
  - congruence.
  - congruence.
  - assert (S : forall l e, (do _ <- match en with
                  | Some ty => mapM (fun x => if str_eqb (type_of x) ty then Ok tt
                                              else Err ValueError) l
                  | None => Ok []
                  end;
          do _ <- mapM (check_candidates c) l;
          Ok tt) = Err e -> e = ValueError).
    { intros l e' E.
      destruct (match en with Some ty => mapM _ l | None => Ok [] end) as [ys|e1] eqn:E1; cbn [bind] in E.
      - eapply mapM_err; [|exact E]. intros x e2 _. apply CC.
      - injection E as <-. destruct en as [ty|]; [|discriminate].
        eapply (mapM_err (fun x => if str_eqb (type_of x) ty then Ok tt else Err ValueError) l ValueError);
          [|rewrite E1; reflexivity].
        intros x e2 _. destruct (str_eqb _ _); congruence. }
    destruct t; try congruence; apply S.
  - unfold check_vectors. destruct (np_shape t) as [[|a [|b [|d sh]]]|]; destruct t; try congruence;
      destruct (negb _); try congruence. destruct wd as [m|]; [destruct (Nat.eqb b m)|]; congruence.
Qed.

Lemma check_refusal_setup k t e :
  k = KRef \/ k = KInterval -> check k t = Err e -> e = SetupError.
Proof.
  intros [-> | ->]; cbn [check].
  - destruct t; cbn [check_ref]; try congruence. apply mapM_err.
    intros [a b] e' _. unfold check_ref1. destruct a; try congruence; destruct b; congruence.
  - assert (H : forall t e, check_interval1 t = Err e -> e = SetupError).
    { assert (S : forall l e, (if negb (Nat.eqb (length l) 3) then Err SetupError
       else if negb (forallb is_int l) then Err SetupError
       else match l with
            | [TInt start; TInt stop; TInt step] =>
                if (stop <? start)%Z then Err SetupError
                else if (stop - start <? step)%Z then Err SetupError
                else Ok tt
            | _ => Err SetupError
            end) = Err e -> e = SetupError).
      { intros l e'. destruct (negb _); [congruence|]. destruct (negb _); [congruence|].
        destruct l as [|x [|y [|z [|u l]]]]; try congruence;
          destruct x; try congruence; destruct y; try congruence; destruct z; try congruence.
        destruct (_ <? _)%Z; [congruence|]. destruct (_ <? _)%Z; congruence. }
      intros t' e'. destruct t'; cbn [check_interval1]; try congruence; apply S. }
    destruct t; cbn [check_interval]; try congruence; apply mapM_err; intros x e' _; apply H.
Qed.

(** ** The plugin metaclass *)
Lemma analysis_class_ok i a b c x y z :
  analysis_class i a b c = Ok (x, y, z) <->
  (i = None \/ exists n, i = Some (TInt n) /\ (0 < n)%Z) /\
  a <> NotCallable /\ b <> NotCallable /\ c <> NotCallable /\
  (x = true <-> a = Callable) /\ (y = true <-> b = Callable) /\ (z = true <-> c = Callable).
Proof.
  unfold analysis_class.
  assert (HI : meta_interval i = Ok tt <-> (i = None \/ exists n, i = Some (TInt n) /\ (0 < n)%Z)).
  { unfold meta_interval. destruct i as [t|]; [|tauto].
    destruct t; try (split; [discriminate|intros [H|(n & H & _)]; discriminate]).
    destruct (Z.leb_spec z0 0).
    - split; [discriminate|]. intros [H2|(n & H2 & H3)]; [discriminate|]. injection H2 as ->. lia.
    - split; [|reflexivity]. intros _. right. exists z0. auto. }
  assert (HM : forall g v, meta_method g = Ok v <-> g <> NotCallable /\ (v = true <-> g = Callable)).
  { intros g v. destruct g; cbn; (split; [intros H|intros [N V]]).
    all: try (injection H as <-; split; [discriminate|split; congruence]).
    all: try discriminate; try congruence.
    all: destruct v; try reflexivity.
    all: destruct V as [V1 V2]; try (specialize (V1 eq_refl); discriminate).
    specialize (V2 eq_refl). discriminate. }
  destruct (meta_interval i) as [[]|e] eqn:EI; cbn [bind].
  2: { split; [discriminate|]. intros [H _]. apply HI in H. discriminate. }
  assert (I0 := proj1 HI eq_refl).
  destruct (meta_method a) as [va|e] eqn:EA; cbn [bind].
  2: { split; [discriminate|]. intros (_ & A & _). destruct a; cbn in EA; congruence. }
  destruct (meta_method b) as [vb|e] eqn:EB; cbn [bind].
  2: { split; [discriminate|]. intros (_ & _ & B & _). destruct b; cbn in EB; congruence. }
  destruct (meta_method c) as [vc|e] eqn:EC; cbn [bind].
  2: { split; [discriminate|]. intros (_ & _ & _ & C & _). destruct c; cbn in EC; congruence. }
  split.
  - intros H. injection H as <- <- <-. apply HM in EA as [A1 A2]. apply HM in EB as [B1 B2].
    apply HM in EC as [C1 C2]. tauto.
  - intros (_ & A & B & C & X & Y & Z).
    assert (Ok va = Ok x) as E1 by (rewrite <- EA; apply HM; tauto).
    assert (Ok vb = Ok y) as E2 by (rewrite <- EB; apply HM; tauto).
    assert (Ok vc = Ok z) as E3 by (rewrite <- EC; apply HM; tauto).
    congruence.
Qed.

Lemma analysis_class_err i a b c e :
  analysis_class i a b c = Err e ->
  (e = TypeError /\ exists t, i = Some t /\ forall n, t = TInt n -> (n <= 0)%Z)
  \/ (e = AttributeError /\ (a = NotCallable \/ b = NotCallable \/ c = NotCallable)).
Proof.
  unfold analysis_class. destruct (meta_interval i) as [[]|e0] eqn:EI; cbn [bind].
  - destruct a, b, c; cbn; intros H; try discriminate; injection H as <-; right; auto.
  - intros H. injection H as <-. left. unfold meta_interval in EI.
    destruct i as [t|]; [|discriminate].
    destruct t; try (injection EI as <-; split; [reflexivity|]; eexists; split; [reflexivity|];
                     intros n Hn; discriminate).
    destruct (Z.leb_spec z 0); [|discriminate]. injection EI as <-. split; [reflexivity|].
    eexists. split; [reflexivity|]. intros n Hn. injection Hn as <-. assumption.
Qed.

(** ** Vectors *)
Lemma shape_eqb_eq a b : shape_eqb a b = true <-> a = b.
Proof. unfold shape_eqb. destruct (list_eq_dec Nat.eq_dec a b); split; congruence. Qed.

Lemma common_shape_some l s :
  common_shape l = Some s <->
  (l = [] /\ s = [0]) \/ (l <> [] /\ exists s0, s = length l :: s0 /\ forall x, In x l -> x = Some s0).
Proof.
  destruct l as [|[s0|] t].
  - cbn. split; [intros E; injection E as <-; auto|]. intros [[_ ->]|[N _]]; [reflexivity|congruence].
  - unfold common_shape. destruct (forallb _ t) eqn:EF.
    + assert (A : forall x, In x t -> x = Some s0).
      { intros x I. pose proof (proj1 (forallb_forall _ _) EF x I) as H. cbn beta in H.
        destruct x as [s'|]; [|discriminate]. apply shape_eqb_eq in H. now subst. }
      split.
      * intros E. injection E as <-. right. split; [discriminate|]. exists s0. split; [reflexivity|].
        intros x [<-|I]; [reflexivity|now apply A].
      * intros [[N _]|[_ (s1 & -> & H)]]; [discriminate|].
        assert (E : Some s0 = Some s1) by (apply H; now left). injection E as <-. reflexivity.
    + split; [discriminate|]. intros [[N _]|[_ (s1 & -> & H)]]; [discriminate|]. exfalso.
      assert (T : forallb (fun x => match x with Some s' => shape_eqb s0 s' | None => false end) t = true).
      { apply forallb_forall. intros x I. assert (E0 : Some s0 = Some s1) by (apply H; now left).
        injection E0 as <-. rewrite (H x) by (now right). now apply shape_eqb_eq. }
      congruence.
  - cbn. split; [discriminate|]. intros [[N _]|[_ (s1 & _ & H)]]; [discriminate|].
    specialize (H None (or_introl eq_refl)). discriminate.
Qed.

Definition scalar (x : tree) : Prop := match x with TList _ | TTuple _ => False | _ => True end.

Lemma shape_scalar x : np_shape x = Some [] <-> scalar x.
Proof.
  destruct x; cbn [np_shape scalar]; try tauto.
  - split; [|tauto]. intros E. apply common_shape_some in E as [[_ E]|[_ (s0 & E & _)]]; discriminate.
  - split; [|tauto]. intros E. apply common_shape_some in E as [[_ E]|[_ (s0 & E & _)]]; discriminate.
Qed.

Lemma scalar_entries x : scalar x -> np_entries x = [x].
Proof. destruct x; cbn; tauto. Qed.

Lemma row_shape_seq xs n :
  common_shape (map np_shape xs) = Some [n] <-> length xs = n /\ forall x, In x xs -> scalar x.
Proof.
  rewrite common_shape_some. split.
  - intros [[E1 E2]|[N (s0 & E & H)]].
    + apply map_eq_nil in E1. subst xs. injection E2 as ->. split; [reflexivity|]. intros x [].
    + injection E as E1 E2. rewrite map_length in E1. subst s0. split; [congruence|].
      intros x I. apply shape_scalar. apply H. now apply in_map.
  - intros [<- H]. destruct xs as [|x xs]; [left; auto|]. right. split; [discriminate|].
    exists []. rewrite map_length. split; [reflexivity|]. intros y I. apply in_map_iff in I as (z & <- & I).
    apply shape_scalar. now apply H.
Qed.

Lemma row_shape r n :
  np_shape r = Some [n] <-> exists xs, row_of r xs /\ length xs = n /\ forall x, In x xs -> scalar x.
Proof.
  destruct r; cbn [np_shape];
    try (split; [discriminate|intros (xs & [E|E] & _); discriminate]);
    (rewrite row_shape_seq; split;
      [intros H; exists l; split; [|exact H]; first [now left|now right]
      |intros (xs & [E|E] & H); try discriminate; injection E as <-; exact H]).
Qed.

Lemma row_entries r xs : row_of r xs -> (forall x, In x xs -> scalar x) -> np_entries r = xs.
Proof.
  intros R H. assert (E : concat (map np_entries xs) = xs).
  { clear R. induction xs as [|x xs IH]; [reflexivity|]. cbn [map concat].
    rewrite scalar_entries by (apply H; now left). cbn [app]. f_equal. apply IH.
    intros y I. apply H. now right. }
  destruct R as [-> | ->]; exact E.
Qed.

Lemma number_cases x : (match number x with Some _ => true | None => false end) = true <->
  is_number x \/ exists b, x = TBool b.
Proof.
  destruct x; cbn; unfold is_number; split; try discriminate;
    try (intros [[(z0 & E)|(z0 & E)]|(b0 & E)]; discriminate); eauto.
Qed.

Lemma number_scalar x : is_number x \/ (exists b, x = TBool b) -> scalar x.
Proof. intros [[(z & ->)|(q & ->)]|(b & ->)]; exact I. Qed.

Lemma check_vectors_ok width t : check (KVectors width) t = Ok tt <-> good_vectors width t.
Proof.
  cbn [check]. unfold check_vectors, good_vectors. split.
  - intros E. destruct (np_shape t) as [sh|] eqn:ES; [|discriminate].
    destruct t as [| | | | |rows| | |]; try discriminate.
    destruct (np_floats (np_entries (TList rows))) eqn:EN; cbn [negb] in E; [|discriminate].
    destruct sh as [|m [|n [|? ?]]]; try discriminate.
    exists rows, n. split; [reflexivity|].
    cbn [np_shape] in ES. apply common_shape_some in ES as [[_ Q]|[NE (s0 & Q & H)]]; [discriminate|].
    injection Q as _ <-. split; [intros ->; now apply NE|].
    assert (ROW : forall r, In r rows -> exists xs, row_of r xs /\ length xs = n /\ forall x, In x xs -> scalar x).
    { intros r I. apply row_shape. apply H. now apply in_map. }
    unfold np_floats in EN. apply andb_true_iff in EN as [E1 E2].
    pose proof (proj1 (forallb_forall _ _) E1) as NUM. clear E1.
    assert (INE : forall r xs x, In r rows -> row_of r xs -> (forall y, In y xs -> scalar y) -> In x xs ->
              In x (np_entries (TList rows))).
    { intros r xs x I R S IX. cbn [np_entries]. apply in_concat. exists xs. split; [|exact IX].
      apply in_map_iff. exists r. split; [now apply row_entries|exact I]. }
    split; [|split].
    + intros r I. destruct (ROW _ I) as (xs & R & LN & S). exists xs. split; [exact R|]. split; [exact LN|].
      intros x IX. apply number_cases. apply NUM. exact (INE _ _ _ I R S IX).
    + intros NZ. apply orb_true_iff in E2 as [E2|E2].
      * exfalso. destruct rows as [|r rows]; [now apply NE|].
        destruct (ROW r (or_introl eq_refl)) as (xs & R & LN & S).
        destruct xs as [|x xs]; [cbn in LN; congruence|].
        pose proof (INE r (x :: xs) x (or_introl eq_refl) R S (or_introl eq_refl)) as IX.
        destruct (np_entries (TList (r :: rows))); [destruct IX|discriminate].
      * apply existsb_exists in E2 as (x & IX & EX). destruct x; try discriminate.
        cbn [np_entries] in IX. apply in_concat in IX as (ys & IY & IX).
        apply in_map_iff in IY as (r & <- & I). destruct (ROW _ I) as (xs & R & LN & S).
        rewrite (row_entries _ _ R S) in IX. exists r, xs, q. auto.
    + destruct width as [k|]; [|exact Logic.I]. destruct (Nat.eqb_spec n k); [assumption|discriminate].
  - intros (rows & n & -> & NE & ROW & FL & W).
    assert (S : forall r, In r rows -> exists xs, row_of r xs /\ length xs = n /\ (forall x, In x xs -> scalar x)
                 /\ np_entries r = xs /\ forall x, In x xs -> is_number x \/ exists b, x = TBool b).
    { intros r I. destruct (ROW r I) as (xs & R & LN & NM). exists xs.
      assert (SC : forall x, In x xs -> scalar x) by (intros x IX; apply number_scalar; auto).
      split; [exact R|]. split; [exact LN|]. split; [exact SC|]. split; [now apply row_entries|exact NM]. }
    assert (SH : np_shape (TList rows) = Some [length rows; n]).
    { cbn [np_shape]. apply common_shape_some. right. split.
      - intros Q. apply map_eq_nil in Q. contradiction.
      - exists [n]. rewrite map_length. split; [reflexivity|]. intros x I. apply in_map_iff in I as (r & <- & I).
        apply row_shape. destruct (S r I) as (xs & R & LN & SC & _). eauto. }
    rewrite SH.
    assert (F : np_floats (np_entries (TList rows)) = true).
    { unfold np_floats. apply andb_true_iff. split.
      - apply forallb_forall. intros x IX. apply number_cases. cbn [np_entries] in IX.
        apply in_concat in IX as (ys & IY & IX). apply in_map_iff in IY as (r & <- & I).
        destruct (S r I) as (xs & _ & _ & _ & EN & NM). rewrite EN in IX. auto.
      - apply orb_true_iff. destruct n as [|n].
        + left. destruct (np_entries (TList rows)) as [|x l] eqn:EE; [reflexivity|]. exfalso.
          assert (IX : In x (np_entries (TList rows))) by (rewrite EE; now left).
          cbn [np_entries] in IX. apply in_concat in IX as (ys & IY & IX).
          apply in_map_iff in IY as (r & <- & I). destruct (S r I) as (xs & _ & LN & _ & EN & _).
          rewrite EN in IX. destruct xs; [destruct IX|discriminate].
        + right. destruct FL as (r & xs & q & I & R & IX); [discriminate|]. apply existsb_exists.
          exists (TFloat q). split; [|reflexivity]. cbn [np_entries]. apply in_concat. exists xs.
          split; [|exact IX]. apply in_map_iff. exists r. split; [|exact I].
          destruct (S r I) as (xs' & R' & _ & _ & EN & _). rewrite EN.
          destruct R as [-> | ->], R' as [E|E]; try discriminate; now injection E. }
    rewrite F. cbn [negb]. destruct width as [k|]; [|reflexivity]. subst k. now rewrite Nat.eqb_refl.
Qed.
