(** Proofs: construction of a MicroKineticModel from its setup dictionary. *)
From Coq Require Import String Ascii List ZArith QArith Bool Lia.
From Verif Require Import PyBase PyBaseFacts Attr_Model Attr_Spec Attr_Proofs Attr_Checks Attr_Load.
Import ListNotations.
Local Open Scope list_scope.
Local Open Scope nat_scope.

Notation T := model_table.
Notation getm := (getattr model_table).

Lemma dget_In {V} (d : dict V) k v : dget d k = Some v -> In (k, v) d.
Proof.
  induction d as [|[k' v'] d IH]; cbn; [discriminate|].
  destruct (str_eqb_spec k k') as [->|N]; [|auto].
  intros E. injection E as ->. now left.
Qed.

Lemma In_dget {V} (d : dict V) k v : NoDup (map fst d) -> In (k, v) d -> dget d k = Some v.
Proof.
  induction d as [|[k' v'] d IH]; cbn; [tauto|]. intros ND [H|H].
  - injection H as -> ->. now rewrite str_eqb_refl.
  - inversion ND as [|? ? NI ND']; subst. destruct (str_eqb_spec k k') as [->|N]; [|auto].
    exfalso. apply NI. apply in_map_iff. exists (k', v). auto.
Qed.

Lemma dget_None_In {V} (d : dict V) k : dget d k = None <-> ~ In k (map fst d).
Proof.
  induction d as [|[k' v'] d IH]; cbn; [tauto|].
  destruct (str_eqb_spec k k') as [->|N].
  - split; [discriminate|]. intros H. exfalso. apply H. now left.
  - rewrite IH. split; [|tauto]. intros H [H2|H2]; [congruence|tauto].
Qed.

(** No declared name starts with an underscore. *)
Definition plain_head (s : str) : bool :=
  match s with c :: _ => negb (Ascii.eqb c "_") | [] => true end.

Definition is_component (a : attr) : bool := match a with AComponent _ _ => true | _ => false end.

Lemma dget_app {V} (d e : dict V) k v : dget d k = Some v -> dget (d ++ e) k = Some v.
Proof.
  induction d as [|[k' v'] d IH]; cbn; [discriminate|]. destruct (str_eqb k k'); auto.
Qed.

Section Class.
(** The class of the model. *)
Variable cls : str.
Hypothesis CLS : cls = micro \/ cls = kmc.

Definition cls_attrs : dict attr := if str_eqb cls micro then micro_attrs else kmc_attrs.
Lemma cls_table n : T cls n = dget cls_attrs n.
Proof. unfold cls_attrs, model_table. destruct CLS as [-> | ->]; reflexivity. Qed.

Lemma common n a : dget kinetic_attrs n = Some a -> T cls n = Some a.
Proof.
  intros E. rewrite cls_table. unfold cls_attrs. destruct (str_eqb cls micro); apply dget_app; exact E.
Qed.

Lemma parser_row : T cls (L "parser") =
  Some (AComponent 4 [L "RelativeEnergyParser"; L "AbsoluteEnergyParser"; L "KMCParser"]).
Proof. apply common. reflexivity. Qed.
Lemma solver_row : T cls (L "solver") = Some (AComponent 4 [L "KMCSolver"; L "SteadyStateSolver"]).
Proof. apply common. reflexivity. Qed.

Lemma cls_heads : forallb (fun kv => plain_head (fst kv)) cls_attrs = true.
Proof. unfold cls_attrs. destruct CLS as [-> | ->]; vm_compute; reflexivity. Qed.

Lemma known_not_private key n a : T cls key = Some a -> key <> private_name cls n.
Proof.
  rewrite cls_table. intros E. apply dget_In in E.
  pose proof (proj1 (forallb_forall _ _) cls_heads _ E) as H. cbn [fst] in H.
  intros ->. discriminate.
Qed.

Lemma component_keys :
  filter (fun kv => is_component (snd kv)) cls_attrs =
  [ (L "parser", AComponent 4 [L "RelativeEnergyParser"; L "AbsoluteEnergyParser"; L "KMCParser"]);
    (L "solver", AComponent 4 [L "KMCSolver"; L "SteadyStateSolver"]);
    (L "corrector", AComponent 4 [L "ThermodynamicCorrector"]);
    (L "plotter", AComponent 4 [L "EnergyProfilePlotter"]) ].
Proof. unfold cls_attrs. destruct CLS as [-> | ->]; reflexivity. Qed.

Lemma component_key key d cs :
  T cls key = Some (AComponent d cs) ->
  (key = L "parser" /\ cs = [L "RelativeEnergyParser"; L "AbsoluteEnergyParser"; L "KMCParser"])
  \/ (key = L "solver" /\ cs = [L "KMCSolver"; L "SteadyStateSolver"])
  \/ (key = L "corrector" /\ cs = [L "ThermodynamicCorrector"])
  \/ (key = L "plotter" /\ cs = [L "EnergyProfilePlotter"]).
Proof.
  rewrite cls_table. intros E. apply dget_In in E.
  assert (H : In (key, AComponent d cs) (filter (fun kv => is_component (snd kv)) cls_attrs))
    by (apply filter_In; auto).
  rewrite component_keys in H. destruct H as [H|[H|[H|[H|[]]]]]; injection H as <- _ <-; tauto.
Qed.

Ltac pairs E :=
  let E1 := fresh in let E2 := fresh in
  pose proof (f_equal fst E) as E1; pose proof (f_equal snd E) as E2;
  cbn [fst snd] in E1, E2; clear E; symmetry in E2.

Definition is_value (key : str) : Prop := exists k d deep, T cls key = Some (AValue k d deep).

Lemma private_reactions n : private_name cls n <> reactions_key.
Proof. destruct CLS as [-> | ->]; discriminate. Qed.
Lemma known_reactions key a : T cls key = Some a -> key <> reactions_key.
Proof.
  rewrite cls_table. intros E. apply dget_In in E.
  pose proof (proj1 (forallb_forall _ _) cls_heads _ E) as H. cbn [fst] in H.
  intros ->. discriminate.
Qed.

Section Classify.
Variable classify : tree -> res unit.
Notation setm := (setattr model_table (model_ctor classify)).

Section Obj.
Variable w0 : world.
Variable i : nat.

(** A stage of the construction: the object, the values already stored. *)
Definition stage (w : world) (H : str -> option nat) : Prop :=
  class_of w i cls /\ extends w0 w /\
  (forall n, is_value n -> held w i cls n = H n) /\ entry w i reactions_key = H reactions_key.

Definition upd (H : str -> option nat) (key : str) (p : nat) : str -> option nat :=
  fun n => if str_eqb n key then Some p else H n.

Lemma stage_store_other w H key p :
  stage w H -> (forall n, is_value n -> key <> private_name cls n) -> key <> reactions_key ->
  stage (store w i key p) H.
Proof.
  intros (C & X & S & RK) N NR. split; [now apply class_store|]. split; [|split].
  - eapply extends_trans; [exact X|apply extends_store].
  - intros n Hn. unfold held. rewrite entry_store, Nat.eqb_refl.
    destruct C as (o & EO & _). rewrite EO.
    rewrite (proj2 (str_eqb_neq _ _) (N n Hn)). apply S. exact Hn.
  - rewrite entry_store, Nat.eqb_refl. destruct C as (o & EO & _). rewrite EO.
    rewrite (proj2 (str_eqb_neq _ _) NR). exact RK.
Qed.

Lemma stage_reactions w H p : stage w H -> stage (store w i reactions_key p) (upd H reactions_key p).
Proof.
  intros (C & X & S & RK). split; [now apply class_store|]. split; [|split].
  - eapply extends_trans; [exact X|apply extends_store].
  - intros n Hn. unfold held. rewrite entry_store, Nat.eqb_refl. destruct C as (o & EO & _). rewrite EO.
    rewrite (proj2 (str_eqb_neq reactions_key (private_name cls n))) by (intros E; symmetry in E; exact (private_reactions _ E)).
    unfold upd. rewrite (proj2 (str_eqb_neq n reactions_key)); [apply S; exact Hn|].
    destruct Hn as (k & d & deep & TN). exact (known_reactions _ _ TN).
  - rewrite entry_store, Nat.eqb_refl. destruct C as (o & EO & _). rewrite EO.
    unfold upd. now rewrite !str_eqb_refl.
Qed.

Lemma stage_store w H key p :
  stage w H -> key <> reactions_key -> stage (store w i (private_name cls key) p) (upd H key p).
Proof.
  intros (C & X & S & RK) NR. split; [now apply class_store|]. split; [|split].
  - eapply extends_trans; [exact X|apply extends_store].
  - intros n Hn. unfold held. rewrite entry_store, Nat.eqb_refl.
    destruct C as (o & EO & _). rewrite EO. unfold upd.
    destruct (str_eqb_spec n key) as [->|N].
    + now rewrite str_eqb_refl.
    + rewrite (proj2 (str_eqb_neq (private_name cls key) (private_name cls n))).
      * apply S. exact Hn.
      * intros E. apply private_name_inj in E. congruence.
  - rewrite entry_store, Nat.eqb_refl. destruct C as (o & EO & _). rewrite EO. unfold upd.
    rewrite (proj2 (str_eqb_neq _ _) (private_reactions key)).
    rewrite (proj2 (str_eqb_neq reactions_key key)); [exact RK|congruence].
Qed.

Lemma stage_alloc w H t p w1 : stage w H -> alloc w t = (p, w1) -> stage w1 H.
Proof.
  intros (C & X & S & RK) E. pose proof (extends_alloc _ _ _ _ E) as XA.
  apply alloc_spec in E as (-> & _ & O). split; [now apply (class_objects w1 w)|]. split; [|split].
  - eapply extends_trans; eauto.
  - intros n Hn. unfold held. rewrite (entry_objects w1 w) by exact O. now apply S.
  - rewrite (entry_objects w1 w) by exact O. exact RK.
Qed.

Lemma stage_contents w H p : stage w H -> p < length (heap w0) -> contents w p = contents w0 p.
Proof. intros (_ & X & _). now apply extends_contents. Qed.

Lemma set_value w H key p k d deep :
  stage w H -> p < length (heap w0) -> T cls key = Some (AValue k d deep) ->
  setm w i key p =
  match check k (contents w0 p) with
  | Err e => (Err e, w)
  | Ok _ => match H key with
            | Some _ => (Err AttributeError, w)
            | None => (Ok tt, store w i (private_name cls key) p)
            end
  end.
Proof.
  intros ST LP TK. pose proof (stage_contents _ _ _ ST LP) as CP. destruct ST as (C & X & S & RK).
  destruct C as (o & EO & EC). unfold setattr. rewrite EO, EC, TK, CP.
  destruct (check k (contents w0 p)); [|reflexivity].
  rewrite <- (S key) by (unfold is_value; eauto). unfold held, entry, dmem. rewrite EO.
  destruct (dget (o_dict o) (private_name cls key)); reflexivity.
Qed.

(** The values stored after the loop. *)
Fixpoint collect (H : str -> option nat) (setup : list (str * nat)) : str -> option nat :=
  match setup with
  | [] => H
  | (key, p) :: t =>
      collect (match T cls key with Some (AValue _ _ _) => upd H key p | _ => H end) t
  end.

Definition loop_good (H : str -> option nat) (kp : str * nat) : Prop :=
  match T cls (fst kp) with
  | None | Some APlain => True
  | Some AProperty => False
  | Some (AValue k _ _) => H (fst kp) = None /\ check k (contents w0 (snd kp)) = Ok tt
  | Some (AComponent _ _) =>
      fst kp = L "parser" \/ fst kp = L "solver" \/
      exists s, contents w0 (snd kp) = TStr s /\ In (fst kp, s) component_choices
  end.

Lemma set_simple_component w H key p d cs s0 :
  stage w H -> p < length (heap w0) ->
  T cls key = Some (AComponent d cs) ->
  cs = [s0] -> (model_ctor classify) s0 = Some ([], Ok tt) ->
  ((exists w1, setm w i key p = (Ok tt, w1)) <-> contents w0 p = TStr s0) /\
  (forall w1, setm w i key p = (Ok tt, w1) -> stage w1 H).
Proof.
  intros ST LP TK -> CT. pose proof (stage_contents _ _ _ ST LP) as CP.
  pose proof ST as (C & X & S & RK). destruct C as (o & EO & EC).
  unfold setattr. rewrite EO, EC, TK, CP.
  unfold component_set. destruct (contents w0 p) eqn:EP;
    try (split; [split; [intros [w1 E]; discriminate|discriminate]|discriminate]).
  cbn [str_mem existsb]. destruct (str_eqb_spec s s0) as [->|N]; cbn [orb negb].
  - rewrite CT. cbn [construct]. destruct (alloc w (TObj s0)) as [q w2] eqn:EA. split.
    + split; [reflexivity|]. intros _. eexists. reflexivity.
    + intros w1 E. injection E as <-. apply stage_store_other; [eapply stage_alloc; eauto| |apply private_reactions].
      intros n (k & d' & deep & TN) EN. apply private_name_inj in EN. subst n. congruence.
  - split; [split; [intros [w1 E]; discriminate|]|discriminate].
    intros E. injection E as ->. contradiction.
Qed.

Lemma collect_other setup H n : ~ In n (map fst setup) -> collect H setup n = H n.
Proof.
  revert H. induction setup as [|[key p] t IH]; intros H NI; [reflexivity|].
  cbn [collect map fst] in *. rewrite IH by (intros Q; apply NI; now right).
  destruct (T cls key) as [[]|]; try reflexivity.
  unfold upd. rewrite (proj2 (str_eqb_neq n key)); [reflexivity|].
  intros ->. apply NI. now left.
Qed.

Lemma loop_ok setup w H :
  stage w H -> NoDup (map fst setup) ->
  (forall kp, In kp setup -> snd kp < length (heap w0)) ->
  ((exists w1, load_loop model_table (model_ctor classify) w i cls setup = (Ok tt, w1))
   <-> Forall (loop_good H) setup)
  /\ (forall w1, load_loop model_table (model_ctor classify) w i cls setup = (Ok tt, w1) ->
        stage w1 (collect H setup)).
Proof.
  revert w H. induction setup as [|[key p] t IH]; intros w H ST ND LP.
  - cbn. split.
    + split; [constructor|]. intros _. eexists. reflexivity.
    + intros w1 E. injection E as <-. exact ST.
  - cbn [map fst] in ND. inversion ND as [|? ? NI ND']; subst.
    assert (LP' : forall kp, In kp t -> snd kp < length (heap w0)) by (intros kp Hk; apply LP; now right).
    assert (LPp : p < length (heap w0)) by (apply (LP (key, p)); now left).
    cbn [load_loop collect].
    assert (SKIP : (match T cls key with Some (AValue _ _ _) => False | _ => True end) ->
       loop_good H (key, p) ->
       ((exists w1, load_loop model_table (model_ctor classify) w i cls t = (Ok tt, w1))
         <-> Forall (loop_good H) ((key, p) :: t))
       /\ (forall w1, load_loop model_table (model_ctor classify) w i cls t = (Ok tt, w1) ->
             stage w1 (collect H t))).
    { intros _ G. destruct (IH w H ST ND' LP') as [I1 I2]. split; [|exact I2].
      rewrite I1. split; [intros F; now constructor|intros F; now inversion F]. }
    destruct (T cls key) as [a|] eqn:TK.
    2: { apply SKIP; [exact I|]. unfold loop_good. cbn [fst]. rewrite TK. exact I. }
    destruct a as [k d deep|d cs| |].
    + assert (NPS : str_eqb key (L "parser") || str_eqb key (L "solver") = false).
      { apply orb_false_iff. split; apply str_eqb_neq; intros ->; rewrite ?parser_row, ?solver_row in TK; discriminate TK. }
      rewrite NPS. rewrite (set_value _ _ _ _ _ _ _ ST LPp TK).
      destruct (check k (contents w0 p)) as [[]|e] eqn:EK.
      2: { split; [|discriminate]. split; [intros [w1 E]; discriminate|].
           intros F. inversion F as [|? ? G _]; subst. unfold loop_good in G. cbn [fst snd] in G.
           rewrite TK in G. destruct G; congruence. }
      destruct (H key) as [q|] eqn:EH.
      1: { split; [|discriminate]. split; [intros [w1 E]; discriminate|].
           intros F. inversion F as [|? ? G _]; subst. unfold loop_good in G. cbn [fst snd] in G.
           rewrite TK in G. destruct G; congruence. }
      destruct (IH _ _ (stage_store _ _ key p ST (known_reactions _ _ TK)) ND' LP') as [I1 I2]. split; [|exact I2].
      rewrite I1.
      assert (SAME : forall kp, In kp t -> (loop_good (upd H key p) kp <-> loop_good H kp)).
      { intros [k2 p2] Hk. unfold loop_good. cbn [fst snd].
        assert (NK : k2 <> key).
        { intros ->. apply NI. apply in_map_iff. exists (key, p2). auto. }
        unfold upd. rewrite (proj2 (str_eqb_neq k2 key) NK). reflexivity. }
      rewrite !Forall_forall. split.
      * intros F kp [<-|Hk].
        -- unfold loop_good. cbn [fst snd]. rewrite TK. auto.
        -- apply SAME; auto.
      * intros F kp Hk. apply SAME; auto. apply F. now right.
    + destruct (str_eqb key (L "parser") || str_eqb key (L "solver")) eqn:EPS.
      * apply SKIP; [exact I|]. unfold loop_good. cbn [fst]. rewrite TK.
        apply orb_true_iff in EPS as [E|E]; apply str_eqb_eq in E; auto.
      * apply orb_false_iff in EPS as [NP NS]. apply str_eqb_neq in NP, NS.
        assert (W : exists s0, cs = [s0] /\ (model_ctor classify) s0 = Some ([], Ok tt)
                    /\ forall s, In (key, s) component_choices <-> s = s0).
        { destruct (component_key _ _ _ TK) as [[E _]|[[E _]|[[-> ->]|[-> ->]]]];
            [contradiction|contradiction| |].
          - exists (L "ThermodynamicCorrector"). split; [reflexivity|]. split; [reflexivity|].
            intros s. split.
            + intros [E|[E|[E|[E|[E|[E|[E|[]]]]]]]]; pairs E; try discriminate; congruence.
            + intros ->. right. right. right. left. reflexivity.
          - exists (L "EnergyProfilePlotter"). split; [reflexivity|]. split; [reflexivity|].
            intros s. split.
            + intros [E|[E|[E|[E|[E|[E|[E|[]]]]]]]]; pairs E; try discriminate; congruence.
            + intros ->. right. right. right. right. left. reflexivity. }
        destruct W as (s0 & CS & CT & CH).
        destruct (set_simple_component _ _ _ _ _ _ _ ST LPp TK CS CT) as [A B].
        assert (G : loop_good H (key, p) <-> contents w0 p = TStr s0).
        { unfold loop_good. cbn [fst snd]. rewrite TK. split.
          - intros [E|[E|(s & E & E2)]]; [contradiction|contradiction|]. apply CH in E2. congruence.
          - intros E. right. right. exists s0. split; [exact E|]. now apply CH. }
        destruct (setm w i key p) as [r w2] eqn:ES. destruct r as [[]|e].
        -- destruct (IH w2 H (B _ eq_refl) ND' LP') as [I1 I2]. split; [|exact I2].
           rewrite I1. split; [intros F; constructor; [|exact F]|intros F; now inversion F].
           apply G. apply A. eauto.
        -- split; [|discriminate]. split; [intros [w1 E]; discriminate|].
           intros F. inversion F as [|? ? G1 _]; subst. apply G in G1. apply A in G1.
           destruct G1 as [w1 G1]. discriminate.
    + assert (NPS : str_eqb key (L "parser") || str_eqb key (L "solver") = false).
      { apply orb_false_iff. split; apply str_eqb_neq; intros ->; rewrite ?parser_row, ?solver_row in TK; discriminate TK. }
      rewrite NPS. destruct ST as (C & X & S & RK). destruct C as (o & EO & EC).
      unfold setattr. rewrite EO, EC, TK. split; [|discriminate].
      split; [intros [w1 E]; discriminate|]. intros F. inversion F as [|? ? G _]; subst.
      unfold loop_good in G. cbn [fst] in G. rewrite TK in G. contradiction.
    + assert (NPS : str_eqb key (L "parser") || str_eqb key (L "solver") = false).
      { apply orb_false_iff. split; apply str_eqb_neq; intros ->; rewrite ?parser_row, ?solver_row in TK; discriminate TK. }
      rewrite NPS. pose proof ST as (C & _). destruct C as (o & EO & EC).
      unfold setattr. rewrite EO, EC, TK.
      assert (ST1 : stage (store w i key p) H).
      { apply stage_store_other; [exact ST|intros n _; eapply known_not_private; eauto|exact (known_reactions _ _ TK)]. }
      destruct (IH _ _ ST1 ND' LP') as [I1 I2]. split; [|exact I2].
      rewrite I1. split; [intros F; constructor; [|exact F]|intros F; now inversion F].
      unfold loop_good. cbn [fst]. rewrite TK. exact I.
Qed.

(** Reading a value attribute during the construction. *)
Lemma get_value w H n k d deep r w1 :
  stage w H -> T cls n = Some (AValue k d deep) -> getm w i n = (r, w1) ->
  (exists p, r = Ok p /\ (deep = false -> p = match H n with Some p => p | None => d end))
  /\ stage w1 (fun m => if str_eqb m n then Some match H n with Some p => p | None => d end else H m).
Proof.
  intros ST TN E. pose proof (get_extends _ _ _ _ _ _ E) as X1. destruct ST as (C & X & S & RK).
  pose proof (get_keeps _ _ _ _ _ _ E) as KK.
  assert (C1 : class_of w1 i cls) by (apply KK; exact C).
  assert (HN : held w i cls n = H n) by (apply S; unfold is_value; eauto).
  apply get_cases in E as [(e & _ & _ & N)|(c' & d' & deep' & w2 & CO & TA & W0 & P)].
  { exfalso. exact (N _ _ _ _ C TN). }
  pose proof (class_unique _ _ _ _ C CO) as <-.
  destruct TA as [(k' & TA)|(cs & TA & _)]; [|congruence].
  rewrite TN in TA. injection TA as <- <- <-. rewrite HN in W0, P. cbv zeta in P.
  assert (O : objects w1 = objects w2) by (destruct deep; [apply P|destruct P as (_ & ->); reflexivity]).
  split.
  - destruct deep; destruct P as (-> & _); eexists; (split; [reflexivity|]); [discriminate|reflexivity].
  - split; [exact C1|]. split; [eapply extends_trans; eauto|]. split.
    2: { rewrite (entry_objects w1 w2) by exact O. pose proof (known_reactions _ _ TN) as NR.
         rewrite (proj2 (str_eqb_neq reactions_key n)) by congruence. rewrite W0. destruct (H n) as [q|]; [exact RK|].
         rewrite entry_store, Nat.eqb_refl. destruct C as (o & EO & _). rewrite EO.
         rewrite (proj2 (str_eqb_neq _ _) (private_reactions n)). exact RK. }
    intros m Hm. unfold held. rewrite (entry_objects w1 w2) by exact O. rewrite W0.
    destruct (H n) as [q|] eqn:EH.
    + destruct (str_eqb_spec m n) as [->|NM]; [exact HN|]. apply S. exact Hm.
    + rewrite entry_store, Nat.eqb_refl. destruct C as (o & EO & _). rewrite EO.
      destruct (str_eqb_spec m n) as [->|NM].
      * now rewrite str_eqb_refl.
      * rewrite (proj2 (str_eqb_neq (private_name cls n) (private_name cls m))).
        -- apply S. exact Hm.
        -- intros EN. apply private_name_inj in EN. congruence.
Qed.

Lemma species_value : is_value (L "species_definitions").
Proof. exists KSpecies, 7, true. now apply common. Qed.

(** The parser. *)
Lemma set_parser w H p :
  stage w H -> p < length (heap w0) ->
  ((exists w1, setm w i (L "parser") p = (Ok tt, w1)) <->
   (exists s, contents w0 p = TStr s /\ In (L "parser", s) component_choices)
   /\ H (L "species_definitions") <> None)
  /\ (forall w1, setm w i (L "parser") p = (Ok tt, w1) -> stage w1 H).
Proof.
  intros ST LP. pose proof (stage_contents _ _ _ ST LP) as CP.
  pose proof ST as (C & X & S & RK). destruct C as (o & EO & EC).
  assert (HS : H (L "species_definitions") = dget (o_dict o) (private_name cls (L "species_definitions"))).
  { rewrite <- (S _ species_value). unfold held, entry. now rewrite EO. }
  unfold setattr. rewrite EO, EC.
  rewrite parser_row, CP.
  unfold component_set.
  destruct (contents w0 p) eqn:EP;
    try (split; [split; [intros [w1 E]; discriminate|intros [(s' & E & _) _]; discriminate]|discriminate]).
  assert (IN : forall s', In (L "parser", s') component_choices <->
                 In s' [L "RelativeEnergyParser"; L "AbsoluteEnergyParser"; L "KMCParser"]).
  { intros s'. split.
    - intros [E|[E|[E|[E|[E|[E|[E|[]]]]]]]]; pairs E; try discriminate; subst s'; cbn; tauto.
    - intros [<-|[<-|[<-|[]]]]; cbn; tauto. }
  assert (GO : In s [L "RelativeEnergyParser"; L "AbsoluteEnergyParser"; L "KMCParser"] ->
    (model_ctor classify) s = Some ([CPrivate (L "species_definitions")], Ok tt)).
  { intros [<-|[<-|[<-|[]]]]; reflexivity. }
  destruct (str_mem s _) eqn:ES; cbn [negb].
  - apply str_mem_In in ES. rewrite (GO ES). cbn [construct]. rewrite EO, EC.
    unfold dmem. rewrite <- HS. destruct (H (L "species_definitions")) as [q|] eqn:EH.
    + destruct (alloc w (TObj s)) as [pp w2] eqn:EA. split.
      * split.
        -- intros _. split; [|discriminate]. exists s. split; [reflexivity|]. now apply IN.
        -- intros _. eexists. reflexivity.
      * intros w1 E. injection E as <-.
        apply stage_store_other; [eapply stage_alloc; eauto| |apply private_reactions].
        intros n (k & d & deep & TN) EN. apply private_name_inj in EN. subst n.
        discriminate (eq_trans (eq_sym TN) parser_row).
    + split; [split; [intros [w1 E]; discriminate|intros [_ N]; congruence]|discriminate].
  - split; [split; [intros [w1 E]; discriminate|]|discriminate].
    intros [(s' & E & Q) _]. injection E as <-. apply IN in Q. apply str_mem_In in Q. congruence.
Qed.

(** The solver. *)
Lemma set_solver w H p :
  stage w H -> p < length (heap w0) ->
  let np := match H (L "numerical_representation") with Some q => q | None => 16 end in
  np < length (heap w0) -> (forall c, H reactions_key = Some c -> c < length (heap w)) ->
  ((exists w1, setm w i (L "solver") p = (Ok tt, w1)) <->
   contents w0 p = TStr (L "KMCSolver") \/
   contents w0 p = TStr (L "SteadyStateSolver") /\ cls = micro /\
   contents w0 np = TStr (L "mpmath") /\
   exists c, H reactions_key = Some c /\ classify (contents w c) = Ok tt)
  /\ (forall w1, setm w i (L "solver") p = (Ok tt, w1) ->
        exists H', stage w1 H' /\ forall n q, H n = Some q -> H' n = Some q).
Proof.
  intros ST LP np LN LR. pose proof (stage_contents _ _ _ ST LP) as CP.
  pose proof ST as (C & X & S & RK). destruct C as (o & EO & EC).
  unfold setattr. rewrite EO, EC.
  rewrite solver_row, CP. unfold component_set.
  destruct (contents w0 p) eqn:EP;
    try (split; [split; [intros [w1 E]; discriminate|intros [E|[E _]]; discriminate]|discriminate]).
  assert (OTHER : forall n, is_value n -> private_name cls (L "solver") <> private_name cls n).
  { intros n (k & d & deep & TN) EN. apply private_name_inj in EN. subst n.
    discriminate (eq_trans (eq_sym TN) solver_row). }
  destruct (str_eqb_spec s (L "KMCSolver")) as [->|NK].
  { change (str_mem (L "KMCSolver") [L "KMCSolver"; L "SteadyStateSolver"]) with true.
    change (model_ctor classify (L "KMCSolver")) with (Some (@nil action, @Ok unit tt)).
    cbn [negb construct]. destruct (alloc w (TObj (L "KMCSolver"))) as [pp w2] eqn:EA. split.
    - split; [auto|]. intros _. eexists. reflexivity.
    - intros w1 E. injection E as <-. exists H. split; [|auto].
      apply stage_store_other; [eapply stage_alloc; eauto|exact OTHER|apply private_reactions]. }
  destruct (str_eqb_spec s (L "SteadyStateSolver")) as [->|N].
  - change (str_mem (L "SteadyStateSolver") [L "KMCSolver"; L "SteadyStateSolver"]) with true.
    change (model_ctor classify (L "SteadyStateSolver")) with
      (Some ([CMust (L "numerical_representation") (L "mpmath"); CGet (L "decimal_precision");
              CReactions (fun _ => Ok tt); CGet (L "temperature"); CReactions classify], @Ok unit tt)).
    destruct (str_eqb_spec cls micro) as [EM0|NM].
    2: { assert (EK : cls = kmc) by (destruct CLS; [contradiction|assumption]).
         cbn [negb construct]. unfold getattr. rewrite EO, EC. rewrite EK.
         change (T kmc (L "numerical_representation")) with (@None attr).
         split; [|discriminate]. split; [intros [w1 E]; discriminate|].
         intros [E|(_ & E & _)]; discriminate. }
    cbn [negb construct].
    destruct (getm w i (L "numerical_representation")) as [r2 w2] eqn:E2.
    assert (TV : T cls (L "numerical_representation") =
      Some (AValue (KType (L "str") (Some [TStr (L "mpmath"); TStr (L "sympy")])) 16 false))
      by (rewrite EM0; reflexivity).
    pose proof (get_extends _ _ _ _ _ _ E2) as X2.
    destruct (get_value _ _ _ _ _ _ _ _ ST TV E2) as [(q & -> & EQ) ST2].
    specialize (EQ eq_refl). fold np in EQ. subst q. rewrite (stage_contents _ _ _ ST2 LN).
    destruct (match contents w0 np with TStr s' => _ | _ => false end) eqn:EM.
    2: { split; [|discriminate]. split; [intros [w1 E]; discriminate|].
         intros [Q|(_ & _ & Q & _)]; [discriminate|]. rewrite Q in EM. discriminate. }
    assert (MP : contents w0 np = TStr (L "mpmath")).
    { destruct (contents w0 np); try discriminate. apply str_eqb_eq in EM. now subst. }
    destruct (getm w2 i (L "decimal_precision")) as [r3 w3] eqn:E3.
    assert (TD : T cls (L "decimal_precision") = Some (AValue (KType (L "int") None) 12 false))
      by (rewrite EM0; reflexivity).
    pose proof (get_extends _ _ _ _ _ _ E3) as X3.
    destruct (get_value _ _ _ _ _ _ _ _ ST2 TD E3) as [(q3 & -> & _) ST3].
    pose proof ST3 as (C3 & XX3 & S3 & RK3). pose proof C3 as (o3 & EO3 & EC3). rewrite EO3.
    assert (HR3 : dget (o_dict o3) reactions_key = H reactions_key).
    { unfold entry in RK3. rewrite EO3 in RK3. exact RK3. }
    rewrite HR3. destruct (H reactions_key) as [c|] eqn:HC.
    2: { split; [|discriminate]. split; [intros [w1 E]; discriminate|].
         intros [Q|(_ & _ & _ & c & Q & _)]; discriminate. }
    destruct (getm w3 i (L "temperature")) as [r4 w4] eqn:E4.
    assert (TT : T cls (L "temperature") = Some (AValue (KFloat None) 5 false)) by (now apply common).
    pose proof (get_extends _ _ _ _ _ _ E4) as X4.
    destruct (get_value _ _ _ _ _ _ _ _ ST3 TT E4) as [(q4 & -> & _) ST4].
    pose proof ST4 as (C4 & XX4 & S4 & RK4). destruct C4 as (o4 & EO4 & EC4). rewrite EO4.
    assert (HR4 : dget (o_dict o4) reactions_key = Some c).
    { unfold entry in RK4. rewrite EO4 in RK4. rewrite RK4. cbn beta. exact HC. }
    rewrite HR4.
    assert (CC : contents w4 c = contents w c).
    { eapply extends_contents; [|apply LR; reflexivity].
      eapply extends_trans; [exact X2|]. eapply extends_trans; [exact X3|exact X4]. }
    rewrite CC. destruct (classify (contents w c)) as [[]|e] eqn:ECL.
    2: { split; [|discriminate]. split; [intros [w1 E]; discriminate|].
         intros [Q|(_ & _ & _ & c' & Q & Q2)]; [discriminate|]. injection Q as <-. congruence. }
    destruct (alloc w4 (TObj (L "SteadyStateSolver"))) as [pp w5] eqn:EA. split.
    + split.
      * intros _. right. split; [reflexivity|]. split; [exact EM0|]. split; [exact MP|exists c; auto].
      * intros _. eexists. reflexivity.
    + intros w1 E. injection E as <-.
      eexists. split.
      * apply stage_store_other; [eapply stage_alloc; [exact ST4|exact EA]|exact OTHER|apply private_reactions].
      * intros n q0 Hq. cbv beta.
        assert (Y : forall m d (G : str -> option nat), (G n = Some q0) ->
           (if str_eqb n m then Some match G m with Some p => p | None => d end else G n) = Some q0).
        { intros m d G EG. destruct (str_eqb_spec n m) as [<-|]; [now rewrite EG|exact EG]. }
        apply (Y (L "temperature") 5 (fun m => if str_eqb m (L "decimal_precision") then _ else
           (if str_eqb m (L "numerical_representation") then _ else H m))).
        apply (Y (L "decimal_precision") 12 (fun m => if str_eqb m (L "numerical_representation") then _ else H m)).
        apply (Y (L "numerical_representation") 16 H). exact Hq.
  - destruct (str_mem s [L "KMCSolver"; L "SteadyStateSolver"]) eqn:EM; cbn [negb].
    { apply str_mem_In in EM. destruct EM as [E|[E|[]]]; congruence. }
    split; [|discriminate]. split; [intros [w1 E]; discriminate|].
    intros [E|(E & _)]; congruence.
Qed.

Lemma collect_reactions setup H : collect H setup reactions_key = H reactions_key.
Proof.
  revert H. induction setup as [|[key p] t IH]; intros H; [reflexivity|]. cbn [collect]. rewrite IH.
  destruct (T cls key) as [[]|] eqn:TK; try reflexivity. unfold upd.
  rewrite (proj2 (str_eqb_neq reactions_key key)); [reflexivity|].
  pose proof (known_reactions _ _ TK). congruence.
Qed.

Lemma collect_unknown setup H n : T cls n = None -> collect H setup n = H n.
Proof.
  intros TN. revert H. induction setup as [|[key p] t IH]; intros H; [reflexivity|]. cbn [collect]. rewrite IH.
  destruct (T cls key) as [[]|] eqn:TK; try reflexivity. unfold upd.
  rewrite (proj2 (str_eqb_neq n key)); [reflexivity|congruence].
Qed.

Lemma collect_in setup H key p :
  NoDup (map fst setup) -> is_value key -> In (key, p) setup -> collect H setup key = Some p.
Proof.
  revert H. induction setup as [|[k0 p0] t IH]; intros H ND V HI; [destruct HI|].
  cbn [map fst] in ND. inversion ND as [|? ? NI ND']; subst. cbn [collect].
  destruct HI as [E|HI].
  - injection E as -> ->. rewrite collect_other by exact NI.
    destruct V as (k & d & deep & ->). unfold upd. now rewrite str_eqb_refl.
  - apply IH; auto.
Qed.

End Obj.

Section Init.
Variable parse : tree -> res unit.
Variable w : world.
Variable i : nat.
Variable o : object.
Hypothesis EO : nth_error (objects w) i = Some o.
Hypothesis EC : o_class o = cls.
Hypothesis ED : o_dict o = [].
Hypothesis D6 : contents w 6 = TList [].
Hypothesis D16 : contents w 16 = TStr (L "mpmath").

Notation initm := (init model_table (model_ctor classify) parse w i cls).

Definition levels_held (l1 l2 l3 dp : nat) : str -> option nat :=
  upd (upd (upd (upd (fun _ => None) (L "logger_level") l1) (L "file_handler_level") l2)
           (L "console_handler_level") l3) (L "setup_dict") dp.

Lemma stage0 : stage w i w (fun _ => None).
Proof.
  split; [exists o; auto|]. split; [apply extends_refl|]. split.
  - intros n _. unfold held, entry. rewrite EO, ED. reflexivity.
  - unfold entry. rewrite EO, ED. reflexivity.
Qed.

Lemma levels_held_in l1 l2 l3 dp key : levels_held l1 l2 l3 dp key = None <-> ~ In key fixed_keys.
Proof.
  unfold levels_held, upd, fixed_keys.
  destruct (str_eqb_spec key (L "setup_dict")) as [->|N1];
    [split; [discriminate|intros H; exfalso; apply H; cbn; tauto]|].
  destruct (str_eqb_spec key (L "console_handler_level")) as [->|N2];
    [split; [discriminate|intros H; exfalso; apply H; cbn; tauto]|].
  destruct (str_eqb_spec key (L "file_handler_level")) as [->|N3];
    [split; [discriminate|intros H; exfalso; apply H; cbn; tauto]|].
  destruct (str_eqb_spec key (L "logger_level")) as [->|N4];
    [split; [discriminate|intros H; exfalso; apply H; cbn; tauto]|].
  split; [|reflexivity]. intros _ H.
  destruct H as [H|[H|[H|[H|[]]]]]; congruence.
Qed.

Theorem init_ok l1 l2 l3 dp setup :
  l1 < length (heap w) -> l2 < length (heap w) -> l3 < length (heap w) -> dp < length (heap w) ->
  16 < length (heap w) ->
  proper (contents w l1) -> proper (contents w l2) -> proper (contents w l3) ->
  proper (contents w dp) ->
  NoDup (map fst setup) ->
  (forall kp, In kp setup -> snd kp < length (heap w)) ->
  ((exists w1, initm (l1, l2, l3) dp setup = (Ok tt, w1)) <->
   level_ok w l1 /\ level_ok w l2 /\ level_ok w l3 /\ (exists l, contents w dp = TDict l) /\
   Forall (good_entry cls w) setup /\
   In (L "parser") (map fst setup) /\ In (L "species_definitions") (map fst setup) /\
   (forall p, In (L "rxn_expressions", p) setup ->
      contents w p <> TList [] -> contents w p <> TTuple [] -> parse (contents w p) = Ok tt) /\
   (forall s, In (L "solver", s) setup -> contents w s = TStr (L "SteadyStateSolver") ->
      cls = micro /\
      (forall p, In (L "numerical_representation", p) setup -> contents w p = TStr (L "mpmath")) /\
      exists p, In (L "rxn_expressions", p) setup /\ contents w p <> TList [] /\ contents w p <> TTuple [] /\
        classify (contents w p) = Ok tt))
  /\ (forall w1 key p, initm (l1, l2, l3) dp setup = (Ok tt, w1) ->
        is_value key -> In (key, p) setup -> held w1 i cls key = Some p).
Proof.
  intros A1 A2 A3 AD A16 P1 P2 P3 PD ND LP.
  assert (A6 : 6 < length (heap w)) by lia.
  unfold init.
  assert (TL : forall n, In n [L "logger_level"; L "file_handler_level"; L "console_handler_level"] ->
     exists d, T cls n = Some (AValue (KType (L "int") (Some (map TInt [0; 10; 20; 30; 40; 50]%Z))) d false)).
  { intros n [<-|[<-|[<-|[]]]]; eexists; apply common; reflexivity. }
  destruct (TL (L "logger_level") ltac:(cbn; tauto)) as (d1 & T1).
  destruct (TL (L "file_handler_level") ltac:(cbn; tauto)) as (d2 & T2).
  destruct (TL (L "console_handler_level") ltac:(cbn; tauto)) as (d3 & T3).
  assert (T4 : T cls (L "setup_dict") = Some (AValue (KType (L "dict") None) 1 false)) by (apply common; reflexivity).
  rewrite (set_value w i _ _ _ _ _ _ _ stage0 A1 T1).
  pose proof (check_integer_among _ [0; 10; 20; 30; 40; 50]%Z P1) as K1.
  fold (level_ok w l1) in K1.
  destruct (check _ (contents w l1)) as [[]|e1].
  2: { split; [|discriminate]. split; [intros [w1 E]; discriminate|].
       intros [H _]. apply K1 in H. discriminate. }
  cbv iota.
  assert (ST1 := stage_store w i w _ (L "logger_level") l1 stage0 ltac:(discriminate)).
  rewrite (set_value w i _ _ _ _ _ _ _ ST1 A2 T2).
  pose proof (check_integer_among _ [0; 10; 20; 30; 40; 50]%Z P2) as K2.
  fold (level_ok w l2) in K2.
  destruct (check _ (contents w l2)) as [[]|e2].
  2: { split; [|discriminate]. split; [intros [w1 E]; discriminate|].
       intros (_ & H & _). apply K2 in H. discriminate. }
  change (upd (fun _ : str => None) (L "logger_level") l1 (L "file_handler_level")) with (@None nat).
  cbv iota.
  assert (ST2 := stage_store w i _ _ (L "file_handler_level") l2 ST1 ltac:(discriminate)).
  rewrite (set_value w i _ _ _ _ _ _ _ ST2 A3 T3).
  pose proof (check_integer_among _ [0; 10; 20; 30; 40; 50]%Z P3) as K3.
  fold (level_ok w l3) in K3.
  destruct (check _ (contents w l3)) as [[]|e3].
  2: { split; [|discriminate]. split; [intros [w1 E]; discriminate|].
       intros (_ & _ & H & _). apply K3 in H. discriminate. }
  change (upd (upd (fun _ : str => None) (L "logger_level") l1) (L "file_handler_level") l2
            (L "console_handler_level")) with (@None nat).
  cbv iota.
  assert (ST3 := stage_store w i _ _ (L "console_handler_level") l3 ST2 ltac:(discriminate)).
  rewrite (set_value w i _ _ _ _ _ _ _ ST3 AD T4).
  pose proof (check_dict _ PD) as K4.
  destruct (check _ (contents w dp)) as [[]|e4].
  2: { split; [|discriminate]. split; [intros [w1 E]; discriminate|].
       intros (_ & _ & _ & H & _). apply K4 in H. discriminate. }
  change (upd (upd (upd (fun _ : str => None) (L "logger_level") l1) (L "file_handler_level") l2)
            (L "console_handler_level") l3 (L "setup_dict")) with (@None nat).
  cbv iota.
  assert (ST4 := stage_store w i _ _ (L "setup_dict") dp ST3 ltac:(discriminate)).
  fold (levels_held l1 l2 l3 dp) in ST4.
  set (w4 := store _ i (private_name cls (L "setup_dict")) dp) in *. clearbody w4. clear ST1 ST2 ST3.
  assert (LV : level_ok w l1 /\ level_ok w l2 /\ level_ok w l3 /\ (exists l, contents w dp = TDict l))
    by (split; [now apply K1|split; [now apply K2|split; [now apply K3|now apply K4]]]).
  set (H := levels_held l1 l2 l3 dp) in *.
  destruct (loop_ok w i setup w4 H ST4 ND LP) as [LO1 LO2].
  unfold load.
  assert (GE : Forall (good_entry cls w) setup -> Forall (loop_good w H) setup).
  { intros F. rewrite Forall_forall in F |- *. intros [key p] Hk. specialize (F _ Hk).
    unfold good_entry, loop_good in *. cbn [fst snd] in *.
    destruct (T cls key) as [[k d deep|d cs| |]|]; auto.
    destruct F as [F1 F2]. split; [now apply levels_held_in|exact F2]. }
  destruct (load_loop _ _ w4 i cls setup) as [r5 w5] eqn:EL. destruct r5 as [[]|e5].
  2: { split; [|discriminate]. split; [intros [w1 E]; discriminate|].
       intros (_ & _ & _ & _ & F & _). apply GE in F. apply LO1 in F. destruct F as [w1 F]. discriminate. }
  assert (F : Forall (loop_good w H) setup) by (apply LO1; eauto).
  specialize (LO2 _ eq_refl). clear LO1.
  destruct (dget setup (L "parser")) as [pp|] eqn:EP.
  2: { apply dget_None_In in EP. split; [|discriminate]. split; [intros [w1 E]; discriminate|].
       intros (_ & _ & _ & _ & _ & Q & _). contradiction. }
  apply dget_In in EP as IP.
  destruct (set_parser w i _ _ pp LO2 (LP _ IP)) as [SP1 SP2].
  destruct (setm w5 i (L "parser") pp) as [r6 w6] eqn:E6.
  assert (SPEC : collect H setup (L "species_definitions") <> None <->
                 In (L "species_definitions") (map fst setup)).
  { split.
    - intros N. destruct (in_dec (list_eq_dec ascii_dec) (L "species_definitions") (map fst setup)) as [I|N2];
        [exact I|]. rewrite collect_other in N by exact N2. exfalso. apply N. apply levels_held_in.
      intros [E|[E|[E|[E|[]]]]]; discriminate.
    - intros I. apply in_map_iff in I as ([k1 p1] & E & I). cbn in E. subst k1.
      rewrite (collect_in setup H _ p1 ND species_value I). discriminate. }
  destruct r6 as [[]|e6].
  2: { split; [|discriminate]. split; [intros [w1 E]; discriminate|].
       intros (_ & _ & _ & _ & G & _ & Q & _). exfalso.
       assert (X : exists w1, (@Err unit e6, w6) = (Ok tt, w1)).
       { apply SP1. split; [|now apply SPEC]. rewrite Forall_forall in G. specialize (G _ IP).
         unfold good_entry in G. cbn [fst snd] in G. rewrite parser_row in G. exact G. }
       destruct X as [w1 X]. discriminate. }
  assert (SPK := proj1 SP1 (ex_intro _ w6 eq_refl)). destruct SPK as [SPK1 SPK2].
  specialize (SP2 _ eq_refl).
  destruct (getm w6 i (L "rxn_expressions")) as [r7 w7] eqn:E7.
  assert (T7 : T cls (L "rxn_expressions") = Some (AValue (KSequence (Some (L "str")) None) 6 false))
    by (apply common; reflexivity).
  destruct (get_value w i _ _ _ _ _ _ _ _ SP2 T7 E7) as [(q & -> & EQ) ST7]. specialize (EQ eq_refl).
  assert (CQ : contents w7 q = match dget setup (L "rxn_expressions") with
                               | Some p => contents w p | None => TList [] end).
  { rewrite EQ. destruct (dget setup (L "rxn_expressions")) as [p|] eqn:ER.
    - apply dget_In in ER. rewrite (collect_in setup H _ p ND ltac:(unfold is_value; eauto) ER).
      apply (stage_contents w i _ _ _ ST7). apply (LP _ ER).
    - apply dget_None_In in ER. rewrite collect_other by exact ER.
      change (H (L "rxn_expressions")) with (@None nat). cbv iota.
      rewrite (stage_contents w i _ _ _ ST7 A6). exact D6. }
  assert (PARSE : (if is_empty (contents w7 q) then Ok tt else parse (contents w7 q)) = Ok tt <->
     (forall p, In (L "rxn_expressions", p) setup ->
      contents w p <> TList [] -> contents w p <> TTuple [] -> parse (contents w p) = Ok tt)).
  { rewrite CQ. destruct (dget setup (L "rxn_expressions")) as [p|] eqn:ER.
    - apply dget_In in ER. split.
      + intros X p' I N1 N2. assert (p' = p) as ->.
        { pose proof (In_dget _ _ _ ND I). pose proof (In_dget _ _ _ ND ER). congruence. }
        assert (EE : is_empty (contents w p) = false).
        { destruct (contents w p) as [| | | | |[|]|[|]| |]; try reflexivity; congruence. }
        rewrite EE in X. exact X.
      + intros X. destruct (is_empty (contents w p)) eqn:EE; [reflexivity|].
        apply (X p ER); intros Q; rewrite Q in EE; discriminate.
    - apply dget_None_In in ER. cbn. split; [|reflexivity].
      intros _ p' I. exfalso. apply ER. apply in_map_iff. exists (L "rxn_expressions", p'). auto. }
  set (H7 := fun m => if str_eqb m (L "rxn_expressions")
               then Some match collect H setup (L "rxn_expressions") with Some p => p | None => 6 end
               else collect H setup m) in *.
  assert (AFTER : exists w8 H8,
     (if is_empty (contents w7 q) then (Ok tt, w7)
      else match parse (contents w7 q) with
           | Err e => (Err e, w7)
           | Ok _ => let '(c, w4) := alloc w7 (contents w7 q) in (Ok tt, store w4 i reactions_key c)
           end) = (if is_empty (contents w7 q) then Ok tt else parse (contents w7 q), w8) /\
     ((if is_empty (contents w7 q) then Ok tt else parse (contents w7 q)) = Ok tt ->
      stage w i w8 H8 /\ (forall n, n <> reactions_key -> H8 n = H7 n) /\
      (forall c, H8 reactions_key = Some c ->
         c < length (heap w8) /\ contents w8 c = contents w7 q /\ is_empty (contents w7 q) = false) /\
      (is_empty (contents w7 q) = false -> exists c, H8 reactions_key = Some c))).
  { destruct (is_empty (contents w7 q)) eqn:EE.
    - exists w7, H7. split; [reflexivity|]. intros _. split; [exact ST7|]. split; [reflexivity|].
      split; [|discriminate]. intros c EH. exfalso.
      assert (H7 reactions_key = None) as N.
      { unfold H7. change (str_eqb reactions_key (L "rxn_expressions")) with false. cbv iota.
        rewrite collect_reactions. reflexivity. }
      congruence.
    - destruct (parse (contents w7 q)) as [[]|e8].
      2: { exists w7, H7. split; [reflexivity|discriminate]. }
      destruct (alloc w7 (contents w7 q)) as [c w8] eqn:EA.
      exists (store w8 i reactions_key c), (upd H7 reactions_key c).
      split; [reflexivity|]. intros _.
      split; [apply stage_reactions; exact (stage_alloc w i _ _ _ _ _ ST7 EA)|].
      split; [|split].
      + intros n N. unfold upd. now rewrite (proj2 (str_eqb_neq n reactions_key)) by exact N.
      + intros c' EH. unfold upd in EH. rewrite str_eqb_refl in EH. injection EH as <-.
        apply alloc_spec in EA as (E1 & E2 & _).
        assert (HH : heap (store w8 i reactions_key c) = heap w7 ++ [contents w7 q]).
        { rewrite <- E2. unfold store. now destruct (nth_error (objects w8) i). }
        unfold contents at 1. rewrite HH, E1. rewrite app_length, nth_middle. cbn. repeat split; lia.
      + intros _. exists c. unfold upd. now rewrite str_eqb_refl. }
  destruct AFTER as (w8 & H8 & EAF & AFT). rewrite EAF. clear EAF.
  destruct (if is_empty (contents w7 q) then Ok tt else parse (contents w7 q)) as [[]|e8] eqn:E8.
  2: { split; [|discriminate]. split; [intros [w1 E]; discriminate|].
       intros (_ & _ & _ & _ & _ & _ & _ & Q & _). apply PARSE in Q. discriminate. }
  destruct (AFT eq_refl) as (ST8 & OTH8 & RX8 & RY8). clear AFT.
  assert (PK := proj1 PARSE eq_refl).
  (* entries, apart from the solver *)
  assert (NOSOLVER : forall kp, In kp setup -> fst kp <> L "solver" -> good_entry cls w kp).
  { intros [key p] Hk NS. rewrite Forall_forall in F. specialize (F _ Hk).
    unfold good_entry, loop_good in *. cbn [fst snd] in *.
    destruct (T cls key) as [[k d deep|d cs| |]|]; auto.
    - destruct F as [F1 F2]. split; [|exact F2]. now apply (levels_held_in l1 l2 l3 dp).
    - destruct F as [->|[E|F]]; [|contradiction|exact F].
      assert (p = pp) as ->.
      { pose proof (In_dget _ _ _ ND Hk). pose proof (In_dget _ _ _ ND IP). congruence. }
      exact SPK1. }
  assert (HELD8 : forall key p, is_value key -> In (key, p) setup -> H8 key = Some p).
  { intros key p V I. rewrite OTH8 by (destruct V as (k & d & deep & TN); exact (known_reactions _ _ TN)).
    unfold H7. pose proof (collect_in setup H key p ND V I) as CI.
    destruct (str_eqb_spec key (L "rxn_expressions")) as [->|]; [now rewrite CI|exact CI]. }
  assert (UNIQ : forall key p p', In (key, p) setup -> In (key, p') setup -> p = p').
  { intros key p p' I I'. pose proof (In_dget _ _ _ ND I). pose proof (In_dget _ _ _ ND I'). congruence. }
  destruct (dget setup (L "solver")) as [sp|] eqn:ESV.
  - apply dget_In in ESV as IS.
    assert (NPE : H8 (L "numerical_representation") =
              if str_eqb cls micro then dget setup (L "numerical_representation") else None).
    { destruct (str_eqb_spec cls micro) as [EM0|NM].
      2: { assert (EK : cls = kmc) by (destruct CLS; [contradiction|assumption]).
           rewrite OTH8 by discriminate. unfold H7.
           change (str_eqb (L "numerical_representation") (L "rxn_expressions")) with false. cbv iota.
           rewrite collect_unknown by (rewrite EK; reflexivity). reflexivity. }
      destruct (dget setup (L "numerical_representation")) as [p|] eqn:ER.
      - apply dget_In in ER. apply HELD8; [unfold is_value; do 3 eexists; rewrite EM0; reflexivity|exact ER].
      - apply dget_None_In in ER. rewrite OTH8 by discriminate. unfold H7.
        change (str_eqb (L "numerical_representation") (L "rxn_expressions")) with false. cbv iota.
        rewrite collect_other by exact ER. reflexivity. }
    assert (LNP : match H8 (L "numerical_representation") with Some q => q | None => 16 end < length (heap w)).
    { rewrite NPE. destruct (str_eqb cls micro); [|exact A16].
      destruct (dget setup (L "numerical_representation")) as [p|] eqn:ER; [|exact A16].
      apply dget_In in ER. apply (LP _ ER). }
    destruct (set_solver w i _ _ sp ST8 (LP _ IS) LNP (fun c Hc => proj1 (RX8 c Hc))) as [SS1 SS2].
    assert (REPR : cls = micro -> contents w (match H8 (L "numerical_representation") with Some q => q | None => 16 end)
                   = TStr (L "mpmath") <->
       (forall p, In (L "numerical_representation", p) setup -> contents w p = TStr (L "mpmath"))).
    { intros EM0. rewrite NPE, EM0, str_eqb_refl.
      destruct (dget setup (L "numerical_representation")) as [p|] eqn:ER.
      - apply dget_In in ER. split; [|intros X; now apply X].
        intros X p' I. now rewrite (UNIQ _ _ _ I ER).
      - apply dget_None_In in ER. split; [|intros _; exact D16].
        intros _ p' I. exfalso. apply ER. apply in_map_iff. exists (L "numerical_representation", p'). auto. }
    assert (REAC : (exists c, H8 reactions_key = Some c /\ classify (contents w8 c) = Ok tt) <->
       exists p, In (L "rxn_expressions", p) setup /\ contents w p <> TList [] /\ contents w p <> TTuple [] /\
        classify (contents w p) = Ok tt).
    { split.
      - intros (c & EH & EC'). destruct (RX8 _ EH) as (_ & E1 & E2). rewrite E1 in EC'. rewrite CQ in EC', E2.
        destruct (dget setup (L "rxn_expressions")) as [p|] eqn:ER; [|discriminate E2].
        apply dget_In in ER. exists p. split; [exact ER|].
        split; [intros Q; rewrite Q in E2; discriminate|]. split; [intros Q; rewrite Q in E2; discriminate|].
        exact EC'.
      - intros (p & I & N1 & N2 & EC'). rewrite (In_dget _ _ _ ND I) in CQ.
        assert (EE : is_empty (contents w7 q) = false).
        { rewrite CQ. destruct (contents w p) as [| | | | |[|]|[|]| |]; try reflexivity; congruence. }
        destruct (RY8 EE) as (c & EH). exists c. split; [exact EH|].
        destruct (RX8 _ EH) as (_ & -> & _). now rewrite CQ. }
    split.
    + rewrite SS1, REAC. split.
      * intros SS. split; [apply LV|]. split; [apply LV|]. split; [apply LV|]. split; [apply LV|].
        split; [|split; [|split; [|split; [exact PK|]]]].
        -- rewrite Forall_forall. intros [key p] Hk.
           destruct (list_eq_dec ascii_dec key (L "solver")) as [->|NS]; [|now apply NOSOLVER].
           rewrite (UNIQ _ _ _ Hk IS). unfold good_entry. cbn [fst snd]. rewrite solver_row.
           destruct SS as [-> |[-> _]]; eexists; (split; [reflexivity|cbn; tauto]).
        -- apply in_map_iff. exists (L "parser", pp). auto.
        -- now apply SPEC.
        -- intros s' I' Q. rewrite (UNIQ _ _ _ I' IS) in Q.
           destruct SS as [SS|(_ & EM0 & SM & SR)]; [rewrite SS in Q; discriminate|]. split; [exact EM0|].
           split; [now apply REPR|exact SR].
      * intros (_ & _ & _ & _ & G & _ & _ & _ & SV).
        rewrite Forall_forall in G. specialize (G _ IS). unfold good_entry in G. cbn [fst snd] in G.
        rewrite solver_row in G. destruct G as (s' & ES & IC).
        assert (SC : s' = L "KMCSolver" \/ s' = L "SteadyStateSolver").
        { destruct IC as [E|[E|[E|[E|[E|[E|[E|[]]]]]]]]; pairs E; try discriminate; auto. }
        destruct SC as [-> | ->]; [now left|]. right. split; [exact ES|].
        destruct (SV _ IS ES) as (EM0 & SM & SR). split; [exact EM0|]. split; [now apply REPR|exact SR].
    + intros w1 key p E V I. destruct (SS2 _ E) as (H' & ST9 & MONO).
      destruct ST9 as (_ & _ & ST9 & _). rewrite (ST9 _ V). apply MONO. now apply HELD8.
  - apply dget_None_In in ESV. split.
    + split.
      * intros _. split; [apply LV|]. split; [apply LV|]. split; [apply LV|]. split; [apply LV|].
        split; [|split; [|split; [|split; [exact PK|]]]].
        -- rewrite Forall_forall. intros [key p] Hk. apply NOSOLVER; [exact Hk|].
           cbn [fst]. intros ->. apply ESV. apply in_map_iff. exists (L "solver", p). auto.
        -- apply in_map_iff. exists (L "parser", pp). auto.
        -- now apply SPEC.
        -- intros s' I' _. exfalso. apply ESV. apply in_map_iff. exists (L "solver", s'). auto.
      * intros _. eexists. reflexivity.
    + intros w1 key p E V I. injection E as <-. destruct ST8 as (_ & _ & ST8 & _).
      rewrite (ST8 _ V). now apply HELD8.
Qed.
End Init.

(** ** Unknown parameters *)
Definition known (kp : str * nat) : bool :=
  match T cls (fst kp) with Some _ => true | None => false end.

Lemma load_loop_known setup w i :
  load_loop model_table (model_ctor classify) w i cls setup
  = load_loop model_table (model_ctor classify) w i cls (filter known setup).
Proof.
  revert w. induction setup as [|[key p] t IH]; intros w; [reflexivity|].
  cbn [filter load_loop]. unfold known at 1. cbn [fst].
  destruct (T cls key) eqn:TK; [|apply IH]. cbn [load_loop]. rewrite TK.
  destruct (_ || _); [apply IH|]. destruct (setm w i key p) as [[u|e] w1]; [apply IH|reflexivity].
Qed.

Lemma dget_known setup key : T cls key <> None -> dget (filter known setup) key = dget setup key.
Proof.
  intros K. induction setup as [|[k p] t IH]; [reflexivity|]. cbn [filter]. unfold known at 1. cbn [fst].
  destruct (T cls k) eqn:TK; cbn [dget].
  - now rewrite IH.
  - rewrite IH. destruct (str_eqb_spec key k) as [->|]; [contradiction|reflexivity].
Qed.

Lemma init_known parse w i levels dp setup :
  init model_table (model_ctor classify) parse w i cls levels dp setup
  = init model_table (model_ctor classify) parse w i cls levels dp (filter known setup).
Proof.
  unfold init, load. destruct levels as [[l1 l2] l3].
  destruct (setm w i (L "logger_level") l1) as [[u1|e1] w1]; [|reflexivity].
  destruct (setm w1 i (L "file_handler_level") l2) as [[u2|e2] w2]; [|reflexivity].
  destruct (setm w2 i (L "console_handler_level") l3) as [[u3|e3] w3]; [|reflexivity].
  destruct (setm w3 i (L "setup_dict") dp) as [[u4|e4] w4]; [|reflexivity].
  rewrite <- load_loop_known.
  rewrite !dget_known by (rewrite ?parser_row, ?solver_row; discriminate). reflexivity.
Qed.

End Classify.
End Class.

(** ** The two classes *)
Section Two.
Variable classify parse : tree -> res unit.
Variable w : world.
Variable i : nat.
Variable o : object.
Hypothesis EO : nth_error (objects w) i = Some o.
Hypothesis ED : o_dict o = [].
Hypothesis D6 : contents w 6 = TList [].
Hypothesis D16 : contents w 16 = TStr (L "mpmath").

Lemma init_ok_micro0 (EC : o_class o = micro) l1 l2 l3 dp setup :
  l1 < length (heap w) -> l2 < length (heap w) -> l3 < length (heap w) -> dp < length (heap w) ->
  16 < length (heap w) ->
  proper (contents w l1) -> proper (contents w l2) -> proper (contents w l3) ->
  proper (contents w dp) ->
  NoDup (map fst setup) ->
  (forall kp, In kp setup -> snd kp < length (heap w)) ->
  ((exists w1, init model_table (model_ctor classify) parse w i micro (l1, l2, l3) dp setup = (Ok tt, w1)) <->
   level_ok w l1 /\ level_ok w l2 /\ level_ok w l3 /\ (exists l, contents w dp = TDict l) /\
   Forall (good_entry micro w) setup /\
   In (L "parser") (map fst setup) /\ In (L "species_definitions") (map fst setup) /\
   (forall p, In (L "rxn_expressions", p) setup ->
      contents w p <> TList [] -> contents w p <> TTuple [] -> parse (contents w p) = Ok tt) /\
   (forall s, In (L "solver", s) setup -> contents w s = TStr (L "SteadyStateSolver") ->
      (forall p, In (L "numerical_representation", p) setup -> contents w p = TStr (L "mpmath")) /\
      exists p, In (L "rxn_expressions", p) setup /\ contents w p <> TList [] /\ contents w p <> TTuple [] /\
        classify (contents w p) = Ok tt))
  /\ (forall w1 key p,
        init model_table (model_ctor classify) parse w i micro (l1, l2, l3) dp setup = (Ok tt, w1) ->
        is_value micro key -> In (key, p) setup -> held w1 i micro key = Some p).
Proof.
  intros A1 A2 A3 AD A16 P1 P2 P3 PD ND LP.
  destruct (init_ok micro (or_introl eq_refl) classify parse w i o EO EC ED D6 D16 l1 l2 l3 dp setup
              A1 A2 A3 AD A16 P1 P2 P3 PD ND LP) as [X Y].
  split; [|exact Y]. rewrite X. split.
  - intros (L1 & L2 & L3 & LD & G & IP & ISD & PK & SV). repeat (split; [assumption|]).
    intros s Is Es. exact (proj2 (SV s Is Es)).
  - intros (L1 & L2 & L3 & LD & G & IP & ISD & PK & SV). repeat (split; [assumption|]).
    intros s Is Es. split; [reflexivity|exact (SV s Is Es)].
Qed.

Lemma init_ok_kmc0 (EC : o_class o = kmc) l1 l2 l3 dp setup :
  l1 < length (heap w) -> l2 < length (heap w) -> l3 < length (heap w) -> dp < length (heap w) ->
  16 < length (heap w) ->
  proper (contents w l1) -> proper (contents w l2) -> proper (contents w l3) ->
  proper (contents w dp) ->
  NoDup (map fst setup) ->
  (forall kp, In kp setup -> snd kp < length (heap w)) ->
  ((exists w1, init model_table (model_ctor classify) parse w i kmc (l1, l2, l3) dp setup = (Ok tt, w1)) <->
   level_ok w l1 /\ level_ok w l2 /\ level_ok w l3 /\ (exists l, contents w dp = TDict l) /\
   Forall (good_entry kmc w) setup /\
   In (L "parser") (map fst setup) /\ In (L "species_definitions") (map fst setup) /\
   (forall p, In (L "rxn_expressions", p) setup ->
      contents w p <> TList [] -> contents w p <> TTuple [] -> parse (contents w p) = Ok tt) /\
   (forall s, In (L "solver", s) setup -> contents w s = TStr (L "KMCSolver")))
  /\ (forall w1 key p,
        init model_table (model_ctor classify) parse w i kmc (l1, l2, l3) dp setup = (Ok tt, w1) ->
        is_value kmc key -> In (key, p) setup -> held w1 i kmc key = Some p).
Proof.
  intros A1 A2 A3 AD A16 P1 P2 P3 PD ND LP.
  destruct (init_ok kmc (or_intror eq_refl) classify parse w i o EO EC ED D6 D16 l1 l2 l3 dp setup
              A1 A2 A3 AD A16 P1 P2 P3 PD ND LP) as [X Y].
  split; [|exact Y]. rewrite X. split.
  - intros (L1 & L2 & L3 & LD & G & IP & ISD & PK & SV). repeat (split; [assumption|]).
    intros s Is. rewrite Forall_forall in G. destruct (G _ Is) as (s' & ES & IC). cbn [fst snd] in ES, IC.
    destruct IC as [E|[E|[E|[E|[E|[E|[E|[]]]]]]]]; try discriminate E; injection E as <-.
    + now destruct (SV s Is ES) as [Q _].
    + exact ES.
  - intros (L1 & L2 & L3 & LD & G & IP & ISD & PK & SV). repeat (split; [assumption|]).
    intros s Is Es. rewrite (SV s Is) in Es. discriminate Es.
Qed.
End Two.

Definition init_ok_micro classify parse w i o EO EC ED D6 D16 :=
  init_ok_micro0 classify parse w i o EO ED D6 D16 EC.
Definition init_ok_kmc classify parse w i o EO EC ED D6 D16 :=
  init_ok_kmc0 classify parse w i o EO ED D6 D16 EC.
Definition init_known_micro := init_known micro (or_introl eq_refl).
Definition init_known_kmc := init_known kmc (or_intror eq_refl).
