(** Proofs about the symbolic evaluation: substitutions, rate constants, rates. *)
From Coq Require Import String Ascii List ZArith NArith Bool Arith Reals Lia Lra.
Import ListNotations.
From Verif Require Import PyBase PyBaseFacts Rxn_Model Rxn_Spec Rxn_Proofs Species_Model Species_Spec
  Species_Proofs Species_Matrix PyReal Energy_Model Energy_Spec Thermo_Model Rate_Model Rate_Spec Rate_Proofs
  MF_Model MF_Spec MF_Cover MF_Rate MF_More Archive_Proofs Sym_Model Sym_Spec Sym_Proofs.
Local Open Scope nat_scope.
Local Open Scope list_scope.

(** The substitution gives every symbol its number. *)
Record substitution (s : setup) (T : R) (r : rel_energies) (names : list str) (theta : str -> R) (d : dict R) : Prop := {
  sub_theta : forall n, In n names -> dget d (L "theta_" ++ n) = Some (theta n);
  sub_p : forall n, In n (l_gas (s_lists s)) -> dget d (L "p_" ++ n) = Some (value (s_pressure s) n);
  sub_Ga : forall i x, i < length (s_exprs s) -> nth_error (r_Gaf r) i = Some x -> dget d (L "Ga_" ++ dec (N.of_nat i)) = Some x;
  sub_dG : forall i x, i < length (s_exprs s) -> nth_error (r_dG r) i = Some x -> dget d (L "dG_" ++ dec (N.of_nat i)) = Some x;
  sub_kB : dget d (L "kB") = Some kB_eV;
  sub_h : dget d (L "h") = Some h_eV;
  sub_T : dget d (L "T") = Some T }.

Lemma dget_subs_prefixed p (g : str -> R) ns n : NoDup ns -> In n ns ->
  dget (subs_pairs (map (fun n => SSym (p ++ n)) ns) (map g ns) []) (p ++ n) = Some (g n).
Proof.
  intros N H. destruct (In_nth_error _ _ H) as [i Hi].
  apply (subs_at _ (map g ns) [] i (SSym (p ++ n)) (g n)).
  - rewrite names_prefixed. apply (NoDup_prefixed p (fun n => n)); auto.
  - exact (map_nth_error (fun n : str => SSym (p ++ n)) i ns Hi).
  - exact (map_nth_error g i ns Hi).
  - reflexivity.
Qed.

Lemma not_prefixed {A} (p k : str) (g : A -> str) ns : (forall n, p ++ g n <> k) -> ~ In k (map (fun n => p ++ g n) ns).
Proof. intros H I. apply in_map_iff in I as (n & E & _). now apply (H n). Qed.

Lemma names_indexed p n : map sym_name (indexed p n) = map (fun i => p ++ dec (N.of_nat i)) (seq 0 n).
Proof. unfold indexed. now rewrite map_map. Qed.

Lemma get_G_Ga s r i x : i < length (s_exprs s) -> nth_error (r_Gaf r) i = Some x ->
  dget (G_subs (the_symbols s) r) (L "Ga_" ++ dec (N.of_nat i)) = Some x.
Proof.
  intros H E. unfold G_subs. cbn [y_dG y_Ga the_symbols].
  rewrite subs_other by (rewrite names_indexed; apply not_prefixed; intros; discriminate).
  apply (subs_at _ (r_Gaf r) [] i (SSym (L "Ga_" ++ dec (N.of_nat i))) x); auto.
  - apply NoDup_indexed.
  - now apply nth_indexed.
Qed.
Lemma get_G_dG s r i x : i < length (s_exprs s) -> nth_error (r_dG r) i = Some x ->
  dget (G_subs (the_symbols s) r) (L "dG_" ++ dec (N.of_nat i)) = Some x.
Proof.
  intros H E. unfold G_subs. cbn [y_dG y_Ga the_symbols].
  apply (subs_at _ (r_dG r) _ i (SSym (L "dG_" ++ dec (N.of_nat i))) x); auto.
  - apply NoDup_indexed.
  - now apply nth_indexed.
  - cbn [sym_name]. rewrite subs_other; [reflexivity|]. rewrite names_indexed. apply not_prefixed. intros; discriminate.
Qed.
Lemma G_NoDup s r : NoDup (keys (G_subs (the_symbols s) r)).
Proof. unfold G_subs. apply subs_keys, subs_keys. constructor. Qed.

Lemma constants_NoDup T : NoDup (keys (constants_subs T)).
Proof.
  unfold constants_subs. cbn [keys map fst].
  repeat (constructor; [cbn [In]; intro H; repeat (destruct H as [H|H]; [discriminate|]); destruct H|]). constructor.
Qed.

Section Eval.
  Variable s : setup.
  Hypothesis P : prepared s.
  Hypothesis NoLiquid : l_liq (s_lists s) = [].

  Lemma gas_NoDup : NoDup (l_gas (s_lists s)).
  Proof. destruct (NoDup_app_parts _ _ (reapro_columns_NoDup _ _ (proj1 P))) as (N1 & _). exact N1. Qed.

  Variables (T : R) (r : rel_energies).
  Hypothesis ER : energies_ready s r.

  Let data := (tab (value (s_pressure s)) (l_gas (s_lists s)), tab (value (s_conc s)) (l_liq (s_lists s))).
  Definition p_table : dict R :=
    subs_pairs (map (fun n => SSym (L "p_" ++ n)) (l_gas (s_lists s))) (map (value (s_pressure s)) (l_gas (s_lists s))) [].

  Lemma subs_dict_eq cvgs :
    subs_dict s (the_symbols s) T r (Some data) cvgs =
    Ok (fold_left dupdate
        (match (match cvgs with Some (x :: t) => Some (subs_pairs (map theta_sym (ads s)) (x :: t) []) | _ => None end) with
         | Some th => [G_subs (the_symbols s) r; th; constants_subs T; p_table; []]
         | None => [G_subs (the_symbols s) r; constants_subs T; p_table; []]
         end) []).
  Proof.
    unfold subs_dict. cbn [y_p y_c y_ads the_symbols]. rewrite NoLiquid. cbn [map combine].
    assert (E : match map (fun n => SSym (L "p_" ++ n)) (l_gas (s_lists s)) with
           | [] => Ok []
           | _ => p_subs (fst data) (map (fun n => SSym (L "p_" ++ n)) (l_gas (s_lists s))) (l_gas (s_lists s)) []
           end = Ok p_table).
    { unfold p_table. rewrite p_subs_ok.
      - assert (V : map (value (fst data)) (l_gas (s_lists s)) = map (value (s_pressure s)) (l_gas (s_lists s))).
        { apply map_ext_in. intros n Hn. unfold value at 1. unfold data. cbn [fst]. now rewrite dget_tab_In. }
        rewrite V. destruct (l_gas (s_lists s)); reflexivity.
      - intros n Hn. exists (value (s_pressure s) n). unfold data. cbn [fst]. now apply dget_tab_In. }
    unfold data in *. cbn [fst] in E.
    destruct (map (fun n => SSym (L "p_" ++ n)) (l_gas (s_lists s))) eqn:M.
    - cbn [bind]. injection E as <-. reflexivity.
    - rewrite E. cbn [bind]. reflexivity.
  Qed.

  Lemma p_table_NoDup : NoDup (keys p_table).
  Proof. apply subs_keys. constructor. Qed.
  Lemma p_table_other k : (forall n, L "p_" ++ n <> k) -> dget p_table k = None.
  Proof. intro H. unfold p_table. rewrite subs_other; [reflexivity|]. rewrite names_prefixed. now apply (not_prefixed (L "p_") k (fun n => n)). Qed.

  Lemma subs_dict_ok (cvgs : option (list R)) (theta : str -> R) :
    (forall c, cvgs = Some c -> length c = length (ads s) /\ theta = coverage s c) ->
    exists d, subs_dict s (the_symbols s) T r (Some data) cvgs = Ok d /\ substitution s T r (match cvgs with Some _ => ads s | None => [] end) theta d.
  Proof.
    intros HC. rewrite subs_dict_eq. eexists. split; [reflexivity|].
    pose proof p_table_NoDup as N1. pose proof (constants_NoDup T) as N2. pose proof (G_NoDup s r) as N3.
    set (th := match cvgs with Some (x :: t) => Some (subs_pairs (map theta_sym (ads s)) (x :: t) []) | _ => None end).
    assert (LK : forall k, (forall n, L "theta_" ++ n <> k) ->
       dget (fold_left dupdate (match th with Some th => [G_subs (the_symbols s) r; th; constants_subs T; p_table; []]
                                | None => [G_subs (the_symbols s) r; constants_subs T; p_table; []] end) []) k
       = match dget p_table k with Some x => Some x | None =>
           match dget (constants_subs T) k with Some x => Some x | None => dget (G_subs (the_symbols s) r) k end end).
    { intros k Hk. destruct th as [u|] eqn:Eu; cbn [fold_left].
      - assert (u = subs_pairs (map theta_sym (ads s)) (match cvgs with Some c => c | None => [] end) []) as Eu2.
        { unfold th in Eu. destruct cvgs as [[|x t]|]; try discriminate. injection Eu as <-. reflexivity. }
        assert (NoDup (keys u)) by (rewrite Eu2; apply subs_keys; constructor).
        assert (dget u k = None) as Z.
        { rewrite Eu2. rewrite subs_other; [reflexivity|]. unfold theta_sym. rewrite names_prefixed.
          now apply (not_prefixed (L "theta_") k (fun n => n)). }
        rewrite !dget_update by (auto; constructor). rewrite Z. cbn [dget].
        destruct (dget p_table k); auto. destruct (dget (constants_subs T) k); auto. now destruct (dget (G_subs (the_symbols s) r) k).
      - rewrite !dget_update by (auto; constructor). cbn [dget].
        destruct (dget p_table k); auto. destruct (dget (constants_subs T) k); auto. now destruct (dget (G_subs (the_symbols s) r) k). }
    constructor.
    - intros n Hn. destruct cvgs as [c|]; [|destruct Hn].
      destruct (HC c eq_refl) as [Len ->]. destruct c as [|x t].
      { destruct (ads s); [destruct Hn|discriminate]. }
      unfold th. cbn [fold_left].
      assert (Z : dget (subs_pairs (map theta_sym (ads s)) (x :: t) []) (L "theta_" ++ n) = Some (coverage s (x :: t) n)).
      { rewrite <- (coverages_list s P (x :: t) Len) at 1. unfold theta_sym.
        apply (dget_subs_prefixed (L "theta_") (coverage s (x :: t))); auto. now apply NoDup_ads. }
      assert (NoDup (keys (subs_pairs (map theta_sym (ads s)) (x :: t) []))) by (apply subs_keys; constructor).
      rewrite !dget_update by (auto; constructor). rewrite Z, p_table_other by (intros; discriminate). reflexivity.
    - intros n Hn. rewrite LK by (intros; discriminate).
      unfold p_table. rewrite dget_subs_prefixed; auto. apply gas_NoDup.
    - intros i x Hi Hx. rewrite LK by (intros; discriminate). rewrite p_table_other by (intros; discriminate).
      rewrite (get_G_Ga s r i x) by auto. reflexivity.
    - intros i x Hi Hx. rewrite LK by (intros; discriminate). rewrite p_table_other by (intros; discriminate).
      rewrite (get_G_dG s r i x) by auto. reflexivity.
    - rewrite LK by (intros; discriminate). now rewrite p_table_other by (intros; discriminate).
    - rewrite LK by (intros; discriminate). now rewrite p_table_other by (intros; discriminate).
    - rewrite LK by (intros; discriminate). now rewrite p_table_other by (intros; discriminate).
  Qed.
End Eval.
