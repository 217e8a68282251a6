(** Proofs about the symbolic evaluation: symbols, substitutions, rates. *)
From Coq Require Import String Ascii List ZArith NArith Bool Arith Reals Lia Lra.
Import ListNotations.
From Verif Require Import PyBase PyBaseFacts Rxn_Model Rxn_Spec Rxn_Proofs Species_Model Species_Spec
  Species_Proofs Species_Matrix PyReal Energy_Model Energy_Spec Thermo_Model Rate_Model Rate_Spec
  Rate_Proofs MF_Model MF_Spec MF_Cover MF_Rate MF_More Archive_Proofs Sym_Model Sym_Spec.
Local Open Scope nat_scope.
Local Open Scope list_scope.

Lemma mapM_all {A B} (f : A -> res B) h l : (forall x, In x l -> f x = Ok (h x)) -> mapM f l = Ok (map h l).
Proof.
  induction l as [|x l IH]; intros H; [reflexivity|]. cbn. rewrite (H x) by now left.
  rewrite IH by (intros; apply H; now right). reflexivity.
Qed.

(** ** Dictionaries *)
Lemma dget_app {V} (a b : dict V) k : dget (a ++ b) k = match dget a k with Some x => Some x | None => dget b k end.
Proof. induction a as [|[n v] a IH]; auto. cbn. destruct (str_eqb k n); auto. Qed.
Lemma dget_setdefault {V} (d : dict V) k v k' :
  dget (dsetdefault d k v) k' =
  match dget d k' with Some x => Some x | None => if str_eqb k k' then Some v else None end.
Proof.
  unfold dsetdefault. destruct (dget d k) as [x|] eqn:E.
  - destruct (dget d k') eqn:E'; auto. destruct (str_eqb_spec k k') as [->|]; [congruence|auto].
  - rewrite dset_new by auto. rewrite dget_app. destruct (dget d k') eqn:E'; auto.
    cbn [dget]. destruct (str_eqb_spec k k') as [->|N].
    + now rewrite str_eqb_refl.
    + assert (str_eqb k' k = false) as -> by (apply str_eqb_neq; congruence). reflexivity.
Qed.

Lemma keys_setdefault {V} (d : dict V) k v : NoDup (keys d) -> NoDup (keys (dsetdefault d k v)).
Proof.
  intro N. unfold dsetdefault. destruct (dget d k) eqn:E; auto. rewrite dset_new by auto.
  unfold keys. rewrite map_app. cbn [map fst]. apply dget_None in E.
  assert (G : forall l : list str, NoDup l -> ~ In k l -> NoDup (l ++ [k])).
  { induction l as [|a l IH]; intros Nl H; cbn; [constructor; auto; constructor|].
    inversion Nl; subst. constructor.
    - intro I. apply in_app_or in I as [I|[<-|[]]]; [auto|]. apply H. now left.
    - apply IH; auto. intro. apply H. now right. }
  now apply G.
Qed.

Lemma dget_update {V} (d d2 : dict V) k : NoDup (keys d2) ->
  dget (dupdate d d2) k = match dget d2 k with Some x => Some x | None => dget d k end.
Proof.
  unfold dupdate. revert d. induction d2 as [|[a x] d2 IH]; intros d N; auto.
  cbn [keys map fst] in N. inversion N as [|? ? H1 H2]; subst. cbn [fold_left fst snd].
  rewrite IH by auto. cbn [dget]. destruct (str_eqb_spec k a) as [->|Ne].
  - assert (dget d2 a = None) as -> by (apply dget_None; auto). now rewrite dget_dset, str_eqb_refl.
  - destruct (dget d2 k); auto. rewrite dget_dset.
    assert (str_eqb k a = false) as E by (now apply str_eqb_neq).
    try rewrite E. try reflexivity.
Qed.

Lemma subs_keys l : forall xs d, NoDup (keys d) -> NoDup (keys (subs_pairs l xs d)).
Proof.
  unfold subs_pairs. induction l as [|e l IH]; intros [|x xs] d N; cbn [combine fold_left]; auto.
  apply IH. now apply keys_setdefault.
Qed.

Lemma subs_other k l : forall xs d, ~ In k (map sym_name l) -> dget (subs_pairs l xs d) k = dget d k.
Proof.
  unfold subs_pairs. induction l as [|e l IH]; intros [|x xs] d N; cbn [combine fold_left fst snd]; auto.
  rewrite IH by (intro; apply N; now right). rewrite dget_setdefault. destruct (dget d k); auto.
  destruct (str_eqb_spec (sym_name e) k) as [E|]; auto. destruct N. now left.
Qed.

Lemma subs_at l : forall xs d i e x, NoDup (map sym_name l) -> nth_error l i = Some e -> nth_error xs i = Some x ->
  dget d (sym_name e) = None -> dget (subs_pairs l xs d) (sym_name e) = Some x.
Proof.
  induction l as [|a l IH]; intros [|z xs] d [|i] e x N H1 H2 D; try discriminate;
    cbn [nth_error] in H1, H2; inversion N as [|? ? N1 N2]; subst.
  - injection H1 as ->. injection H2 as ->. change (subs_pairs (e :: l) (x :: xs) d)
      with (subs_pairs l xs (dsetdefault d (sym_name e) x)).
    rewrite subs_other by auto. rewrite dget_setdefault, D, str_eqb_refl. reflexivity.
  - change (subs_pairs (a :: l) (z :: xs) d) with (subs_pairs l xs (dsetdefault d (sym_name a) z)).
    eapply IH; eauto. rewrite dget_setdefault, D.
    destruct (str_eqb_spec (sym_name a) (sym_name e)) as [E|]; auto.
    destruct N1. rewrite E. apply in_map_iff. exists e. split; auto. eapply nth_error_In; eauto.
Qed.

Lemma subs_dom l : forall xs d k, dget (subs_pairs l xs d) k <> None -> In k (map sym_name l) \/ dget d k <> None.
Proof.
  intros xs d k H. destruct (in_dec (list_eq_dec Ascii.ascii_dec) k (map sym_name l)) as [I|I]; auto.
  right. rewrite subs_other in H; auto.
Qed.

Lemma names_prefixed p ns : map sym_name (map (fun n => SSym (p ++ n)) ns) = map (fun n => p ++ n) ns.
Proof. rewrite map_map. reflexivity. Qed.
Lemma NoDup_prefixed {A} (p : str) (g : A -> str) ns : (forall x y, g x = g y -> x = y) -> NoDup ns ->
  NoDup (map (fun n => p ++ g n) ns).
Proof.
  intros G. induction 1 as [|n ns H N IH]; cbn; constructor; auto.
  intro I. apply in_map_iff in I as (m & E & I). apply app_inv_head in E. apply G in E. now subst.
Qed.
Lemma NoDup_indexed p n : NoDup (map sym_name (indexed p n)).
Proof.
  unfold indexed. rewrite map_map. cbn [sym_name].
  apply (NoDup_prefixed p (fun i => dec (N.of_nat i))); [|apply seq_NoDup].
  intros x y E. apply dec_inj in E. lia.
Qed.
Lemma nth_indexed p n i : i < n -> nth_error (indexed p n) i = Some (SSym (p ++ dec (N.of_nat i))).
Proof.
  intro H. unfold indexed. rewrite nth_error_map.
  rewrite (nth_error_nth' (seq 0 n) 0) by now rewrite seq_length. cbn [option_map].
  now rewrite seq_nth by auto.
Qed.
Lemma indexed_length p n : length (indexed p n) = n.
Proof. unfold indexed. now rewrite map_length, seq_length. Qed.

Lemma p_subs_ok src names : forall d, (forall n, In n names -> exists x, dget src n = Some x) ->
  p_subs src (map (fun n => SSym (L "p_" ++ n)) names) names d
  = Ok (subs_pairs (map (fun n => SSym (L "p_" ++ n)) names) (map (value src) names) d).
Proof.
  induction names as [|n ns IH]; intros d H; auto. cbn [map p_subs].
  destruct (H n (or_introl eq_refl)) as [x E]. unfold dindex at 1. rewrite E. cbn [bind].
  rewrite IH by (intros; apply H; now right). unfold subs_pairs. cbn [combine fold_left fst snd].
  unfold value at 3. now rewrite E.
Qed.

(** ** Keys with different beginnings *)
Definition starts (p k : str) : Prop := exists r, k = p ++ r.
Lemma starts_map {A} p (g : A -> str) ns k : In k (map (fun n => p ++ g n) ns) -> starts p k.
Proof. intro H. apply in_map_iff in H as (n & <- & _). now exists (g n). Qed.

Section Symbols.
  Variable s : setup.
  Hypothesis P : prepared s.

  Definition theta_sym (n : str) : sexpr := SSym (L "theta_" ++ n).
  Definition free_sym (site : str) : sexpr :=
    fold_left (fun e n => SSub e (theta_sym n)) (on site (ads s)) (SNum (total s site)).
  Definition the_symbols : symbols :=
    {| y_p := map (fun n => SSym (L "p_" ++ n)) (l_gas (s_lists s));
       y_c := map (fun n => SSym (L "c_" ++ n)) (l_liq (s_lists s));
       y_ads := map theta_sym (ads s);
       y_free := map free_sym (sites s);
       y_Ga := indexed (L "Ga_") (length (s_exprs s));
       y_dG := indexed (L "dG_") (length (s_exprs s));
       y_K := indexed (L "K_") (length (l_rxns (s_lists s))) |}.

  Lemma pick_at names (g : str -> sexpr) n : In n names -> pick names (map g names) n = Ok (g n).
  Proof.
    intro H. unfold pick. destruct (index_first names n H) as (j & -> & F & _). unfold lindex.
    rewrite nth_error_map, F. reflexivity.
  Qed.
  Lemma pick_none names l n : ~ In n names -> pick names l n = Err ParameterError.
  Proof.
    intro H. unfold pick. apply index_of_None in H. now rewrite H.
  Qed.

  Lemma minus_all_ok ns : forall acc, (forall n, In n ns -> In n (ads s)) ->
    minus_all (ads s) (map theta_sym (ads s)) acc ns = Ok (fold_left (fun e n => SSub e (theta_sym n)) ns acc).
  Proof.
    induction ns as [|n ns IH]; intros acc H; auto. cbn [minus_all fold_left].
    rewrite pick_at by (apply H; now left). cbn [bind]. apply IH. intros; apply H; now right.
  Qed.

  Lemma symbols_ok : data_symbols s (tab (fun x => on x (ads s)) (sites s)) = Ok the_symbols.
  Proof.
    unfold data_symbols. change (l_ads (s_lists s)) with (ads s). change (l_site (s_lists s)) with (sites s).
    change (fun n => SSym (L "theta_" ++ n)) with theta_sym.
    rewrite (mapM_all _ free_sym (sites s)); [reflexivity|].
    intros site Hs. destruct (total_ok s P site Hs) as (t & E & Et). rewrite E. cbn [bind].
    rewrite (dindex_tab (fun x => on x (ads s)) (sites s)) by auto. cbn [bind].
    rewrite minus_all_ok by (intros n Hn; now apply on_In in Hn). unfold free_sym. now rewrite Et.
  Qed.
End Symbols.
