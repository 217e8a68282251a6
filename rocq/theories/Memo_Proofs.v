(** The cache: every call returns what the first successful call with an equal key computed. *)
From Coq Require Import String Ascii List ZArith Bool Reals Lia Lra.
From Verif Require Import PyBase PyBaseFacts PyReal Energy_Model Thermo_Model Rate_Model MF_Model SS_Model
  Memo_Model Memo_Spec.
Import ListNotations.
Local Open Scope list_scope.
Local Open Scope nat_scope.

(** ** Equality of keys *)
Lemma Reqb_eq x y : Reqb x y = true <-> x = y.
Proof. unfold Reqb. destruct (Req_EM_T x y); split; congruence. Qed.

Lemma reals_eqb_eq l m : reals_eqb l m = true <-> l = m.
Proof.
  revert m. induction l as [|x l IH]; intros [|y m]; cbn; try (split; congruence).
  rewrite andb_true_iff, Reqb_eq, IH. split; [intros [-> ->]; auto|intros E; injection E; auto].
Qed.

Lemma dict_eqb_rel {V} (veqb : V -> V -> bool) (d1 d2 : dict V) :
  NoDup (keys d1) -> NoDup (keys d2) ->
  (dict_eqb veqb d1 d2 = true <->
   forall k, match dget d1 k, dget d2 k with
             | Some a, Some b => veqb a b = true
             | None, None => True
             | _, _ => False
             end).
Proof.
  intros N1 N2. unfold dict_eqb. rewrite andb_true_iff, Nat.eqb_eq, forallb_forall. split.
  - intros [Hl Hf].
    assert (Hincl : incl (keys d1) (keys d2)).
    { intros k Hk. apply dget_Some_In in Hk as [v E]. apply dget_In in E.
      specialize (Hf _ E). simpl in Hf. apply dget_Some_In.
      destruct (dget d2 k); [eauto|discriminate]. }
    assert (Hincl2 : incl (keys d2) (keys d1)).
    { apply NoDup_length_incl; auto. unfold keys. rewrite !map_length. lia. }
    intro k. destruct (dget d1 k) eqn:E.
    + pose proof (dget_In _ _ _ E) as Hin. specialize (Hf _ Hin). simpl in Hf.
      destruct (dget d2 k) eqn:E2; [auto|discriminate].
    + apply dget_None in E. destruct (dget d2 k) eqn:E2; auto.
      apply E, Hincl2. apply dget_Some_In. eauto.
  - intro H.
    assert (Hk : forall k, In k (keys d1) <-> In k (keys d2)).
    { intro k. rewrite !dget_Some_In. specialize (H k).
      destruct (dget d1 k), (dget d2 k); try tauto; split; intros [x Ex]; eauto; discriminate. }
    split.
    + assert (length (keys d1) = length (keys d2)).
      { apply Nat.le_antisymm; apply NoDup_incl_length; auto; intros k; apply Hk. }
      unfold keys in *. now rewrite !map_length in *.
    + intros [k v] Hin. simpl. specialize (H k). rewrite (In_dget d1 k v) in H by auto.
      destruct (dget d2 k); tauto.
Qed.

Lemma arg_eqb_same a b : wf_arg a -> wf_arg b -> (arg_eqb a b = true <-> same_arg a b).
Proof.
  destruct a, b; cbn; intros A B; try (split; congruence).
  - rewrite eqb_true_iff. split; congruence.
  - rewrite str_eqb_eq. split; congruence.
  - apply dict_eqb_spec; auto. intros; apply reals_eqb_eq.
Qed.

Lemma wf_dget kw n a : wf_kw kw -> dget kw n = Some a -> wf_arg a.
Proof. intros [_ H] E. apply dget_In in E. eauto. Qed.

Lemma key_eqb_same x y : wf_kw x -> wf_kw y -> (key_eqb x y = true <-> same_kw x y).
Proof.
  intros X Y. unfold key_eqb. rewrite dict_eqb_rel by (apply X || apply Y). unfold same_kw.
  split; intros H n; specialize (H n); destruct (dget x n) eqn:E, (dget y n) eqn:E'; auto;
    apply arg_eqb_same; eauto using wf_dget.
Qed.

Lemma same_arg_sym a b : same_arg a b -> same_arg b a.
Proof. destruct a, b; cbn; congruence. Qed.
Lemma same_arg_trans a b c : same_arg a b -> same_arg b c -> same_arg a c.
Proof. destruct a, b, c; cbn; congruence. Qed.
Lemma same_arg_refl a : same_arg a a.
Proof. now destruct a. Qed.
Lemma same_kw_sym x y : same_kw x y -> same_kw y x.
Proof.
  intros H n. specialize (H n). destruct (dget x n), (dget y n); auto using same_arg_sym.
Qed.
Lemma same_kw_trans x y z : same_kw x y -> same_kw y z -> same_kw x z.
Proof.
  intros H H' n. specialize (H n). specialize (H' n).
  destruct (dget x n), (dget y n), (dget z n); eauto using same_arg_trans; tauto.
Qed.
Lemma same_kw_refl x : same_kw x x.
Proof. intros n. destruct (dget x n); auto using same_arg_refl. Qed.

(** ** The key *)
Lemma filled_keys e kw : map fst (filled e kw) = map fst kw.
Proof.
  unfold filled. rewrite map_map. apply map_ext. intros [n a]. cbn.
  destruct a; auto. now destruct (str_eqb n _).
Qed.

Lemma filled_get e kw n :
  dget (filled e kw) n =
  match dget kw n with
  | Some ANone => if str_eqb n (L "relative_energies") then Some (AEnergies e) else Some ANone
  | r => r
  end.
Proof.
  induction kw as [|[k a] kw IH]; [reflexivity|]. unfold filled in *. cbn [map dget fst snd].
  destruct (str_eqb_spec n k) as [->|N].
  - destruct a; cbn [dget]; rewrite ?str_eqb_refl; auto.
    destruct (str_eqb k (L "relative_energies")); cbn [dget]; now rewrite str_eqb_refl.
  - assert (str_eqb n k = false) as Z by now apply str_eqb_neq.
    destruct a; cbn [dget]; rewrite ?Z; auto.
    destruct (str_eqb k (L "relative_energies")); cbn [dget]; now rewrite Z.
Qed.

Lemma filled_dset e kw : NoDup (map fst kw) ->
  filled e kw = match dget kw (L "relative_energies") with
                | Some ANone => dset kw (L "relative_energies") (AEnergies e)
                | _ => kw
                end.
Proof.
  induction kw as [|[k a] kw IH]; intros N; [reflexivity|]. inversion N as [|? ? N1 N2]; subst.
  unfold filled in *. cbn [map dget dset fst snd].
  destruct (str_eqb_spec (L "relative_energies") k) as [<-|D].
  - assert (E : dget kw (L "relative_energies") = None) by now apply dget_None.
    rewrite E in IH. rewrite IH by auto. now destruct a.
  - assert (str_eqb k (L "relative_energies") = false) as Z by (apply str_eqb_neq; congruence).
    rewrite Z, IH by auto.
    destruct a; destruct (dget kw (L "relative_energies")) as [[]|]; reflexivity.
Qed.

Section History.
  Context {I W V : Type}.
  Variable energies : W -> I -> dict (list R).
  Variable func : W -> option I -> dict arg -> res V.

  Lemma make_key_asked w i kw : NoDup (map fst kw) ->
    make_key energies w i kw =
    match asked energies w i kw with Some k => Ok k | None => Err AttributeError end.
  Proof.
    intros N. unfold make_key, asked. destruct i as [i|].
    - rewrite filled_dset by auto. destruct (dget kw (L "relative_energies")) as [[]|]; auto.
    - destruct (dget kw (L "relative_energies")) as [[]|]; auto.
  Qed.

  Lemma asked_wf w i kw k : (forall j, NoDup (map fst (energies w j))) ->
    wf_kw kw -> asked energies w i kw = Some k -> wf_kw k.
  Proof.
    intros energies_wf [A B]. unfold asked. destruct i as [i|].
    - intros E. injection E as <-. split; [now rewrite filled_keys|].
      intros n a H. unfold filled in H. apply in_map_iff in H as ([n' a'] & E & H). cbn [fst snd] in E.
      destruct a'; try (injection E as <- <-; eauto; fail).
      destruct (str_eqb n' (L "relative_energies")); injection E as <- <-; cbn; eauto.
    - intros E. assert (k = kw) as ->; [|now split].
      destruct (dget kw (L "relative_energies")) as [[]|]; congruence.
  Qed.

  Notation stepm := (step energies func).
  Notation runm := (run energies func).

  Definition before (s : W * memo I V) (ops : list (op I W)) (m : nat) : W * memo I V :=
    snd (runm s (firstn m ops)).

  Lemma run_length s ops : length (fst (runm s ops)) = length ops.
  Proof.
    revert s. induction ops as [|x t IH]; intros s; [reflexivity|]. cbn [run].
    destruct (stepm s x) as [r s1]. specialize (IH s1). destruct (runm s1 t). cbn in *. lia.
  Qed.

  Lemma before_S s x t m : before s (x :: t) (S m) = before (snd (stepm s x)) t m.
  Proof.
    unfold before. cbn [firstn run]. destruct (stepm s x) as [r s1]. cbn [snd].
    now destruct (runm s1 (firstn m t)).
  Qed.

  Lemma run_at s ops m x : nth_error ops m = Some x ->
    nth_error (fst (runm s ops)) m = Some (fst (stepm (before s ops m) x)) /\
    before s ops (S m) = snd (stepm (before s ops m) x).
  Proof.
    revert s m. induction ops as [|y t IH]; intros s m E; [destruct m; discriminate|].
    destruct m as [|m]; cbn in E.
    - injection E as ->. rewrite before_S. unfold before. cbn [firstn run].
      destruct (stepm s x) as [r s1] eqn:ES. destruct (runm s1 t). cbn [fst snd nth_error]. rewrite ES. auto.
    - destruct (IH (snd (stepm s y)) m E) as [A B]. rewrite !before_S. split; auto.
      cbn [run]. destruct (stepm s y) as [r s1]. cbn [snd] in *.
      destruct (runm s1 t). exact A.
  Qed.

  Lemma before_world s ops m : fst (before s ops m) = world_at (fst s) ops m.
  Proof.
    revert s m. induction ops as [|x t IH]; intros s [|m]; try reflexivity.
    rewrite before_S, IH. destruct x; cbn; auto. now destruct (call _ _ _ _ _).
  Qed.

  Lemma call_current w m kw : current (snd (call energies func w m kw)) = current m.
  Proof.
    unfold call. destruct (make_key _ _ _ _); auto. destruct (lookup _ _); auto.
    now destruct (func _ _ _).
  Qed.

  Lemma before_object s ops m : current (snd (before s ops m)) = object_at (current (snd s)) ops m.
  Proof.
    revert s m. induction ops as [|x t IH]; intros s [|m]; try reflexivity.
    rewrite before_S, IH. destruct x; cbn; auto.
    pose proof (call_current (fst s) (snd s) kwargs) as C. destruct (call _ _ _ _ _). cbn in *. now rewrite C.
  Qed.

  (** A fixed history from an empty cache. *)
  Variable w0 : W.
  Variable ops : list (op I W).
  Hypothesis proper : forall kw, In (Call kw) ops -> wf_kw kw.

  Let s0 : W * memo I V := (w0, empty).
  Let rs := fst (runm s0 ops).
  Let W_ := world_at w0 ops.
  Let O_ := object_at None ops.
  Hypothesis energies_wf : forall m j, NoDup (map fst (energies (world_at w0 ops m) j)).

  (** Call number [m] succeeded and asked for [k]. *)
  Definition success (m : nat) (kw k : dict arg) (v : V) : Prop :=
    happened ops rs m (Call kw) (Some (Ok v)) /\ asked energies (W_ m) (O_ m) kw = Some k.

  Definition first_success (limit : nat) (key : dict arg) (m : nat) (v : V) : Prop :=
    exists kw k, m < limit /\ success m kw k v /\ same_kw k key /\
      func (W_ m) (O_ m) kw = Ok v /\
      forall m' kw' k' v', m' < m -> success m' kw' k' v' -> ~ same_kw k' key.

  Definition cache_ok (m : nat) : Prop :=
    (forall k v, In (k, v) (results (snd (before s0 ops m))) -> wf_kw k) /\
    forall key, wf_kw key ->
    match lookup (results (snd (before s0 ops m))) key with
    | Some v => exists m', first_success m key m' v
    | None => forall m' kw' k' v', m' < m -> success m' kw' k' v' -> ~ same_kw k' key
    end.

  Lemma lookup_snoc (l : list (dict arg * V)) k v key :
    lookup (l ++ [(k, v)]) key =
    match lookup l key with Some x => Some x | None => if key_eqb k key then Some v else None end.
  Proof.
    induction l as [|[k' v'] l IH]; [reflexivity|]. cbn. destruct (key_eqb k' key); auto.
  Qed.

  Lemma lookup_same (l : list (dict arg * V)) x y :
    (forall k v, In (k, v) l -> wf_kw k) -> wf_kw x -> wf_kw y -> same_kw x y ->
    lookup l x = lookup l y.
  Proof.
    intros H X Y S. induction l as [|[k v] l IH]; [reflexivity|]. cbn.
    assert (K : wf_kw k) by (eapply H; now left).
    assert (key_eqb k x = key_eqb k y) as ->.
    { destruct (key_eqb k x) eqn:E, (key_eqb k y) eqn:E'; auto.
      - apply key_eqb_same in E; auto.
        rewrite (proj2 (key_eqb_same k y K Y)) in E'; [auto|eauto using same_kw_trans].
      - apply key_eqb_same in E'; auto.
        rewrite (proj2 (key_eqb_same k x K X)) in E; [auto|eauto using same_kw_trans, same_kw_sym]. }
    destruct (key_eqb k y); auto. apply IH. intros; eapply H; right; eauto.
  Qed.

  Lemma success_wf m kw k v : success m kw k v -> wf_kw k.
  Proof.
    intros [[E _] A]. apply nth_error_In in E. eapply asked_wf; eauto.
  Qed.

  Lemma cache_step m : m < length ops -> cache_ok m ->
    (forall kw r, happened ops rs m (Call kw) (Some r) ->
       match asked energies (W_ m) (O_ m) kw with
       | None => r = Err AttributeError
       | Some key =>
           match lookup (results (snd (before s0 ops m))) key with
           | Some v => r = Ok v
           | None => r = func (W_ m) (O_ m) kw
           end
       end) /\ cache_ok (S m).
  Proof.
    intros Lm [CW CK].
    destruct (nth_error ops m) as [x|] eqn:EX; [|apply nth_error_None in EX; lia].
    destruct (run_at s0 ops m x EX) as [R1 R2].
    pose proof (before_world s0 ops m) as BW. pose proof (before_object s0 ops m) as BO.
    cbn [fst snd s0 current empty] in BW, BO. fold rs in R1.
    assert (CALL : forall kw, x = Call kw ->
      match asked energies (W_ m) (O_ m) kw with
      | None => nth_error rs m = Some (Some (Err AttributeError)) /\
                results (snd (before s0 ops (S m))) = results (snd (before s0 ops m))
      | Some key =>
          match lookup (results (snd (before s0 ops m))) key with
          | Some v => nth_error rs m = Some (Some (Ok v)) /\
                      results (snd (before s0 ops (S m))) = results (snd (before s0 ops m))
          | None =>
              nth_error rs m = Some (Some (func (W_ m) (O_ m) kw)) /\
              results (snd (before s0 ops (S m))) =
              results (snd (before s0 ops m)) ++
              match func (W_ m) (O_ m) kw with Ok v => [(key, v)] | Err _ => [] end
          end
      end).
    { intros kw ->. cbn [step] in R1, R2. unfold call in R1, R2.
      rewrite BW, BO in R1, R2. fold (W_ m) in R1, R2. fold (O_ m) in R1, R2.
      rewrite make_key_asked in R1, R2 by (apply proper; eapply nth_error_In; eauto).
      destruct (asked energies (W_ m) (O_ m) kw) as [key|].
      2:{ split; [exact R1|]. now rewrite R2. }
      destruct (lookup _ key).
      { split; [exact R1|]. now rewrite R2. }
      destruct (func (W_ m) (O_ m) kw); (split; [exact R1|]); rewrite R2; cbn; auto.
      now rewrite app_nil_r. }
    split.
    - intros kw r [H1 H2]. rewrite H1 in EX. injection EX as <-. specialize (CALL kw eq_refl).
      destruct (asked energies (W_ m) (O_ m) kw) as [key|]; [|destruct CALL; congruence].
      destruct (lookup _ key); destruct CALL; congruence.
    - (* the number of successes grows by at most one *)
      assert (UP : forall m' kw' k' v', m' < S m -> success m' kw' k' v' ->
                 m' < m \/ (m' = m /\ x = Call kw' /\ nth_error rs m = Some (Some (Ok v')) /\
                            asked energies (W_ m) (O_ m) kw' = Some k')).
      { intros m' kw' k' v' H S. assert (m' < m \/ m' = m) as [|Em] by lia; auto. right. subst m'.
        destruct S as [[S1 S2] S3]. repeat split; auto. congruence. }
      assert (KEEP : forall key m' v, first_success m key m' v -> first_success (S m) key m' v).
      { intros key m' v (kw & k & H & H'). exists kw, k. split; [lia|exact H']. }
      assert (SAME : (forall kw, x = Call kw -> exists e, nth_error rs m = Some (Some (Err e))) ->
                     results (snd (before s0 ops (S m))) = results (snd (before s0 ops m)) ->
                     cache_ok (S m)).
      { intros NS ER. split; rewrite ER; [exact CW|]. intros key WK. specialize (CK key WK).
        destruct (lookup _ key) as [v|].
        - destruct CK as [m' F]. eauto.
        - intros m' kw' k' v' H S. destruct (UP _ _ _ _ H S) as [|(-> & E1 & E2 & _)]; [eauto|].
          destruct (NS _ E1) as [e E3]. congruence. }
      destruct x as [i|kw|w].
      + apply SAME; [discriminate|]. now rewrite R2.
      + specialize (CALL kw eq_refl).
        assert (WKW : wf_kw kw) by (apply proper; eapply nth_error_In; eauto).
        destruct (asked energies (W_ m) (O_ m) kw) as [key|] eqn:EA.
        2:{ destruct CALL as [C1 C2]. apply SAME; eauto. }
        assert (WK : wf_kw key) by (eapply asked_wf; eauto).
        destruct (lookup (results (snd (before s0 ops m))) key) as [v|] eqn:EL.
        * (* a hit *)
          destruct CALL as [C1 C2]. split; rewrite C2; [exact CW|].
          intros key' WK'. pose proof (CK key' WK') as CK'.
          destruct (lookup (results (snd (before s0 ops m))) key') as [v'|] eqn:EL'.
          { destruct CK' as [m' F]. eauto. }
          intros m' kw' k' v' H S. destruct (UP _ _ _ _ H S) as [|(-> & E1 & E2 & E3)]; [eauto|].
          injection E1 as <-. rewrite EA in E3. injection E3 as <-. intros SK.
          rewrite (lookup_same _ key key' CW WK WK' SK) in EL. congruence.
        * destruct CALL as [C1 C2].
          destruct (func (W_ m) (O_ m) kw) as [v|e] eqn:EF.
          2:{ rewrite app_nil_r in C2. apply SAME; eauto. }
          split.
          { intros k v' H. rewrite C2 in H. apply in_app_iff in H as [H|[H|[]]]; [eauto|congruence]. }
          intros key' WK'. rewrite C2, lookup_snoc. pose proof (CK key' WK') as CK'.
          pose proof (CK key WK) as CK0. rewrite EL in CK0.
          destruct (lookup (results (snd (before s0 ops m))) key') as [v'|] eqn:EL'.
          { destruct CK' as [m' F]. eauto. }
          destruct (key_eqb key key') eqn:EK.
          -- apply key_eqb_same in EK; auto. exists m, kw, key. split; [lia|].
             split; [split; [split; auto|auto]|]. split; [exact EK|]. split; [exact EF|].
             intros m' kw' k' v'' H S. eauto.
          -- intros m' kw' k' v'' H S SK. destruct (UP _ _ _ _ H S) as [|(-> & E1 & E2 & E3)].
             ++ eapply CK'; eauto.
             ++ injection E1 as <-. rewrite EA in E3. injection E3 as <-.
                rewrite (proj2 (key_eqb_same key key' WK WK') SK) in EK. discriminate.
      + apply SAME; [discriminate|]. now rewrite R2.
  Qed.

  Lemma cache_inv m : m <= length ops -> cache_ok m.
  Proof.
    induction m as [|m IH]; intros H.
    - split; [intros k v []|]. intros key _. cbn. intros; lia.
    - apply cache_step; [lia|]. apply IH. lia.
  Qed.

  Theorem call_exact m kw r :
    happened ops rs m (Call kw) (Some r) ->
    match asked energies (W_ m) (O_ m) kw with
    | None => r = Err AttributeError
    | Some key =>
        (exists m' v, first_success m key m' v /\ r = Ok v) \/
        ((forall m' kw' k' v', m' < m -> success m' kw' k' v' -> ~ same_kw k' key) /\
         r = func (W_ m) (O_ m) kw)
    end.
  Proof.
    intros H. assert (Lm : m < length ops) by (destruct H as [H _]; apply nth_error_Some; congruence).
    assert (C : cache_ok m) by (apply cache_inv; lia).
    destruct (cache_step m Lm C) as [S _]. specialize (S kw r H).
    destruct (asked energies (W_ m) (O_ m) kw) as [key|] eqn:EA; [|exact S].
    assert (WK : wf_kw key).
    { eapply asked_wf; [apply (energies_wf m)| |exact EA]. apply proper. destruct H as [H _]. eapply nth_error_In; eauto. }
    destruct C as [_ CK]. specialize (CK key WK).
    destruct (lookup _ key) as [v|].
    - left. destruct CK as [m' F]. exists m', v. auto.
    - right. auto.
  Qed.

  (** At the calls of the history, the method depends only on what is asked for. *)
  Definition by_key : Prop := forall m kw k m' kw' k',
    nth_error ops m = Some (Call kw) -> nth_error ops m' = Some (Call kw') ->
    asked energies (W_ m) (O_ m) kw = Some k -> asked energies (W_ m') (O_ m') kw' = Some k' ->
    same_kw k k' -> func (W_ m) (O_ m) kw = func (W_ m') (O_ m') kw'.

  Theorem transparent m kw r : by_key ->
    happened ops rs m (Call kw) (Some r) -> asked energies (W_ m) (O_ m) kw <> None ->
    r = func (W_ m) (O_ m) kw.
  Proof.
    intros B H N. pose proof (call_exact m kw r H) as C.
    destruct (asked energies (W_ m) (O_ m) kw) as [key|] eqn:EA; [|congruence].
    destruct C as [(m' & v & (kw' & k & _ & [S1 S2] & S & F & _) & ->)|[_ C]]; [|exact C].
    rewrite <- F. destruct S1 as [S1 _], H as [H _]. eapply B; eauto.
  Qed.
End History.

(** ** The rate constants *)
Lemma rel_of_ext e e' : (forall n, dget e n = dget e' n) -> rel_of e = rel_of e'.
Proof. intros H. unfold rel_of, dmem, dindex. now rewrite !H. Qed.

(** With the energies given, or None, the rate constants depend only on what is asked for, for
    solvers with the same owner data. *)
Lemma rate_constants_by_key (sv : solver) (own own' : dict (list R)) kw kw' :
  dmem kw (L "relative_energies") = true -> dmem kw' (L "relative_energies") = true ->
  own <> [] -> own' <> [] ->
  (forall e, In (L "relative_energies", AEnergies e) kw -> e <> []) ->
  (forall e, In (L "relative_energies", AEnergies e) kw' -> e <> []) ->
  (forall a, dget kw (L "relative_energies") = Some a -> a = ANone \/ exists e, a = AEnergies e) ->
  (forall a, dget kw' (L "relative_energies") = Some a -> a = ANone \/ exists e, a = AEnergies e) ->
  same_kw (filled own kw) (filled own' kw') ->
  rate_constants_of (fun _ => own) (Some sv) kw = rate_constants_of (fun _ => own') (Some sv) kw'.
Proof.
  intros M M' N N' E E' A A' S. specialize (S (L "relative_energies")). rewrite !filled_get in S.
  unfold dmem in M, M'. unfold rate_constants_of.
  assert (G : forall o k, o <> [] -> (forall e, In (L "relative_energies", AEnergies e) k -> e <> []) ->
     (forall a, dget k (L "relative_energies") = Some a -> a = ANone \/ exists e, a = AEnergies e) ->
     dget k (L "relative_energies") <> None ->
     exists e, dget (filled o k) (L "relative_energies") = Some (AEnergies e) /\
       rate_constants_of (fun _ => o) (Some sv) k =
       (do r <- rel_of e; rate_constants (sv_ec sv) (sv_owner sv) (sv_algo sv) (Some r) None)).
  { intros o k No Ek Ak Hk. rewrite filled_get. unfold rate_constants_of.
    destruct (dget k (L "relative_energies")) as [a|] eqn:G; [|congruence].
    destruct (Ak a eq_refl) as [->|[e ->]].
    - rewrite str_eqb_refl. exists o. split; auto. now destruct o.
    - exists e. split; auto. apply dget_In in G. specialize (Ek _ G). now destruct e. }
  destruct (G own kw N E A) as (e & G1 & G2); [now destruct (dget kw _)|].
  destruct (G own' kw' N' E' A') as (e' & G1' & G2'); [now destruct (dget kw' _)|].
  unfold rate_constants_of in G2, G2'. rewrite G2, G2'. rewrite filled_get in G1, G1'.
  rewrite G1, G1' in S. cbn in S. now rewrite (rel_of_ext e e' S).
Qed.

Section Keyed.
  Variable sv : nat -> solver.
  Hypothesis alike : forall i j, sv i = sv j.
  Variable w0 : nat -> dict (list R).
  Variable ops : list (op nat (nat -> dict (list R))).
  Hypothesis proper_energies : forall w, (w = w0 \/ In (World w) ops) ->
    forall i, w i <> [] /\ NoDup (map fst (w i)).
  Hypothesis calls : forall m kw, nth_error ops m = Some (Call kw) ->
    keyed kw /\ object_at None ops m <> None.

  Lemma world_at_in m : world_at w0 ops m = w0 \/ In (World (world_at w0 ops m)) ops.
  Proof.
    clear proper_energies calls. revert w0 m. induction ops as [|x t IH]; intros w [|m]; auto.
    destruct x as [i|kw|w1]; cbn [world_at].
    - destruct (IH w m) as [E|E]; [now left|right; now right].
    - destruct (IH w m) as [E|E]; [now left|right; now right].
    - right. destruct (IH w1 m) as [E|E]; [rewrite E; now left|now right].
  Qed.

  Theorem keyed_transparent m kw r :
    happened ops (fst (run own_energies (method sv) (w0, empty) ops)) m (Call kw) (Some r) ->
    r = method sv (world_at w0 ops m) (object_at None ops m) kw.
  Proof.
    intros H.
    assert (EW : forall m j, NoDup (map fst (own_energies (world_at w0 ops m) j))).
    { intros m' j. apply proper_energies, world_at_in. }
    eapply (transparent own_energies (method sv) w0 ops); eauto.
    - intros kw' I. apply In_nth_error in I as [n I]. apply (calls n kw' I).
    - intros m1 kw1 k1 m2 kw2 k2 E1 E2 A1 A2 S.
      destruct (calls _ _ E1) as [[K1 (a1 & D1 & F1)] O1], (calls _ _ E2) as [[K2 (a2 & D2 & F2)] O2].
      destruct (object_at None ops m1) as [j1|]; [|congruence].
      destruct (object_at None ops m2) as [j2|]; [|congruence].
      cbn in A1, A2. injection A1 as <-. injection A2 as <-.
      unfold method. rewrite (alike j2 j1). unfold own_energies in S.
      assert (P1 := proper_energies _ (world_at_in m1) j1).
      assert (P2 := proper_energies _ (world_at_in m2) j2).
      assert (G : forall k, keyed k -> dmem k (L "relative_energies") = true /\
        (forall e, In (L "relative_energies", AEnergies e) k -> e <> []) /\
        (forall a, dget k (L "relative_energies") = Some a -> a = ANone \/ exists e, a = AEnergies e)).
      { intros k [[N _] (a & D & F)]. split; [unfold dmem; now rewrite D|]. split.
        - intros e I. apply In_dget in I; [|exact N]. rewrite D in I. injection I as ->.
          destruct F as [F|(e' & N' & F)]; [discriminate|]. injection F as ->. exact N'.
        - intros a' D'. rewrite D in D'. injection D' as <-. destruct F as [F|(e & _ & F)]; eauto. }
      destruct (G kw1) as (X1 & Y1 & Z1); [split; eauto|].
      destruct (G kw2) as (X2 & Y2 & Z2); [split; eauto|].
      apply (rate_constants_by_key (sv j1) (world_at w0 ops m1 j1) (world_at w0 ops m2 j2)); tauto.
    - destruct H as [H _]. destruct (calls _ _ H) as [_ O]. unfold asked.
      destruct (object_at None ops m); congruence.
  Qed.
End Keyed.

(** The method. *)
Lemma method_uses sv w j kw e a b c :
  (e <> [] /\ dget kw (L "relative_energies") = Some (AEnergies e)) \/
  (e <> [] /\ e = w j /\ (dget kw (L "relative_energies") = None \/
     exists x, dget kw (L "relative_energies") = Some x /\
       (x = ANone \/ x = AEnergies [] \/ x = ABool false \/ x = AStr []))) ->
  dget e (L "Gaf") = Some a -> dget e (L "Gar") = Some b -> dget e (L "dG") = Some c ->
  method sv w (Some j) kw
  = rate_constants (sv_ec (sv j)) (sv_owner (sv j)) (sv_algo (sv j))
      (Some {| r_Gaf := a; r_Gar := b; r_dG := c |}) None.
Proof.
  intros H A B C.
  assert (G : rel_of e = Ok {| r_Gaf := a; r_Gar := b; r_dG := c |}).
  { unfold rel_of, dmem, dindex. rewrite A, B, C. reflexivity. }
  unfold method, rate_constants_of. destruct H as [[N ->]|(N & E & H)].
  - destruct e as [|x e]; [congruence|]. now rewrite G.
  - rewrite <- E. destruct e as [|x e]; [congruence|].
    destruct H as [->|(y & -> & [->|[->|[->| ->]]])]; now rewrite G.
Qed.

Lemma method_refuses sv w j kw :
  method sv w None kw = Err AttributeError /\
  (w j = [] -> dget kw (L "relative_energies") = None \/ dget kw (L "relative_energies") = Some ANone ->
   method sv w (Some j) kw = Err AttributeError) /\
  (forall e, e <> [] -> dget kw (L "relative_energies") = Some (AEnergies e) ->
     (dget e (L "Gar") = None -> method sv w (Some j) kw = Err ParameterError) /\
     (dget e (L "Gar") <> None -> dget e (L "Gaf") = None \/ dget e (L "dG") = None ->
      method sv w (Some j) kw = Err KeyError)) /\
  (forall s, s <> [] -> dget kw (L "relative_energies") = Some (AStr s) ->
     method sv w (Some j) kw = Err ParameterError) /\
  (dget kw (L "relative_energies") = Some (ABool true) -> method sv w (Some j) kw = Err TypeError).
Proof.
  unfold method, rate_constants_of. split; [reflexivity|]. split; [|split; [|split]].
  - intros -> [-> | ->]; reflexivity.
  - intros e N ->. destruct e as [|x e]; [congruence|]. unfold rel_of, dmem, dindex. split.
    + intros ->. reflexivity.
    + intros G H. destruct (dget (x :: e) (L "Gar")); [|congruence].
      destruct H as [-> | ->]; [reflexivity|]. destruct (dget (x :: e) (L "Gaf")); reflexivity.
  - intros s N ->. destruct s; [congruence|reflexivity].
  - intros ->. reflexivity.
Qed.
