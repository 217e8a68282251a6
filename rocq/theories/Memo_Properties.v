(** Property C48: the cache of method results.  Vocabulary: Memo_Spec.v. *)
From Coq Require Import String Ascii List ZArith Bool Reals Lia Lra.
From Verif Require Import PyBase PyBaseFacts Energy_Model Rate_Model MF_Model SS_Model Memo_Model Memo_Spec Memo_Proofs Memo_Witness.
Import ListNotations.
Local Open Scope list_scope.
Local Open Scope nat_scope.

(** Every call, exactly: it returns what the first successful call with the same arguments
    computed (None for the energies replaced by those of the owner of the object at hand), for
    the object and the world of that moment; without such a call the value of the method for
    the object looked up last. *)
Theorem C48_exact : forall (I W V : Type) (energies : W -> I -> dict (list R))
    (func : W -> option I -> dict arg -> res V) (w0 : W) (ops : list (op I W)),
  (forall kw, In (Call kw) ops -> wf_kw kw) ->
  (forall m j, NoDup (map fst (energies (world_at w0 ops m) j))) ->
  let rs := fst (run energies func (w0, empty) ops) in
  let good m kw k v := happened ops rs m (Call kw) (Some (Ok v)) /\
                       asked energies (world_at w0 ops m) (object_at None ops m) kw = Some k in
  forall m kw r, happened ops rs m (Call kw) (Some r) ->
  match asked energies (world_at w0 ops m) (object_at None ops m) kw with
  | None => r = Err AttributeError
  | Some key =>
      (exists m' v kw' k, m' < m /\ good m' kw' k v /\ same_kw k key /\ r = Ok v /\
         func (world_at w0 ops m') (object_at None ops m') kw' = Ok v /\
         forall m'' kw'' k'' v'', m'' < m' -> good m'' kw'' k'' v'' -> ~ same_kw k'' key) \/
      ((forall m' kw' k' v', m' < m -> good m' kw' k' v' -> ~ same_kw k' key) /\
       r = func (world_at w0 ops m) (object_at None ops m) kw)
  end.
Proof.
  intros I W V energies func w0 ops P E rs good m kw r H.
  pose proof (call_exact energies func w0 ops P E m kw r H) as C.
  destruct (asked energies (world_at w0 ops m) (object_at None ops m) kw) as [key|]; [|exact C].
  destruct C as [(m' & v & (kw' & k & A & B & C & D & F) & G)|C]; [left|right; exact C].
  exists m', v, kw', k. repeat (split; [assumption|]). exact F.
Qed.
Print Assumptions C48_exact.

(** So the cache cannot be noticed if at the calls of the history the value depends only on the
    arguments. *)
Theorem C48_transparent_partial : forall (I W V : Type) (energies : W -> I -> dict (list R))
    (func : W -> option I -> dict arg -> res V) (w0 : W) (ops : list (op I W)),
  (forall kw, In (Call kw) ops -> wf_kw kw) ->
  (forall m j, NoDup (map fst (energies (world_at w0 ops m) j))) ->
  (forall m kw k m' kw' k',
     nth_error ops m = Some (Call kw) -> nth_error ops m' = Some (Call kw') ->
     asked energies (world_at w0 ops m) (object_at None ops m) kw = Some k ->
     asked energies (world_at w0 ops m') (object_at None ops m') kw' = Some k' ->
     same_kw k k' ->
     func (world_at w0 ops m) (object_at None ops m) kw
     = func (world_at w0 ops m') (object_at None ops m') kw') ->
  forall m kw r,
  happened ops (fst (run energies func (w0, empty) ops)) m (Call kw) (Some r) ->
  asked energies (world_at w0 ops m) (object_at None ops m) kw <> None ->
  r = func (world_at w0 ops m) (object_at None ops m) kw.
Proof. intros I W V energies func w0 ops P E B m kw r. exact (transparent energies func w0 ops P E m kw r B). Qed.
Print Assumptions C48_transparent_partial.

(** The rate constants: any number of solvers whose owners agree in everything but the energies,
    which may change at any time; every call has the argument [relative_energies].  Then every
    call returns what the method computes for that solver now.  Missing: owners that differ, and
    calls without the argument, for which it is false (below). *)
Theorem C48_rate_constants_partial : forall sv, (forall i j : nat, sv i = sv j) ->
  forall w0 ops,
  (forall w, w = w0 \/ In (World w) ops -> forall i, w i <> [] /\ NoDup (map fst (w i))) ->
  (forall m kw, nth_error ops m = Some (Call kw) -> keyed kw /\ object_at None ops m <> None) ->
  forall m kw r,
  happened ops (fst (run own_energies (method sv) (w0, empty) ops)) m (Call kw) (Some r) ->
  r = method sv (world_at w0 ops m) (object_at None ops m) kw.
Proof. exact keyed_transparent. Qed.
Print Assumptions C48_rate_constants_partial.

(** The method itself: which energies it uses. *)
Theorem C48_method : forall sv w j kw e a b c,
  (e <> [] /\ dget kw (L "relative_energies") = Some (AEnergies e)) \/
  (e <> [] /\ e = w j /\ (dget kw (L "relative_energies") = None \/
     exists x, dget kw (L "relative_energies") = Some x /\
       (x = ANone \/ x = AEnergies [] \/ x = ABool false \/ x = AStr []))) ->
  dget e (L "Gaf") = Some a -> dget e (L "Gar") = Some b -> dget e (L "dG") = Some c ->
  method sv w (Some j) kw
  = rate_constants (sv_ec (sv j)) (sv_owner (sv j)) (sv_algo (sv j))
      (Some {| r_Gaf := a; r_Gar := b; r_dG := c |}) None.
Proof. exact method_uses. Qed.
Print Assumptions C48_method.

(** What it refuses: no object; no energies; energies without barriers; a name missing; a text; True. *)
Theorem C48_method_refusals : forall sv w j kw,
  method sv w None kw = Err AttributeError /\
  (w j = [] -> dget kw (L "relative_energies") = None \/ dget kw (L "relative_energies") = Some ANone ->
   method sv w (Some j) kw = Err AttributeError) /\
  (forall e, e <> [] -> dget kw (L "relative_energies") = Some (AEnergies e) ->
     (dget e (L "Gar") = None -> method sv w (Some j) kw = Err ParameterError) /\
     (dget e (L "Gar") <> None -> dget e (L "Gaf") = None \/ dget e (L "dG") = None ->
      method sv w (Some j) kw = Err KeyError)) /\
  (forall s, s <> [] -> dget kw (L "relative_energies") = Some (AStr s) ->
     method sv w (Some j) kw = Err ParameterError) /\
  (dget kw (L "relative_energies") = Some (ABool true) -> method sv w (Some j) kw = Err TypeError).
Proof. exact method_refuses. Qed.
Print Assumptions C48_method_refusals.

Example C48_method_example : exists e a b c,
  e <> [] /\ dget (with_energies 0) (L "relative_energies") = Some (AEnergies e) /\
  dget e (L "Gaf") = Some a /\ dget e (L "Gar") = Some b /\ dget e (L "dG") = Some c.
Proof. do 4 eexists. split; [|split; [reflexivity|split; [reflexivity|split; reflexivity]]]. discriminate. Qed.

Example C48_example :
  (forall i j, same_solvers i = same_solvers j) /\
  (forall w, w = flat 0 \/ In (World w) changing -> forall i, w i <> [] /\ NoDup (map fst (w i))) /\
  (forall m kw, nth_error changing m = Some (Call kw) -> keyed kw /\ object_at None changing m <> None) /\
  world_at (flat 0) changing 4 = flat 1 /\
  method same_solvers (flat 0) (Some 0) with_none <> method same_solvers (flat 1) (Some 1) with_none.
Proof.
  split; [reflexivity|]. split; [|split; [|split; [reflexivity|]]].
  - intros w H i.
    assert (exists x, w = flat x) as [x ->].
    { destruct H as [->|H]; [eauto|]. unfold changing in H. cbn [In] in H.
      repeat (destruct H as [H|H]; [try discriminate|]); try tauto. injection H as <-. eauto. }
    split; [discriminate|apply energies_at_keys].
  - intros m kw E. split; [apply changing_keyed; eapply nth_error_In; eauto|].
    destruct m as [|[|[|[|[|[|m]]]]]]; cbn in E; try discriminate. destruct m; discriminate.
  - rewrite (method_value same_solvers (flat 0) 0 300 0 with_none), (method_value same_solvers (flat 1) 1 300 1 with_none);
      try reflexivity; try lra.
    + intros E. injection E as E. now apply k_at_energy.
    + right. split; [now right|reflexivity].
    + right. split; [now right|reflexivity].
Qed.

(** Refuted: two models at different temperatures with the same energies.  The second gets the
    rate constants of the first. *)
Theorem C48_temperature_refuted : exists sv w0 ops m kw r,
  happened ops (fst (run own_energies (method sv) (w0, empty) ops)) m (Call kw) (Some r) /\
  r <> method sv (world_at w0 ops m) (object_at None ops m) kw /\ keyed kw.
Proof.
  exists two_solvers, (flat 0), two_temperatures, 3, (with_energies 0). eexists. split.
  - split; [reflexivity|]. rewrite two_temperatures_run. reflexivity.
  - split.
    + cbn [two_temperatures world_at object_at].
      rewrite (method_value two_solvers (flat 0) 1 600 0); [|lra|reflexivity|left; reflexivity].
      intros E. injection E as E. revert E. apply k_at_differ. lra.
    + split; [apply with_energies_wf|]. eexists. split; [reflexivity|]. right. eexists. split; [|reflexivity]. discriminate.
Qed.
Print Assumptions C48_temperature_refuted.

(** Refuted: a call without arguments after the energies of the model have changed. *)
Theorem C48_no_argument_refuted : exists sv w0 ops m r,
  (forall i j : nat, sv i = sv j) /\
  happened ops (fst (run own_energies (method sv) (w0, empty) ops)) m (Call []) (Some r) /\
  r <> method sv (world_at w0 ops m) (object_at None ops m) [].
Proof.
  exists same_solvers, (flat 0), no_argument, 4. eexists. split; [reflexivity|]. split.
  - split; [reflexivity|]. rewrite no_argument_run. reflexivity.
  - cbn [no_argument world_at object_at].
    rewrite (method_value same_solvers (flat 1) 0 300 1); [|lra|reflexivity|right; split; [now left|reflexivity]].
    intros E. injection E as E. revert E. apply k_at_energy.
Qed.
Print Assumptions C48_no_argument_refuted.

(** Refuted: the method of one solver, kept in a variable, computes with another solver in which
    the method was looked up later. *)
Theorem C48_bound_method_refuted : exists sv w0 ops kw r,
  ops = [Access (Some 0); Access (Some 1); Call kw] /\
  happened ops (fst (run own_energies (method sv) (w0, empty) ops)) 2 (Call kw) (Some r) /\
  r <> method sv w0 (Some 0) kw.
Proof.
  exists two_solvers, (flat 0), two_lookups, (with_energies 0). eexists. split; [reflexivity|]. split.
  - split; [reflexivity|]. rewrite two_lookups_run. reflexivity.
  - rewrite (method_value two_solvers (flat 0) 0 300 0); [|lra|reflexivity|left; reflexivity].
    intros E. injection E as E. revert E. apply k_at_differ. lra.
Qed.
Print Assumptions C48_bound_method_refuted.

(** Refuted: the derivative text of a rate equation.  The second model, with half the sites, gets
    the text of the first. *)
Theorem C48_derivation_refuted : exists ops m kw r,
  happened ops (fst (run (fun _ _ => []) (fun (_ : unit) => derivation_of) (tt, empty) ops)) m (Call kw) (Some r) /\
  r <> derivation_of (object_at None ops m) kw.
Proof.
  exists two_totals, 3, site_kw. eexists. split.
  - split; [reflexivity|]. vm_compute. reflexivity.
  - vm_compute. discriminate.
Qed.
Print Assumptions C48_derivation_refuted.
