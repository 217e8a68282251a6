(** C67: the degree of rate control. *)
From Coq Require Import String Ascii List Arith Bool Reals Lia Lra.
Import ListNotations.
From Verif Require Import PyBase PyReal Rate_Spec Xrc_Model Xrc_Spec Xrc_Proofs Xrc_Witness.
Local Open Scope list_scope.
Local Open Scope nat_scope.

(** The values. *)
Theorem C67_values : forall (W : Type) (q : tools W) gas eps given h w l w' e,
  let d := match given with Some d => d | None => t_own q end in
  NoDup (map fst d) -> view h d = Ok e -> complete e (t_rxns q) ->
  ((exists h', single_xrc q gas eps given h w = (Ok l, h', w')) <->
   rate_control q gas (match eps with Some x => x | None => t_size q end) d e w l w').
Proof. intros W q gas eps given h w l w' e. exact (single_ok q gas eps given h w l w' e). Qed.
Print Assumptions C67_values.

Example C67_values_hypotheses : NoDup (map fst apart) /\ separate apart /\ exists e, view lists apart = Ok e /\ complete e (t_rxns toy).
Proof. exact toy_hypotheses. Qed.
Example C67_values_example : forall x, (0 < x)%R -> exists h',
  single_xrc toy (L "g") (Some 1%R) (Some apart) lists (Some [x]) = (Ok [Num (1 / x * 4)%R], h', Some [x + 4]%R).
Proof. exact toy_apart. Qed.

(** Success needs both barriers for every reaction. *)
Theorem C67_needs : forall (W : Type) (q : tools W) gas eps given h w l h' w' e,
  view h (match given with Some d => d | None => t_own q end) = Ok e ->
  single_xrc q gas eps given h w = (Ok l, h', w') -> 0 < t_rxns q -> complete e (t_rxns q).
Proof. intros W q gas eps given h w l h' w' e. exact (single_needs q gas eps given h w l h' w' e). Qed.
Print Assumptions C67_needs.

Theorem C67_missing : forall (W : Type) (q : tools W) gas eps given h w e guess r w1 kfs w2,
  view h (match given with Some d => d | None => t_own q end) = Ok e ->
  t_stored q w = Some guess -> t_tof q (Some guess) e gas w = (Ok r, w1) -> t_constants q e w1 = (Ok kfs, w2) -> 0 < t_rxns q ->
  dget e (L "Gaf") = None \/ (exists f, dget e (L "Gaf") = Some f /\ f <> []) /\ dget e (L "Gar") = None ->
  exists h', single_xrc q gas eps given h w = (Err KeyError, h', w2).
Proof. intros W q gas eps given h w e guess r w1 kfs w2. exact (missing q gas eps given h w e guess r w1 kfs w2). Qed.
Print Assumptions C67_missing.

Example C67_missing_example : exists h',
  single_xrc toy (L "g") None (Some [(L "Gaf", 0)]) lists (Some [2]%R) = (Err KeyError, h', Some [2]%R).
Proof. exact toy_missing. Qed.

(** Every failure comes from the method that failed. *)
Theorem C67_errors : forall (W : Type) (q : tools W) gas eps given h w x h' w' e,
  let d := match given with Some d => d | None => t_own q end in
  let eps' := match eps with Some x => x | None => t_size q end in
  NoDup (map fst d) -> view h d = Ok e -> complete e (t_rxns q) ->
  single_xrc q gas eps given h w = (Err x, h', w') ->
  t_stored q w = None /\ x = AttributeError /\ w' = w \/
  exists guess, t_stored q w = Some guess /\
  (t_tof q (Some guess) e gas w = (Err x, w') \/
   exists r w1, t_tof q (Some guess) e gas w = (Ok r, w1) /\
   (t_constants q e w1 = (Err x, w') \/
    exists kfs w2 m l w3, t_constants q e w1 = (Ok kfs, w2) /\ m < t_rxns q /\
      controls q gas eps' d e guess r kfs 0 m w2 l w3 /\ stops q gas eps' d e guess kfs m w3 x w')).
Proof. intros W q gas eps given h w x h' w' e. exact (single_err q gas eps given h w x h' w' e). Qed.
Print Assumptions C67_errors.

(** A solver without coverages. *)
Theorem C67_no_coverages : forall (W : Type) (q : tools W) gas eps given h w, t_stored q w = None ->
  single_xrc q gas eps given h w = (Err AttributeError, h, w).
Proof. intros W q gas eps given h w. exact (no_coverages q gas eps given h w). Qed.
Print Assumptions C67_no_coverages.

(** The lists of the caller are never changed. *)
Theorem C67_energies_kept : forall (W : Type) (q : tools W) gas eps given h w o h' w' e,
  view h (match given with Some d => d | None => t_own q end) = Ok e ->
  single_xrc q gas eps given h w = (o, h', w') -> exists extra, h' = h ++ extra.
Proof. intros W q gas eps given h w o h' w' e. exact (single_frame q gas eps given h w o h' w' e). Qed.
Print Assumptions C67_energies_kept.

(** Which lists are raised. *)
Theorem C67_raised : forall d, separate d -> forall n,
  (n = L "Gaf" \/ n = L "Gar" -> (exists a, dget d n = Some a) -> times d n = 1) /\
  (n <> L "Gaf" -> n <> L "Gar" -> times d n = 0).
Proof. exact separate_times. Qed.
Print Assumptions C67_raised.

(** With one list for both barriers the perturbation is twice as large. *)
Theorem C67_alias_refuted : exists (q : tools (option (list R))) gas eps h w d d' e l l' h1 h2 w1 w2,
  view h d = Ok e /\ view h d' = Ok e /\ separate d /\
  single_xrc q gas eps (Some d) h w = (Ok l, h1, w1) /\ single_xrc q gas eps (Some d') h w = (Ok l', h2, w2) /\ l <> l'.
Proof. exact alias_differs. Qed.
Print Assumptions C67_alias_refuted.

(** The stored coverages afterwards are those of the last perturbed model. *)
Theorem C67_stored : forall (W : Type) (q : tools W) gas eps d e w l w',
  (forall c x w cv w', t_search q c x w = (Ok cv, w') -> t_stored q w' = cv) ->
  (forall x w o w', t_constants q x w = (o, w') -> t_stored q w' = t_stored q w) ->
  (forall c x g w o w', t_tof q c x g w = (o, w') -> t_stored q w' = t_stored q w) ->
  rate_control q gas eps d e w l w' -> 0 < t_rxns q ->
  exists guess e' w1 w2 cv, t_stored q w = Some guess /\ raised d (t_rxns q - 1) eps e e' /\
    t_search q guess e' w1 = (Ok cv, w2) /\ t_stored q w' = cv.
Proof. intros W q gas eps d e w l w'. exact (xrc_stored q gas eps d e w l w'). Qed.
Print Assumptions C67_stored.

(** A second call therefore starts elsewhere and gives other numbers. *)
Theorem C67_repeat_refuted : exists (q : tools (option (list R))) gas eps h w d l1 h1 w1 l2 h2 w2,
  (forall c x w cv w', t_search q c x w = (Ok cv, w') -> t_stored q w' = cv) /\
  single_xrc q gas eps (Some d) h w = (Ok l1, h1, w1) /\
  single_xrc q gas eps (Some d) h w1 = (Ok l2, h2, w2) /\ l1 <> l2 /\ t_stored q w1 <> t_stored q w.
Proof. exact twice_differs. Qed.
Print Assumptions C67_repeat_refuted.

(** A rate proportional to the constant has control 1, a rate that does not change has control 0. *)
Theorem C67_meaning : forall k r k' r', r <> 0%R -> k' <> k ->
  ((r' * k = r * k')%R -> is_control k r k' r' (Num 1)) /\ (r' = r -> is_control k r k' r' (Num 0)).
Proof. intros k r k' r' A B. split; [exact (proportional k r k' r' A B)|intros ->; exact (indifferent k r k' A B)]. Qed.
Print Assumptions C67_meaning.

(** With rate constants of transition state theory and a rate that depends on the constant alone, the
    number tends to the logarithmic derivative. *)
Theorem C67_limit : forall T Ga (g : R -> R) (dg : R), (0 < T)%R ->
  let k t := (frequency T * exp (- (Ga + t) / kT T))%R in
  derivable_pt_lim g (k 0%R) dg -> g (k 0%R) <> 0%R ->
  forall e, (0 < e)%R -> exists delta, (0 < delta)%R /\ forall eps x, eps <> 0%R -> (Rabs eps < delta)%R ->
    is_control (k 0%R) (g (k 0%R)) (k eps) (g (k eps)) x -> exists y, x = Num y /\ (Rabs (y - k 0%R * dg / g (k 0%R)) < e)%R.
Proof. exact tst_limit. Qed.
Print Assumptions C67_limit.
