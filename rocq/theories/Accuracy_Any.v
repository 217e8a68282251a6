(** Lemmas: vectors of coverages of any length (C25, C119). *)
From Coq Require Import String Ascii List ZArith Bool Arith Reals Lia Lra.
Import ListNotations.
From Verif Require Import PyBase PyBaseFacts Rxn_Model Rxn_Spec Species_Model Species_Spec PyReal MF_Model MF_Spec MF_Cover
  Hop_Spec Newton_Model Steady_Model Steady_Spec Steady_Proofs Accuracy_Spec Accuracy_Proofs.
Local Open Scope list_scope.
Local Open Scope R_scope.

Lemma nth_error_first {A} : forall n (l : list A) i, (i < n)%nat -> nth_error (firstn n l) i = nth_error l i.
Proof.
  induction n as [|n IH]; intros l i H; [lia|]. destruct l as [|x l]; [now destruct i|].
  destruct i as [|i]; [reflexivity|]. cbn. apply IH. lia.
Qed.

Lemma ads_loop_first all cvgs : forall names d,
  ads_loop names all cvgs d = ads_loop names all (firstn (length all) cvgs) d.
Proof.
  induction names as [|n names IH]; intro d; cbn [ads_loop]; [reflexivity|].
  destruct (index_of n all) as [i|] eqn:E; [|reflexivity]. apply index_of_Some in E.
  assert (i < length all)%nat by (apply nth_error_Some; congruence).
  unfold lindex. rewrite nth_error_first by assumption. destruct (nth_error cvgs i); cbn [bind]; [apply IH|reflexivity].
Qed.

Lemma tuple2dict_first s cl cvgs : tuple2dict s cl cvgs = tuple2dict s cl (firstn (length (ads s)) cvgs).
Proof. unfold tuple2dict. change (length (ads s)) with (length (l_ads (s_lists s))). now rewrite ads_loop_first. Qed.

Lemma any_length : forall s ks data cvgs, prepared s ->
  (length cvgs < length (ads s) /\ rates s ks data cvgs = Err IndexError /\
   steady_state_function s ks data cvgs = Err IndexError)%nat \/
  (length (ads s) <= length cvgs /\
   rates s ks data cvgs = rates s ks data (firstn (length (ads s)) cvgs) /\
   steady_state_function s ks data cvgs = steady_state_function s ks data (firstn (length (ads s)) cvgs))%nat.
Proof.
  intros s ks data cvgs P. destruct (le_lt_dec (length (ads s)) (length cvgs)) as [H|H].
  - right. split; [exact H|]. split.
    + unfold rates. destruct (classify s) as [cl|]; cbn [bind]; [|reflexivity]. now rewrite tuple2dict_first.
    + unfold steady_state_function. destruct (classify s) as [cl|]; cbn [bind]; [|reflexivity]. now rewrite tuple2dict_first.
  - left. destruct (short_vector s cvgs P H) as (cl & C & T). split; [exact H|].
    unfold rates, steady_state_function. rewrite C. cbn [bind]. rewrite T. split; reflexivity.
Qed.

Lemma search_any : forall s, usable_setup s -> forall l, only_hops s l ->
  (forall site, In site (sites s) -> 0 <= total s site <= 1) -> supplied (Rlt 0) s -> linked s l ->
  forall kf kr, length kf = length (s_exprs s) -> length kr = length (s_exprs s) ->
  (forall a, In a kf -> 0 < a) -> (forall b, In b kr -> 0 < b) ->
  exists data c0 C, get_data s = Ok data /\ feasible s c0 /\ steady_within s kf kr data 0 c0 /\ 0 <= C /\
    forall I (q : search I) fuel guess a st, q_f q = steady_state_function s (Ok (kf, kr)) (Some data) ->
      get_steady_state_cvgs q fuel guess = (Ok (Some a), st) ->
      exists x, a_coverages a = Some x /\ close (C * q_tolerance q) (firstn (length (ads s)) x) c0.
Proof.
  intros s U l HL HT HS HK kf kr L1 L2 P1 P2.
  destruct (accuracy s U l HL HT HS HK kf kr L1 L2 P1 P2) as (data & c0 & C & D & Fe & Z & PC & H).
  exists data, c0, C. repeat (split; [assumption|]).
  intros I q fuel guess a st Eq S.
  apply (search_result q (fun _ => True)) in S; [|intros; exact Logic.I|intros; exact Logic.I].
  destruct S as (_ & x & E & S).
  assert (Wi : residual_within (q_f q) x (q_tolerance q)).
  { destruct S as [[_ W]|((v & A1 & A2 & A3) & _)]; [exact W|]. exists v. split; [exact A1|]. split; [exact A2|].
    intros d Hd. left. auto. }
  exists x. split; [exact E|]. destruct Wi as (v & A1 & A2 & A3). rewrite Eq in A1.
  destruct (any_length s (Ok (kf, kr)) (Some data) x (proj1 U)) as [(_ & _ & B)|(Len & _ & B)]; [congruence|].
  rewrite B in A1. apply H.
  - destruct v as [|d v]; [congruence|]. eapply Rle_trans; [apply Rabs_pos|apply (A3 d); now left].
  - split; [rewrite firstn_length; lia|]. exists v. auto.
Qed.
