(** Concrete process definitions for the properties of process generation. *)
From Coq Require Import String Ascii List ZArith NArith Bool Arith QArith Qabs Lia.
Import ListNotations.
From Verif Require Import PyBase PyBaseFacts Kmc_Model Kmc_Spec Kmc_Proofs.
Local Open Scope list_scope.
Local Open Scope nat_scope.

Definition w_owner : owner nat :=
  {| rxn_expressions := [L "CO_g + *_t -> CO_t"];
     possible_element_types := [L "V"; L "CO"];
     rate_algo := L "CT";
     rates_CT := fun _ => Ok (10, 3);
     rates_TST := fun _ => Ok (7, 5) |}.

Definition w_coords : list (list Q) := [[0; 0; 0]; [1 # 2; 0; 0]]%Q.

(** Two basis sites, one set of two coordinates. *)
Definition w_def (before after : pv) (extra : dict pv) : dict pv :=
  [(L "reaction", PStr (L "CO_g + *_t -> CO_t"));
   (L "coordinates_group", PList [PList (map (fun c => PList (map PFloat c)) w_coords)]);
   (L "elements_before", before);
   (L "elements_after", after);
   (L "basis_sites", PList [PInt 0; PInt 1])] ++ extra.

Definition w_vacant : list str := [L "V"; L "*"].
Definition w_filled : list str := [L "CO"; L "*"].

Definition w_pdef : pdef :=
  {| d_reaction := L "CO_g + *_t -> CO_t"; d_group := [w_coords];
     d_before := w_vacant; d_after := w_filled; d_sites := [PInt 0; PInt 1] |}.

Definition w_ads : dict pv := w_def (PList (map PStr w_vacant)) (PList (map PStr w_filled)) [].
Definition w_slow_redist : dict pv :=
  w_def (PList (map PStr w_vacant)) (PList (map PStr w_filled)) [(L "redist", PBool true)].
Definition w_mixed : dict pv := w_def (PList (map PStr w_vacant)) (PTuple (map PStr w_filled)) [].
Definition w_unknown : dict pv := w_def (PList (map PStr w_vacant)) (PList [PStr (L "O"); PStr (L "*")]) [].

Lemma w_wf : well_formed w_pdef.
Proof.
  constructor; cbn.
  - intros cs c [<-|[]] [<-|[<-|[]]]; reflexivity.
  - intros cs i j a b [<-|[]] Hij Hi Hj.
    destruct i as [|[|i]], j as [|[|j]]; cbn in Hi, Hj; try lia;
      try (destruct i; discriminate); try (destruct j; discriminate).
    injection Hi as <-. injection Hj as <-. exists 0, 0%Q, (1 # 2)%Q. repeat split.
  - intros cs [<-|[]]; reflexivity.
  - intros cs [<-|[]]; reflexivity.
  - intros s [<-|[<-|[]]]; left; eexists; reflexivity.
Qed.

Lemma w_describes v v' extra :
  seq_of v (map PStr w_vacant) -> seq_of v' (map PStr w_filled) -> describes (w_def v v' extra) w_pdef.
Proof.
  intros H H'. constructor; cbn.
  - reflexivity.
  - eexists; split; [reflexivity|left; reflexivity].
  - eexists; split; [reflexivity|exact H].
  - eexists; split; [reflexivity|exact H'].
  - eexists; split; [reflexivity|left; reflexivity].
Qed.

Lemma w_known : known_elements w_owner w_pdef.
Proof. intros e [[<-|[<-|[]]]|[<-|[<-|[]]]]; cbn; auto. Qed.

Lemma w_ads_accepted : accepted w_owner w_ads (labelled w_ads w_pdef 10 3 false false).
Proof.
  exists w_pdef, 10, 3, false, false. split; [apply w_describes; left; reflexivity|].
  split; [exact w_wf|]. split; [left; do 2 eexists; split; reflexivity|].
  split; [left; reflexivity|]. split; [exact w_known|]. split; [left; split; reflexivity|].
  repeat split.
Qed.

Lemma w_ads_not_redist : ~ slow_redistribution w_ads.
Proof. intros [_ H]. discriminate H. Qed.

Lemma w_slow_redist_accepted :
  accepted w_owner w_slow_redist (labelled w_slow_redist w_pdef 10 3 false true).
Proof.
  exists w_pdef, 10, 3, false, true. split; [apply w_describes; left; reflexivity|].
  split; [exact w_wf|]. split; [left; do 2 eexists; split; reflexivity|].
  split; [left; reflexivity|]. split; [exact w_known|]. split; [left; split; reflexivity|].
  split; [reflexivity|]. split; [|reflexivity].
  unfold flag. cbn. split; [discriminate|].
  intros [H|[H|[H|[(q & H & _)|[H|[H|H]]]]]]; discriminate.
Qed.

Lemma w_mixed_kinds : ~ same_kind w_mixed.
Proof. intros [(a & b & _ & H)|(a & b & H & _)]; discriminate. Qed.

Lemma w_unknown_rejected : get_single_process w_owner w_unknown = Err SetupError.
Proof. reflexivity. Qed.
