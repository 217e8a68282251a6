(** The constructor of the solver can always sort the adsorbates of parsed reactions by site. *)
From Coq Require Import String Ascii List ZArith Bool Reals.
Import ListNotations.
From Verif Require Import PyBase PyBaseFacts Rxn_Model Species_Model PyReal MF_Model MF_Spec MF_Cover.
Local Open Scope list_scope.

Lemma all_given {A} (v : A) (names : list str) n :
  In n names -> exists x, dget (map (fun k => (k, v)) names) n = Some x.
Proof.
  induction names as [|m names IH]; [intros []|]. cbn [map dget]. intros [->|H].
  - rewrite str_eqb_refl. eauto.
  - destruct (str_eqb n m); eauto.
Qed.

Lemma sorted_ok s : parse_rxns (s_exprs s) = Ok (s_lists s) ->
  exists cl, classify s = Ok cl /\ map fst cl = sites s /\
    forall n, In n (ads s) -> exists names, dget cl (site_tag n) = Some names /\ In n names.
Proof.
  intros P.
  set (z := {| n_text := []; n_val := 0%R |}).
  set (s' := {| s_exprs := s_exprs s; s_lists := s_lists s;
                s_total := map (fun k => (k, z)) (l_site (s_lists s));
                s_pressure := map (fun k => (k, 0%R)) (l_gas (s_lists s));
                s_conc := map (fun k => (k, 0%R)) (l_liq (s_lists s)) |}).
  destruct (classify_exact s') as (cl & E & K & _ & _ & N).
  { split; [exact P|]. split; [|split]; intros n H; now apply all_given. }
  exists cl. split; [exact E|]. split; [exact K|exact N].
Qed.
