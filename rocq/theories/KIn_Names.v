(** Lemmas: the names under which the inputs of a simulation are stored (C69). *)
From Coq Require Import String Ascii List ZArith Bool Arith.
Import ListNotations.
From Verif Require Import PyBase PyBaseFacts Kmc_Model KIn_Model KIn_Spec KIn_Proofs.
Local Open Scope list_scope.
Local Open Scope nat_scope.

Section Worlds.
Context {E PD La Cf Sm : Type}.
Notation world := (world E PD La Cf Sm).
Notation model := (model E PD Cf Sm).

Lemma stored_names (w : world) o pf cf sf (m : model) en p c s :
  w_energies w (m_energies m) = (en, Ok tt) -> inputs_end w o pf cf sf (Ok (p, c, s)) ->
  let m' := fst (parse_data w o pf cf sf m) in
  let name := fun text => L "_" ++ k_class o ++ L text in
  dget (m_attrs m') (name "__process_dicts"%string) = Some (AProcesses p) /\
  dget (m_attrs m') (name "__configuration"%string) = Some (AConfiguration c) /\
  dget (m_attrs m') (name "__sitesmap"%string) = Some (ASitesmap s) /\
  (forall n, n <> name "__process_dicts"%string -> n <> name "__configuration"%string ->
    n <> name "__sitesmap"%string -> dget (m_attrs m') n = dget (m_attrs m) n).
Proof.
  intros H Hi m' name. subst m'. unfold parse_data. rewrite H. apply inputs_iff in Hi. rewrite Hi.
  cbn [fst m_attrs].
  change (name "__process_dicts"%string) with (mangled_name (k_class o) (L "process_dicts")).
  change (name "__configuration"%string) with (mangled_name (k_class o) (L "configuration")).
  change (name "__sitesmap"%string) with (mangled_name (k_class o) (L "sitesmap")).
  rewrite !dget_dset, !str_eqb_refl.
  rewrite ?(str_eqb_neq _ _ (m_pc _ _)), ?(str_eqb_neq _ _ (m_ps _ _)), ?(str_eqb_neq _ _ (m_cs _ _)),
    ?(str_eqb_neq _ _ (not_eq_sym (m_pc _ _))), ?(str_eqb_neq _ _ (not_eq_sym (m_ps _ _))),
    ?(str_eqb_neq _ _ (not_eq_sym (m_cs _ _))).
  repeat (split; [reflexivity|]). intros n N1 N2 N3. rewrite !dget_dset.
  rewrite ?(str_eqb_neq _ _ N1), ?(str_eqb_neq _ _ N2), ?(str_eqb_neq _ _ N3),
    ?(str_eqb_neq _ _ (not_eq_sym N1)), ?(str_eqb_neq _ _ (not_eq_sym N2)), ?(str_eqb_neq _ _ (not_eq_sym N3)).
  reflexivity.
Qed.
End Worlds.
