(** Properties C15-C18: energies.  Vocabulary: Energy_Spec.v, Rxn_Spec.v. *)
From Coq Require Import String Ascii List ZArith Bool Reals Lra.
Import ListNotations.
From Verif Require Import PyBase PyBaseFacts Rxn_Model Rxn_Spec PyReal Energy_Model Energy_Spec
  Energy_Proofs.
Open Scope list_scope.

(** C15.  Reaction without transition state. *)
Theorem C15_two_states : forall ed e first last e0 e1,
  rxn_formula_list e = Ok [first; last] ->
  energy_is ed first e0 -> energy_is ed last e1 ->
  single_relative true ed e = Ok (Rmax 0 (e1 - e0), Rmax 0 (e0 - e1), e1 - e0)%R.
Proof. exact single_two. Qed.
Print Assumptions C15_two_states.

Theorem C15_three_states : forall ed e first middle last e0 e1 e2,
  rxn_formula_list e = Ok [first; middle; last] ->
  energy_is ed first e0 -> energy_is ed middle e1 -> energy_is ed last e2 ->
  single_relative true ed e = Ok (e1 - e0, e1 - e2, e2 - e0)%R.
Proof. exact single_three. Qed.
Print Assumptions C15_three_states.

(** Every reaction text for which energies come out. *)
Theorem C15_consistent : forall ed e gaf gar dg,
  single_relative true ed e = Ok (gaf, gar, dg) -> (gaf - gar = dg)%R.
Proof. exact single_consistent. Qed.
Print Assumptions C15_consistent.

Theorem C15_missing_species : forall ed e states fs,
  rxn_formula_list e = Ok states -> In fs states -> untabulated ed fs ->
  single_relative true ed e = Err KeyError.
Proof. exact single_missing. Qed.
Print Assumptions C15_missing_species.

(** The three lists of the model: one entry per reaction, computed from that reaction. *)
Theorem C15_lists : forall b ed es r,
  relative_from_absolute b ed es = Ok r ->
  entries r (length es) /\
  forall i e gaf gar dg, nth_error es i = Some e ->
    (entry r i gaf gar dg <-> single_relative b ed e = Ok (gaf, gar, dg)).
Proof. exact relative_from_absolute_entries. Qed.
Print Assumptions C15_lists.

Theorem C15_lists_error : forall b ed es er,
  relative_from_absolute b ed es = Err er ->
  exists e, In e es /\ single_relative b ed e = Err er.
Proof. exact relative_from_absolute_err. Qed.
Print Assumptions C15_lists_error.

Theorem C15_without_energies : forall ed e, single_relative false ed e = Err AttributeError.
Proof. exact single_no_abs. Qed.
Print Assumptions C15_without_energies.

(** Outside the claim: two empty sites written as one double site count once. *)
Theorem C15_double_site_refuted : exists ed st fs,
  state_formulas st = Ok fs /\ total_sites (L "s") fs = 2%Z /\
  dget ed (L "*_s") = Some 1%R /\ state_energy ed st = Ok 1%R.
Proof. exact double_site_energy. Qed.
Print Assumptions C15_double_site_refuted.

Definition example_energies : dict R :=
  [(L "CO_g", 1%R); (L "*_s", 0%R); (L "CO_s", (-2)%R); (L "O_s", 3%R); (L "CO-O_2s", 5%R);
   (L "CO2_g", (-4)%R)].

Example C15_example : exists first middle last,
  rxn_formula_list (L "CO_s + O_s <-> CO-O_2s -> CO2_g + 2*_s") = Ok [first; middle; last] /\
  energy_is example_energies first 1 /\ energy_is example_energies middle 5 /\
  energy_is example_energies last (-4).
Proof.
  do 3 eexists. split; [vm_compute; reflexivity|].
  split; [exists [(-2)%R; 3%R]|split; [exists [5%R]|exists [(-4)%R; 0%R]]];
    (split; [|unfold weigh; cbn; lra]).
  all: repeat (apply Forall2_cons || apply Forall2_nil); apply tab_check; reflexivity.
Qed.

(** C16 *)
Theorem C16_reversal : forall ed e e' gaf gar dg,
  rxn_revert e = Ok e' -> single_relative true ed e = Ok (gaf, gar, dg) ->
  single_relative true ed e' = Ok (gar, gaf, (- dg)%R).
Proof. exact single_revert. Qed.
Print Assumptions C16_reversal.

Theorem C16_reversal_error : forall ed e e' er,
  rxn_revert e = Ok e' -> single_relative true ed e = Err er ->
  exists er', single_relative true ed e' = Err er'.
Proof. exact revert_fails_too. Qed.
Print Assumptions C16_reversal_error.

Example C16_example : 
  rxn_revert (L "CO_g + *_s -> CO_s") = Ok (L "CO_s -> CO_g + *_s") /\
  single_relative true example_energies (L "CO_g + *_s -> CO_s") = Ok (0, 3, -3)%R.
Proof.
  split; [vm_compute; reflexivity|].
  replace (Ok (0, 3, -3)%R) with (Ok (Rmax 0 (-2 - 1), Rmax 0 (1 - -2), -2 - 1)%R).
  - eapply C15_two_states; [vm_compute; reflexivity| |].
    + exists [1%R; 0%R]. split; [|unfold weigh; cbn; lra].
      repeat (apply Forall2_cons || apply Forall2_nil); apply tab_check; reflexivity.
    + exists [(-2)%R]. split; [|unfold weigh; cbn; lra].
      repeat (apply Forall2_cons || apply Forall2_nil); apply tab_check; reflexivity.
  - rewrite Rmax_left, Rmax_right by lra. repeat f_equal; lra.
Qed.

(** C17.  [d] is the data used: that of the file, else that of the setup. *)
Definition data_used (file setup : option rel_data) : option rel_data :=
  match file with Some f => Some f | None => setup end.

Theorem C17_completion : forall file setup n st ga dg d,
  data_used file setup = Some d ->
  d_Ga d = Some ga -> d_dG d = Some dg -> length ga = n -> length dg = n ->
  exists r, rel_parse_data file setup n st
    = ({| es_rel := Some r; es_has_rel := true; es_abs := es_abs st; es_has_abs := es_has_abs st |}, Ok tt) /\
    entries r n /\ r_dG r = dg /\
    forall i a x, nth_error ga i = Some a -> nth_error dg i = Some x ->
      ((Rabs a < 1e-10 /\ 0 < x)%R -> entry r i x 0 x) /\
      (~ (Rabs a < 1e-10 /\ 0 < x)%R -> entry r i a (a - x) x).
Proof. exact rel_outcome. Qed.
Print Assumptions C17_completion.

Definition has_length {A} (o : option (list A)) (n : nat) : Prop :=
  exists l, o = Some l /\ length l = n.

Theorem C17_rejection : forall file setup n st d,
  data_used file setup = Some d ->
  ((exists l, (d_Ga d = Some l \/ d_dG d = Some l) /\ length l <> n) ->
     rel_parse_data file setup n st = (st, Err ValueError)) /\
  (d_Ga d = None -> (d_dG d = None \/ has_length (d_dG d) n) ->
     rel_parse_data file setup n st = (st, Err KeyError)) /\
  (has_length (d_Ga d) n -> d_dG d = None -> rel_parse_data file setup n st = (st, Err KeyError)).
Proof. exact rel_rejection. Qed.
Print Assumptions C17_rejection.

Example C17_example : exists r,
  fst (rel_parse_data None (Some {| d_Ga := Some [0; 2]%R; d_dG := Some [3; -1]%R |}) 2
    {| es_rel := None; es_has_rel := false; es_abs := None; es_has_abs := false |})
  = {| es_rel := Some r; es_has_rel := true; es_abs := None; es_has_abs := false |} /\
  entry r 0 3 0 3 /\ entry r 1 2 3 (-1).
Proof.
  destruct (C17_completion None (Some {| d_Ga := Some [0; 2]%R; d_dG := Some [3; -1]%R |}) 2
    {| es_rel := None; es_has_rel := false; es_abs := None; es_has_abs := false |}
    _ _ _ eq_refl eq_refl eq_refl eq_refl eq_refl) as (r & E & _ & _ & H).
  exists r. rewrite E. split; [reflexivity|]. split.
  - apply (proj1 (H 0%nat 0%R 3%R eq_refl eq_refl)). rewrite Rabs_R0. lra.
  - replace (entry r 1 2 3 (-1)) with (entry r 1 2 (2 - -1) (-1)) by (f_equal; lra).
    apply (proj2 (H 1%nat 2%R (-1)%R eq_refl eq_refl)). lra.
Qed.

(** C18.  Relative energies. *)
Theorem C18_priority : forall d setup1 setup2 n st,
  rel_parse_data (Some d) setup1 n st = rel_parse_data (Some d) setup2 n st /\
  rel_parse_data None (Some d) n st = rel_parse_data (Some d) setup1 n st /\
  rel_parse_data None None n st = (st, Err IOError).
Proof. exact (fun d s1 s2 n st => conj eq_refl (conj eq_refl eq_refl)). Qed.
Print Assumptions C18_priority.

Theorem C18_relative_error_stores_nothing : forall file setup n st st' er,
  rel_parse_data file setup n st = (st', Err er) -> st' = st.
Proof. exact (fun file setup n st st' er => rel_error file setup n st er st'). Qed.
Print Assumptions C18_relative_error_stores_nothing.

(** Absolute energies: no file, or a file without table. *)
Theorem C18_absolute_no_data : forall es st,
  abs_parse_data None es st = (st, Err IOError) /\
  abs_parse_data (Some None) es st = (st, Err KeyError).
Proof. exact (fun es st => conj eq_refl eq_refl). Qed.
Print Assumptions C18_absolute_no_data.

(** A table is stored, and the relative energies only if all of them can be computed. *)
Theorem C18_absolute_outcome : forall ed es st,
  let out := abs_parse_data (Some (Some ed)) es st in
  es_abs (fst out) = Some ed /\ es_has_abs (fst out) = true /\
  (forall r, snd out = Ok tt -> es_rel (fst out) = Some r ->
     relative_from_absolute true ed es = Ok r /\ es_has_rel (fst out) = true) /\
  (snd out = Ok tt -> exists r, es_rel (fst out) = Some r) /\
  (forall er, snd out = Err er ->
     es_rel (fst out) = es_rel st /\ es_has_rel (fst out) = es_has_rel st /\
     relative_from_absolute true ed es = Err er).
Proof. exact abs_outcome. Qed.
Print Assumptions C18_absolute_outcome.

(** The last clause of the claim fails for absolute energies. *)
Theorem C18_absolute_error_stores_refuted : exists file es st st' er,
  abs_parse_data file es st = (st', Err er) /\
  es_has_abs st = false /\ es_has_abs st' = true /\ es_abs st' <> es_abs st.
Proof. exact abs_error_stores. Qed.
Print Assumptions C18_absolute_error_stores_refuted.

Example C18_example : exists st',
  rel_parse_data (Some {| d_Ga := Some [1%R]; d_dG := None |}) (Some {| d_Ga := Some [1%R]; d_dG := Some [2%R] |}) 1
    {| es_rel := None; es_has_rel := false; es_abs := None; es_has_abs := false |} = (st', Err KeyError).
Proof. eexists. reflexivity. Qed.
