(** C74: pictures of the energy profiles. *)
From Coq Require Import String Ascii List ZArith Reals Bool Arith Lra.
Import ListNotations.
From Verif Require Import PyBase PyBaseFacts PyReal Plot_Model Plot_Spec Plot_Proofs.
Local Open Scope list_scope.
Local Open Scope nat_scope.

(** For the first [n] reactions there is a picture each, drawn from the energies of that
    reaction, under a name of its own; no other file is touched; it ends with the last reaction,
    or with the first one that cannot be drawn or saved. *)
Theorem C74_pictures : forall value picture (draw : list R -> str -> dict value -> res picture)
    savable kwargs rxns energies gaf dg dir (a : dict picture),
  dmem kwargs (L "rxn_equation") = false ->
  dget energies (L "Gaf") = Some gaf -> dget energies (L "dG") = Some dg ->
  exists n a' r, plot_all draw savable kwargs rxns energies dir a = (true, a', r) /\
  n <= min (length rxns) (min (length gaf) (length dg)) /\
  (forall i rxn Ga dG, i < n -> reaction rxns gaf dg i rxn Ga dG ->
    exists st pic, states_of Ga dG st /\ draw st rxn kwargs = Ok pic /\
      dget a' (file_of i rxn) = Some pic) /\
  (forall name, (forall i rxn, i < n -> nth_error rxns i = Some rxn -> name <> file_of i rxn) ->
    dget a' name = dget a name) /\
  match r with
  | Ok _ => n = min (length rxns) (min (length gaf) (length dg))
  | Err e => exists rxn Ga dG st, reaction rxns gaf dg n rxn Ga dG /\ states_of Ga dG st /\
      (draw st rxn kwargs = Err e \/
       (e = IOError /\ (exists pic, draw st rxn kwargs = Ok pic) /\
        savable (file_of n rxn) = false))
  end.
Proof. intros value picture. exact plot_spec. Qed.
Print Assumptions C74_pictures.

Theorem C74_names : forall i j a b, file_of i a = file_of j b -> i = j /\ a = b.
Proof.
  intros i j a b H. pose proof (file_index _ _ _ _ H) as ->. split; [reflexivity|].
  exact (file_rxn _ _ _ H).
Qed.
Print Assumptions C74_names.

(** Without energies: KeyError, no picture; the directory is made all the same. *)
Theorem C74_no_energies : forall value picture (draw : list R -> str -> dict value -> res picture)
    savable kwargs rxns energies dir (a : dict picture),
  dget energies (L "Gaf") = None \/ dget energies (L "dG") = None ->
  plot_all draw savable kwargs rxns energies dir a = (true, a, Err KeyError).
Proof. intros value picture. exact plot_missing. Qed.
Print Assumptions C74_no_energies.

(** The documented argument [rxn_equation] cannot be used. *)
Theorem C74_documented_argument_refuted : exists key, key = L "rxn_equation" /\
  forall value picture (draw : list R -> str -> dict value -> res picture)
    savable kwargs rxns energies gaf dg dir (a : dict picture),
  dget energies (L "Gaf") = Some gaf -> dget energies (L "dG") = Some dg ->
  dmem kwargs key = true -> rxns <> [] -> gaf <> [] -> dg <> [] ->
  plot_all draw savable kwargs rxns energies dir a = (true, a, Err TypeError).
Proof. exists (L "rxn_equation"). split; [reflexivity|]. intros value picture. exact plot_twice. Qed.
Print Assumptions C74_documented_argument_refuted.

(** A reaction without a barrier of its own that goes uphill (the barrier is then the reaction
    energy, C15) is drawn with a transition state; downhill it is not. *)
Theorem C74_uphill_refuted : exists Ga dG, Ga = Rmax 0 dG /\
  states_of Ga dG [0%R; Ga; dG] /\ ~ states_of Ga dG [0%R; dG].
Proof.
  exists 1%R, 1%R. split; [unfold Rmax; destruct (Rle_dec 0 1); lra|]. split.
  - apply three_states. rewrite Rabs_right; lra.
  - intro H. inversion H as [H1|]. rewrite Rabs_right in H1; lra.
Qed.
Print Assumptions C74_uphill_refuted.

Example C74_ex : plot_all (value := unit) (fun st rxn _ => Ok (length st, rxn)) (fun _ => true) []
    [L "A -> B"; L "B -> C"; L "C -> D"]
    [(L "Gaf", [0%R; 1%R]); (L "dG", [(-1)%R; 1%R])] false []
  = (true, [(L "energy_profile/0_A -> B.png", (2, L "A -> B"));
            (L "energy_profile/1_B -> C.png", (3, L "B -> C"))], Ok tt).
Proof.
  cbn [plot_all dindex]. unfold plot_all, dindex.
  change (dget _ (L "Gaf")) with (Some [0%R; 1%R]).
  change (dget _ (L "dG")) with (Some [(-1)%R; 1%R]).
  cbn [zip3 plot_loop dmem dget].
  replace (states 0 (-1)) with [0%R; (-1)%R]
    by (apply states_iff, two_states; rewrite Rabs_R0; lra).
  replace (states 1 1) with [0%R; 1%R; 1%R]
    by (apply states_iff, three_states; rewrite Rabs_right; lra).
  vm_compute. reflexivity.
Qed.
