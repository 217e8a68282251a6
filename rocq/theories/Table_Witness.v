(** Concrete tables. *)
From Coq Require Import String Ascii List ZArith NArith Bool Arith Lia Reals Lra.
Import ListNotations.
From Verif Require Import PyBase PyBaseFacts Rxn_Model Rxn_Spec Species_Model PyReal MF_Model MF_Spec MF_Witness
  Whole_Spec Whole_Rates Whole_Witness Log_Model Table_Model Table_Spec Table_Proofs Table_More.
Local Open Scope list_scope.
Local Open Scope nat_scope.

(** Water from the liquid. *)
Definition wet : list str := [L "CO_g + *_s -> CO_s"; L "H2O_l + *_s -> H2O_s"].
Definition wet_lists : lists := Eval vm_compute in lists_of wet.
Definition wet_setup : setup :=
  setup_of wet wet_lists [(L "*_s", MF_Witness.one)] [(L "CO_g", 1%R)] [(L "H2O_l", 1%R)].
Lemma wet_usable : usable_setup wet_setup.
Proof. apply usable_setup_ok; vm_compute; reflexivity. Qed.

Lemma liquids_refute : exists s ks data cvgs tof name x,
  usable_setup s /\ get_data s = Ok data /\ tofs s ks (Some data) cvgs = Ok tof /\
  In (name, x) (combine (l_gas (s_lists s) ++ l_liq (s_lists s)) tof) /\ x <> 0%R /\
  forall num allowed w, (forall x, fits 30 (num x)) ->
    forall line, In line (lines_of (snd (log_tof R num allowed tof (l_gas (s_lists s)) w))) -> cell 11 25 line <> name.
Proof.
  assert (ND : NoDup (s_exprs wet_setup)) by (apply NoDup_ok; vm_compute; reflexivity).
  destruct (explicit wet_setup wet_usable ND [0%R; 0%R] [1%R; 1%R] [1%R; 1%R] eq_refl eq_refl eq_refl)
    as (data & E1 & _ & _ & _ & E5).
  exists wet_setup, (Ok ([1%R; 1%R], [1%R; 1%R])), data, [0%R; 0%R]. eexists. exists (L "H2O_l"). eexists.
  split; [exact wet_usable|]. split; [exact E1|]. split; [exact E5|].
  split; [right; left; reflexivity|].
  split; [lazy -[Rmult Rminus Rplus IZR Ropp]; lra|].
  intros num allowed w F line H.
  destruct (tof_reads R num F allowed (map (turnover wet_setup [0%R; 0%R] (reactions wet_setup [1%R; 1%R] [1%R; 1%R]))
     (l_gas (s_lists wet_setup) ++ l_liq (s_lists wet_setup))) (l_gas (s_lists wet_setup)) w) as (text & E & heads & body & T1 & _ & T2 & _ & T3 & T4).
  { intros n [<-|[]]. literal. }
  { vm_compute. discriminate. }
  rewrite E in H. cbn [snd] in H. rewrite T1 in H. cbn [app] in H.
  destruct H as [<-|[<-|[<-|[<-|H]]]].
  - vm_compute. discriminate.
  - vm_compute. discriminate.
  - rewrite T2. discriminate.
  - vm_compute. discriminate.
  - apply in_app_or in H as [H|[<-|[]]]; [|vm_compute; discriminate].
    change (length (l_gas (s_lists wet_setup))) with 1 in T3. rewrite map_length in T3.
    destruct body as [|b [|b' body]]; try discriminate. destruct H as [<-|[]].
    destruct (T4 0 (L "CO_g") _ eq_refl eq_refl) as (l & Hl & _ & _ & _ & C & _). injection Hl as <-.
    rewrite C. discriminate.
Qed.

(** A reaction of more than seventy characters. *)
Definition ether : str := L "CH3CH2OH_s + CH3CH2OH_s <-> CH3CH2OH-CH3CH2OH_2s -> CH3CH2OCH2CH3_s + H2O_s".
Definition unit_text : str := L "1.0000000000000000e+00".
Lemma unit_fits w : 22 <= w -> fits w unit_text.
Proof. intro H. split; [no_newline|]. split; [cbn; lia|cbn; discriminate]. Qed.
Lemma long_refutes : exists rxns p (num : nat -> str) xs w text,
  parse_rxns rxns = Ok p /\ (forall x, fits 30 (num x)) /\ length xs = length rxns /\
  log_reversibilities nat num true rxns xs w = (log (L "model.solvers.MeanFieldSolver") 20 text w, text) /\
  ~ exists line x, In line (lines_of text) /\ In x xs /\ cell 81 30 line = num x.
Proof.
  exists [ether]. eexists. exists (fun _ => unit_text), [0], fresh. eexists.
  split; [vm_compute; reflexivity|]. split; [intros _; apply unit_fits; lia|]. split; [reflexivity|].
  split; [reflexivity|]. intros (line & x & H & _ & C).
  match type of H with In _ (lines_of ?t) => assert (Q : forallb (fun l => negb (str_eqb (cell 81 30 l) unit_text)) (lines_of t) = true) by (vm_compute; reflexivity) end.
  rewrite forallb_forall in Q. specialize (Q line H). rewrite C in Q. discriminate.
Qed.
