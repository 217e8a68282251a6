(** Concrete worlds for the properties of the setup attributes. *)
From Coq Require Import String Ascii List ZArith QArith Bool Lia.
From Verif Require Import PyBase PyBaseFacts Attr_Model Attr_Spec Attr_Proofs Attr_Checks Attr_Load Attr_Init.
Import ListNotations.
Local Open Scope list_scope.
Local Open Scope nat_scope.

(** The adsorbates can be sorted by site (as for all parsed reactions, C76_sorted). *)
Definition sorts_all : tree -> res unit := fun _ => Ok tt.

(** Two new micro-kinetic models; nothing but the defaults of the classes. *)
Definition two_models : world :=
  {| heap := defaults;
     objects := [ {| o_class := micro; o_dict := [] |}; {| o_class := micro; o_dict := [] |} ] |}.

Lemma two_models_fresh : fresh two_models.
Proof. intros [|[|i]] o E; cbn in E; try (injection E as <-; reflexivity). now destruct i. Qed.

Lemma two_models_class i : i < 2 -> class_of two_models i micro.
Proof.
  intros H. destruct i as [|[|i]]; [| |lia]; eexists; (split; [reflexivity|reflexivity]).
Qed.

(** A history: the temperature of model 0 is read after it was set, model 1
    reads its default, and later writes are refused. *)
Definition history : list op :=
  [ Make (TFloat (300 # 1));                       (* place 23 *)
    Put 0 (L "temperature") 23;
    Get 0 (L "temperature");
    Put 0 (L "temperature") 5;
    Get 1 (L "temperature");
    Put 1 (L "temperature") 23;
    Put 0 (L "rootfinding") 23 ].

Lemma history_results :
  fst (run model_table (model_ctor sorts_all) two_models history) =
  [ Ok (Some 23); Ok None; Ok (Some 23); Err AttributeError; Ok (Some 5);
    Err AttributeError; Err ValueError ].
Proof. vm_compute. reflexivity. Qed.

Lemma history_respects : respects micro (L "temperature") history.
Proof.
  intros i p H. unfold history in H. cbn [In] in H.
  repeat (destruct H as [H|H]; [discriminate|]). exact H.
Qed.

(** A list given to a model is changed through what a read returns. *)
Definition change_history : list op :=
  [ Make (TList [TStr (L "CO_g + *_s -> CO_s")]); Put 0 (L "rxn_expressions") 23;
    Get 0 (L "rxn_expressions"); Change 23 (TList []); Get 0 (L "rxn_expressions") ].

(** A component is set twice. *)
Definition component_history : list op :=
  [ Make (TStr (L "ThermodynamicCorrector")); Put 0 (L "corrector") 23; Get 0 (L "corrector");
    Put 0 (L "corrector") 23; Get 0 (L "corrector") ].

(** Model 0 has a list of its own, model 1 uses the default. *)
Definition own_world : world :=
  snd (run model_table (model_ctor sorts_all) two_models [Make (TList []); Put 0 (L "analysis") 23]).

Definition own_history : list op :=
  [Register 0 true (L "A"); Register 1 true (L "B"); Get 0 (L "analysis"); Register 0 true (L "C")].

Lemma own_alone : alone model_table 0 23 own_world.
Proof.
  split; [|split; [|split]].
  - intros i o E. vm_compute in E. destruct i as [|[|i]]; [| |destruct i; discriminate];
      injection E as <-; exists (KSequence (Some (L "OnTheFlyAnalysis")) None), 22;
      (split; [reflexivity|lia]).
  - vm_compute. lia.
  - intros c (o & E & <-). vm_compute in E. injection E as <-. reflexivity.
  - intros i c N (o & E & <-). vm_compute in E. destruct i as [|[|i]]; [lia| |destruct i; discriminate].
    injection E as <-. vm_compute. discriminate.
Qed.

Lemma own_leaves : leaves 0 23 own_history.
Proof.
  unfold own_history. split; [|split].
  - intros i N H. cbn [In] in H. repeat (destruct H as [H|H]; [discriminate|]). exact H.
  - intros t H. cbn [In] in H. repeat (destruct H as [H|H]; [discriminate|]). exact H.
  - intros i c q H. cbn [In] in H. repeat (destruct H as [H|H]; [discriminate|]). exact H.
Qed.

(** ** A setup *)
Definition setup_world : world :=
  {| heap := defaults ++
       [ TStr (L "RelativeEnergyParser");                                   (* 23 *)
         TStr (L "SteadyStateSolver");                                      (* 24 *)
         TList [TStr (L "CO_g + *_s -> CO_s")];                             (* 25 *)
         TDict [(TStr (L "CO_g"), TDict [(TStr (L "pressure"), TFloat 1)])]; (* 26 *)
         TDict [];                                                          (* 27 *)
         TStr (L "sympy") ];                                                (* 28 *)
     objects := objects two_models |}.

Definition good_setup : list (str * nat) :=
  [ (L "rxn_expressions", 25); (L "colour", 24); (L "species_definitions", 26);
    (L "parser", 23); (L "solver", 24); (L "temperature", 11) ].

Definition parse_all : tree -> res unit := fun _ => Ok tt.

Lemma good_setup_ok :
  fst (init model_table (model_ctor sorts_all) parse_all setup_world 0 micro (2, 3, 2) 27 good_setup) = Ok tt.
Proof. vm_compute. reflexivity. Qed.

(** ** A setup of a kinetic Monte Carlo model *)
Definition kmc_world : world :=
  {| heap := defaults ++ kmc_defaults ++
       [ TStr (L "KMCParser");                                              (* 39 *)
         TStr (L "KMCSolver");                                              (* 40 *)
         TList [TStr (L "CO_g + *_s -> CO_s")];                             (* 41 *)
         TDict [(TStr (L "CO_g"), TDict [(TStr (L "pressure"), TFloat 1)])]; (* 42 *)
         TDict [];                                                          (* 43 *)
         TList [TList [TFloat 3; TInt 0; TInt 0]; TTuple [TInt 0; TInt 3; TInt 0];
                TList [TInt 0; TInt 0; TInt 3]];                            (* 44 *)
         TList [TList [TInt 3; TInt 0; TInt 0]; TList [TInt 0; TInt 3; TInt 0];
                TList [TInt 0; TInt 0; TInt 3]];                            (* 45 *)
         TStr (L "RANLUX48");                                               (* 46 *)
         TStr (L "SteadyStateSolver") ];                                    (* 47 *)
     objects := [ {| o_class := kmc; o_dict := [] |} ] |}.

Definition kmc_setup : list (str * nat) :=
  [ (L "rxn_expressions", 41); (L "colour", 40); (L "species_definitions", 42);
    (L "parser", 39); (L "solver", 40); (L "temperature", 11); (L "nstep", 27) ].

Lemma kmc_setup_ok :
  fst (init model_table (model_ctor sorts_all) parse_all kmc_world 0 kmc (2, 3, 2) 43
         (kmc_setup ++ [(L "cell_vectors", 44)])) = Ok tt.
Proof. vm_compute. reflexivity. Qed.
