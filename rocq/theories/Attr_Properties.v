(** Properties C46, C47, C63-C65, C84: setup attributes, plugins, construction of a
    model.  Vocabulary: Attr_Spec.v ([happened], [respects], [good_entry], ...);
    [before w ops m] is the world before operation [m] of a history, [held w i c n]
    the place in the private dictionary entry of attribute [n]. *)
From Coq Require Import String Ascii List ZArith QArith Bool Lia.
From Verif Require Import PyBase PyBaseFacts Attr_Model Attr_Spec Attr_Proofs Attr_Checks Attr_Load
  Attr_Init Attr_Witness Attr_Equal Attr_Accept Attr_Change.
Import ListNotations.
Local Open Scope list_scope.
Local Open Scope nat_scope.

(** ** C46.  For every table of class attributes, all constructors of components, every history
    of operations on any number of objects, in which nobody writes the private name directly. *)

(** At most one write is accepted. *)
Theorem C46_single_write : forall table ctor c n k d deep, table c n = Some (AValue k d deep) ->
  forall i w ops, class_of w i c -> respects c n ops ->
  forall m m' p p',
  happened ops (fst (run table ctor w ops)) m (Put i n p) (Ok None) ->
  happened ops (fst (run table ctor w ops)) m' (Put i n p') (Ok None) -> m = m'.
Proof. exact single_write. Qed.
Print Assumptions C46_single_write.

(** A read after it returns the object written (for the attributes that are not copied). *)
Theorem C46_read_after_write : forall table ctor c n k d deep, table c n = Some (AValue k d deep) ->
  forall i w ops, class_of w i c -> respects c n ops ->
  forall m m' p q, deep = false -> m < m' ->
  happened ops (fst (run table ctor w ops)) m (Put i n p) (Ok None) ->
  happened ops (fst (run table ctor w ops)) m' (Get i n) (Ok (Some q)) -> q = p.
Proof. exact read_after_write. Qed.
Print Assumptions C46_read_after_write.

(** For the copied attributes it returns a new object with the contents that the object written
    has at that moment. *)
Theorem C46_copy_after_write : forall table ctor c n k d deep, table c n = Some (AValue k d deep) ->
  forall i w ops, class_of w i c -> respects c n ops ->
  forall m m' p q, deep = true -> m < m' ->
  happened ops (fst (run table ctor w ops)) m (Put i n p) (Ok None) ->
  happened ops (fst (run table ctor w ops)) m' (Get i n) (Ok (Some q)) ->
  q = length (heap (before table ctor w ops m')) /\
  contents (before table ctor w ops (S m')) q = contents (before table ctor w ops m') p.
Proof. exact copy_after_write. Qed.
Print Assumptions C46_copy_after_write.

(** Without an accepted write a read returns the default. *)
Theorem C46_read_default : forall table ctor c n k d deep, table c n = Some (AValue k d deep) ->
  forall i w ops, class_of w i c -> respects c n ops ->
  forall m q, fresh w -> deep = false ->
  happened ops (fst (run table ctor w ops)) m (Get i n) (Ok (Some q)) ->
  (forall m' p, m' < m -> ~ happened ops (fst (run table ctor w ops)) m' (Put i n p) (Ok None)) ->
  q = d.
Proof. exact read_default. Qed.
Print Assumptions C46_read_default.

(** After a successful read or an accepted write, every write is refused and changes nothing: with
    AttributeError, or with the exception of the check if the value is not acceptable either. *)
Theorem C46_used_refused : forall table ctor c n k d deep, table c n = Some (AValue k d deep) ->
  forall i w ops, class_of w i c -> respects c n ops ->
  forall m p r,
  (exists m' q, m' < m /\ (happened ops (fst (run table ctor w ops)) m' (Get i n) (Ok (Some q))
                           \/ happened ops (fst (run table ctor w ops)) m' (Put i n q) (Ok None))) ->
  happened ops (fst (run table ctor w ops)) m (Put i n p) r ->
  before table ctor w ops (S m) = before table ctor w ops m /\
  r = match check k (contents (before table ctor w ops m) p) with
      | Err e => Err e
      | Ok _ => Err AttributeError
      end.
Proof. exact used_rejected. Qed.
Print Assumptions C46_used_refused.

(** A value that is not acceptable is never stored. *)
Theorem C46_wrong_kind : forall table ctor c n k d deep, table c n = Some (AValue k d deep) ->
  forall i w ops, class_of w i c -> respects c n ops ->
  forall m p r e,
  check k (contents (before table ctor w ops m) p) = Err e ->
  happened ops (fst (run table ctor w ops)) m (Put i n p) r ->
  r = Err e /\ before table ctor w ops (S m) = before table ctor w ops m.
Proof. exact wrong_kind. Qed.
Print Assumptions C46_wrong_kind.

(** The outcome of any write: exactly these three. *)
Theorem C46_outcome : forall table ctor c n k d deep, table c n = Some (AValue k d deep) ->
  forall i w ops, class_of w i c -> respects c n ops ->
  forall m p r,
  happened ops (fst (run table ctor w ops)) m (Put i n p) r ->
  match check k (contents (before table ctor w ops m) p) with
  | Err e => r = Err e /\ before table ctor w ops (S m) = before table ctor w ops m
  | Ok _ =>
      match held (before table ctor w ops m) i c n with
      | Some _ => r = Err AttributeError /\ before table ctor w ops (S m) = before table ctor w ops m
      | None => r = Ok None /\
                before table ctor w ops (S m) =
                store (before table ctor w ops m) i (L "_" ++ c ++ L "__" ++ n) p
      end
  end.
Proof. exact write_outcome. Qed.
Print Assumptions C46_outcome.

(** A case: the classes of the code, two new models. *)
Example C46_example :
  model_table micro (L "temperature") = Some (AValue (KFloat None) 5 false) /\
  class_of two_models 0 micro /\ fresh two_models /\ respects micro (L "temperature") history /\
  fst (run model_table (model_ctor sorts_all) two_models history) =
  [ Ok (Some 23); Ok None; Ok (Some 23); Err AttributeError; Ok (Some 5);
    Err AttributeError; Err ValueError ].
Proof.
  split; [reflexivity|]. split; [apply two_models_class; lia|].
  split; [exact two_models_fresh|]. split; [exact history_respects|exact history_results].
Qed.

(** But the value of an attribute can change: a list that was written is the object that reads
    return, and a change of it shows at the next read. *)
Theorem C46_value_refuted : exists ops p q,
  happened ops (fst (run model_table (model_ctor sorts_all) two_models ops)) 1 (Put 0 (L "rxn_expressions") p) (Ok None) /\
  happened ops (fst (run model_table (model_ctor sorts_all) two_models ops)) 4 (Get 0 (L "rxn_expressions")) (Ok (Some q)) /\
  contents (before model_table (model_ctor sorts_all) two_models ops 5) q
  <> contents (before model_table (model_ctor sorts_all) two_models ops 1) p.
Proof.
  exists change_history, 23, 23.
  split; [split; [reflexivity|vm_compute; reflexivity]|].
  split; [split; [reflexivity|vm_compute; reflexivity]|]. vm_compute. discriminate.
Qed.
Print Assumptions C46_value_refuted.

(** And the components (parser, solver, corrector, plotter) are not write-once: a second write is
    accepted and a read then returns another object. *)
Theorem C46_component_refuted : exists ops p q q',
  happened ops (fst (run model_table (model_ctor sorts_all) two_models ops)) 1 (Put 0 (L "corrector") p) (Ok None) /\
  happened ops (fst (run model_table (model_ctor sorts_all) two_models ops)) 2 (Get 0 (L "corrector")) (Ok (Some q)) /\
  happened ops (fst (run model_table (model_ctor sorts_all) two_models ops)) 3 (Put 0 (L "corrector") p) (Ok None) /\
  happened ops (fst (run model_table (model_ctor sorts_all) two_models ops)) 4 (Get 0 (L "corrector")) (Ok (Some q')) /\
  q <> q'.
Proof.
  exists component_history, 23, 24, 25.
  split; [split; [reflexivity|vm_compute; reflexivity]|].
  split; [split; [reflexivity|vm_compute; reflexivity]|].
  split; [split; [reflexivity|vm_compute; reflexivity]|].
  split; [split; [reflexivity|vm_compute; reflexivity]|]. discriminate.
Qed.
Print Assumptions C46_component_refuted.

(** The default values of the setup attributes of a micro-kinetic model, for all of them. *)
Theorem C46_documented : forall n t, In (n, t) documented ->
  exists k d deep, model_table (L "MicroKineticModel") n = Some (AValue k d deep) /\ nth_error defaults d = Some t /\
    (deep = true <-> n = L "species_definitions").
Proof. exact documented_ok. Qed.
Print Assumptions C46_documented.

Theorem C46_documented_all : forall n k d deep,
  model_table (L "MicroKineticModel") n = Some (AValue k d deep) -> exists t, In (n, t) documented.
Proof. exact documented_all. Qed.
Print Assumptions C46_documented_all.

(** ** C47 *)

(** Registering a plugin in one new model changes the list that another model reads. *)
Theorem C47_shared_refuted : exists w1 p,
  run model_table (model_ctor sorts_all) two_models [Register 0 true (L "A"); Get 1 (L "analysis")]
  = ([Ok None; Ok (Some p)], w1) /\
  contents w1 p = TList [TObj (L "A")].
Proof. eexists. exists 22. split; vm_compute; reflexivity. Qed.
Print Assumptions C47_shared_refuted.

(** One registration, exactly: it changes the list in the place that the model reads, and no
    other place; so another model is affected exactly if it reads the same place. *)
Theorem C47_register : forall table w i c k d cl r w1,
  class_of w i c -> table c (L "analysis") = Some (AValue k d false) ->
  analysis_register table w i true cl = (r, w1) ->
  let p := place w i c (L "analysis") d in
  held w1 i c (L "analysis") = Some p /\
  match contents w p with
  | TList l => r = Ok tt /\ contents w1 p = TList (l ++ [TObj cl])
               /\ (forall q, q <> p -> contents w1 q = contents w q)
  | _ => r = Err AttributeError /\ heap w1 = heap w
  end.
Proof. exact register_exact. Qed.
Print Assumptions C47_register.

(** A change in place: of lists, dicts and instances only, seen at that place and nowhere else. *)
Theorem C47_change : forall table ctor w p t,
  let '(r, w1) := step table ctor w (Change p t) in
  let changeable := fun v => (exists l, v = TList l) \/ (exists l, v = TDict l) \/ (exists c, v = TObj c) in
  (r = Ok None /\ p < length (heap w) /\ changeable (contents w p) /\ changeable t /\
   contents w1 p = t /\ (forall p', p' <> p -> contents w1 p' = contents w p') /\
   length (heap w1) = length (heap w) /\ objects w1 = objects w) \/
  (r = Err AttributeError /\ w1 = w /\
   ~ (p < length (heap w) /\ changeable (contents w p) /\ changeable t)).
Proof. exact change_in_place. Qed.
Print Assumptions C47_change.

(** What is true: a model that was given a list of its own (place [p], held by no other model and
    nobody's default) has after any history exactly the plugins registered in it.  Missing: the
    models that use the default. *)
Theorem C47_own_list_partial : forall table ctor j p ops w l,
  alone table j p w -> leaves j p ops -> contents w p = TList l -> (exists c, class_of w j c) ->
  contents (snd (run table ctor w ops)) p = TList (l ++ plugins j ops).
Proof. exact own_list. Qed.
Print Assumptions C47_own_list_partial.

Example C47_own_list_example :
  alone model_table 0 23 own_world /\ leaves 0 23 own_history /\ contents own_world 23 = TList [] /\
  plugins 0 own_history = [TObj (L "A"); TObj (L "C")].
Proof.
  split; [exact own_alone|]. split; [exact own_leaves|]. split; reflexivity.
Qed.

(** ** C63: construction of a micro-kinetic model. *)

(** When a model can be made from a setup dictionary: exactly if the logging levels are, the values
    are acceptable and do not include the four parameters that are set before, there are a
    parser and species definitions, the reactions can be parsed, and, if there is a steady-state
    solver, the numerical representation is mpmath, and there are reactions, whose adsorbates
    [classify] can sort by site.  Then every given value is the one stored. *)
Theorem C63_construct : forall classify parse w i o,
  nth_error (objects w) i = Some o -> o_class o = micro -> o_dict o = [] ->
  contents w 6 = TList [] -> contents w 16 = TStr (L "mpmath") ->
  forall l1 l2 l3 dp setup,
  l1 < length (heap w) -> l2 < length (heap w) -> l3 < length (heap w) -> dp < length (heap w) ->
  16 < length (heap w) ->
  proper (contents w l1) -> proper (contents w l2) -> proper (contents w l3) ->
  proper (contents w dp) ->
  NoDup (map fst setup) ->
  (forall kp, In kp setup -> snd kp < length (heap w)) ->
  ((exists w1, init model_table (model_ctor classify) parse w i (L "MicroKineticModel") (l1, l2, l3) dp setup = (Ok tt, w1)) <->
   level_ok w l1 /\ level_ok w l2 /\ level_ok w l3 /\ (exists l, contents w dp = TDict l) /\
   Forall (good_entry micro w) setup /\
   In (L "parser") (map fst setup) /\ In (L "species_definitions") (map fst setup) /\
   (forall p, In (L "rxn_expressions", p) setup ->
      contents w p <> TList [] -> contents w p <> TTuple [] -> parse (contents w p) = Ok tt) /\
   (forall s, In (L "solver", s) setup -> contents w s = TStr (L "SteadyStateSolver") ->
      (forall p, In (L "numerical_representation", p) setup -> contents w p = TStr (L "mpmath")) /\
      exists p, In (L "rxn_expressions", p) setup /\ contents w p <> TList [] /\ contents w p <> TTuple [] /\
        classify (contents w p) = Ok tt))
  /\ (forall w1 key p,
        init model_table (model_ctor classify) parse w i micro (l1, l2, l3) dp setup = (Ok tt, w1) ->
        is_value micro key -> In (key, p) setup -> held w1 i micro key = Some p).
Proof. exact init_ok_micro. Qed.
Print Assumptions C63_construct.

(** Unknown parameters have no effect at all. *)
Theorem C63_unknown_ignored : forall classify parse w i levels dp setup,
  init model_table (model_ctor classify) parse w i micro levels dp setup
  = init model_table (model_ctor classify) parse w i micro levels dp (filter (known micro) setup).
Proof. exact init_known_micro. Qed.
Print Assumptions C63_unknown_ignored.

Example C63_example :
  nth_error (objects setup_world) 0 = Some {| o_class := micro; o_dict := [] |} /\
  contents setup_world 6 = TList [] /\ contents setup_world 16 = TStr (L "mpmath") /\
  fst (init model_table (model_ctor sorts_all) parse_all setup_world 0 micro (2, 3, 2) 27 good_setup) = Ok tt /\
  filter (known micro) good_setup <> good_setup.
Proof.
  split; [reflexivity|]. split; [reflexivity|]. split; [reflexivity|]. split; [exact good_setup_ok|].
  discriminate.
Qed.

(** A logging level cannot be given in the setup dictionary, although it is an attribute of the
    model and the value is acceptable: construction fails. *)
Theorem C63_level_refuted : exists w p k d,
  model_table micro (L "logger_level") = Some (AValue k d false) /\
  check k (contents w p) = Ok tt /\
  fst (init model_table (model_ctor sorts_all) parse_all w 0 micro (2, 3, 2) 27 good_setup) = Ok tt /\
  fst (init model_table (model_ctor sorts_all) parse_all w 0 micro (2, 3, 2) 27
         (good_setup ++ [(L "logger_level", p)])) = Err AttributeError.
Proof.
  exists setup_world, 3. eexists. eexists. split; [reflexivity|].
  split; [reflexivity|]. split; vm_compute; reflexivity.
Qed.
Print Assumptions C63_level_refuted.

(** Species definitions cannot be left out, although they have a default. *)
Theorem C63_default_refuted : exists w k d,
  model_table micro (L "species_definitions") = Some (AValue k d true) /\
  check k (contents w d) = Ok tt /\
  fst (init model_table (model_ctor sorts_all) parse_all w 0 micro (2, 3, 2) 27 [(L "parser", 23)])
  = Err AttributeError.
Proof.
  exists setup_world. eexists. eexists. split; [reflexivity|].
  split; vm_compute; reflexivity.
Qed.
Print Assumptions C63_default_refuted.

(** The other representation that the attribute accepts, sympy, does not let a solver be made. *)
Theorem C63_sympy_refuted : exists w p k d,
  model_table micro (L "numerical_representation") = Some (AValue k d false) /\
  check k (contents w p) = Ok tt /\
  fst (init model_table (model_ctor sorts_all) parse_all w 0 micro (2, 3, 2) 27
         [(L "rxn_expressions", 25); (L "species_definitions", 26); (L "parser", 23);
          (L "numerical_representation", p)]) = Ok tt /\
  fst (init model_table (model_ctor sorts_all) parse_all w 0 micro (2, 3, 2) 27
         (good_setup ++ [(L "numerical_representation", p)])) = Err AttributeError.
Proof.
  exists setup_world, 28. eexists. eexists. split; [reflexivity|].
  split; [reflexivity|]. split; vm_compute; reflexivity.
Qed.
Print Assumptions C63_sympy_refuted.

(** Reactions cannot be left out if there is a solver, although they have a default. *)
Theorem C63_reactions_refuted : exists w k d,
  model_table micro (L "rxn_expressions") = Some (AValue k d false) /\
  check k (contents w d) = Ok tt /\
  fst (init model_table (model_ctor sorts_all) parse_all w 0 micro (2, 3, 2) 27
         [(L "species_definitions", 26); (L "parser", 23)]) = Ok tt /\
  fst (init model_table (model_ctor sorts_all) parse_all w 0 micro (2, 3, 2) 27
         [(L "species_definitions", 26); (L "parser", 23); (L "solver", 24)]) = Err AttributeError.
Proof.
  exists setup_world. eexists. eexists. split; [reflexivity|].
  split; [reflexivity|]. split; vm_compute; reflexivity.
Qed.
Print Assumptions C63_reactions_refuted.

(** ** C64: the acceptable values. [proper]: an instance of a class of the user, whose class is not
    called like a built-in type. *)
Theorem C64_text : forall t, proper t -> (check (KType (L "str") None) t = Ok tt <-> is_text t).
Proof. exact check_text. Qed.
Print Assumptions C64_text.

Theorem C64_text_among : forall t l, proper t ->
  (check (KType (L "str") (Some (map TStr l))) t = Ok tt <-> exists s, t = TStr s /\ In s l).
Proof. exact check_text_among. Qed.
Print Assumptions C64_text_among.

Theorem C64_integer : forall t, proper t -> (check (KType (L "int") None) t = Ok tt <-> is_integer t).
Proof. exact check_integer. Qed.
Print Assumptions C64_integer.

Theorem C64_integer_among : forall t l, proper t ->
  (check (KType (L "int") (Some (map TInt l))) t = Ok tt <-> exists z, t = TInt z /\ In z l).
Proof. exact check_integer_among. Qed.
Print Assumptions C64_integer_among.

Theorem C64_number : forall t, proper t -> (check (KFloat None) t = Ok tt <-> is_number t).
Proof. exact check_number. Qed.
Print Assumptions C64_number.

Theorem C64_dict : forall t, proper t ->
  (check (KType (L "dict") None) t = Ok tt <-> exists l, t = TDict l).
Proof. exact check_dict. Qed.
Print Assumptions C64_dict.

Theorem C64_types : forall t ty, type_of t = ty <-> of_type t ty.
Proof. exact type_is. Qed.
Print Assumptions C64_types.

Theorem C64_sequence : forall ty t,
  check (KSequence (Some ty) None) t = Ok tt <-> is_sequence_of (fun x => type_of x = ty) t.
Proof. exact check_sequence_ok. Qed.
Print Assumptions C64_sequence.

Theorem C64_species : forall t, check KSpecies t = Ok tt <-> good_species t.
Proof. exact check_species_ok. Qed.
Print Assumptions C64_species.

Theorem C64_ref_energies : forall t, check KRef t = Ok tt <-> good_ref t.
Proof. exact check_ref_ok. Qed.
Print Assumptions C64_ref_energies.

Theorem C64_interval : forall t, check KInterval t = Ok tt <-> good_interval t.
Proof. exact check_interval_ok. Qed.
Print Assumptions C64_interval.

(** The exception of a refused value. *)
Theorem C64_refusal : forall k t e,
  k <> KSpecies -> k <> KRef -> k <> KInterval -> check k t = Err e -> e = ValueError.
Proof. exact check_refusal_value. Qed.
Print Assumptions C64_refusal.

Theorem C64_refusal_setup : forall k t e,
  k = KRef \/ k = KInterval -> check k t = Err e -> e = SetupError.
Proof. exact check_refusal_setup. Qed.
Print Assumptions C64_refusal_setup.

(** An accepted interval need not advance: a step of 0 and a negative one are accepted. *)
Theorem C64_interval_refuted : exists a b,
  check KInterval (TList [TList [TInt a; TInt b; TInt 0]]) = Ok tt /\
  check KInterval (TList [TList [TInt a; TInt b; TInt (-1)]]) = Ok tt.
Proof. exists 1%Z, 5%Z. split; reflexivity. Qed.
Print Assumptions C64_interval_refuted.

(** A plugin cannot be given in the setup: an instance of a subclass of OnTheFlyAnalysis is refused. *)
Theorem C64_plugin_refuted : exists k d c,
  model_table micro (L "analysis") = Some (AValue k d false) /\
  check k (TList [TObj c]) = Err ValueError.
Proof. eexists. eexists. exists (L "EnergyAnalysis"). split; reflexivity. Qed.
Print Assumptions C64_plugin_refuted.

Example C64_example :
  good_species (TDict [(TStr (L "CO_g"), TDict [(TStr (L "pressure"), TFloat 1)]);
                       (TStr (L "s"), TNone)]) /\
  good_interval (TList [TInt 5; TTuple [TInt 0; TInt 10; TInt 2]]) /\
  proper (TObj (L "EnergyAnalysis")).
Proof.
  split; [apply check_species_ok; reflexivity|]. split; [apply check_interval_ok; reflexivity|].
  cbn. unfold builtin. intros H. repeat (destruct H as [H|H]; [discriminate|]). exact H.
Qed.

(** With a list of candidates: the value, or every entry, has to be equal to one of them. *)
Theorem C64_candidates : forall ty c t,
  check (KType ty c) t = Ok tt <-> type_of t = ty /\ (forall l, c = Some l -> among l t).
Proof. exact type_iff. Qed.
Print Assumptions C64_candidates.

Theorem C64_number_candidates : forall c t, check (KFloat c) t = Ok tt <->
  (type_of t = L "float" \/ type_of t = L "int") /\ (forall l, c = Some l -> among l t).
Proof. exact float_iff. Qed.
Print Assumptions C64_number_candidates.

Theorem C64_sequence_candidates : forall entry c t, check (KSequence entry c) t = Ok tt <->
  is_sequence_of (fun x => (forall ty, entry = Some ty -> type_of x = ty) /\
                           (forall l, c = Some l -> among l x)) t.
Proof. exact sequence_iff. Qed.
Print Assumptions C64_sequence_candidates.

(** Equality of Python on values. *)
Theorem C64_equality : forall a b, py_eq a b = true <-> same_value a b.
Proof. exact py_eq_iff. Qed.
Print Assumptions C64_equality.

Example C64_equality_example :
  same_value (TList [TBool true; TDict [(TInt 1, TFloat 2)]])
             (TList [TFloat 1; TDict [(TBool true, TInt 2)]]) /\
  ~ same_value (TDict [(TInt 1, TInt 2)]) (TDict [(TInt 1, TInt 2); (TInt 3, TInt 4)]) /\
  ~ same_value (TList [TInt 1]) (TTuple [TInt 1]).
Proof.
  split; [apply C64_equality; reflexivity|].
  split; intro H; apply C64_equality in H; discriminate H.
Qed.

(** The exception for species definitions: that of the first entry that is at fault. *)
Theorem C64_species_refusal : forall t e, check KSpecies t = Err e <->
  ((forall l, t <> TDict l) /\ e = SetupError) \/
  (exists before k v after, t = TDict (before ++ (k, v) :: after) /\
     good_species (TDict before) /\ species_fault k v e).
Proof. exact species_refusal. Qed.
Print Assumptions C64_species_refusal.

Example C64_species_refusal_example :
  species_fault (TStr (L "CO_g")) (TDict []) SetupError /\
  species_fault (TStr (L "CO_g")) (TFloat 1) TypeError.
Proof. split; apply species1_fault; reflexivity. Qed.

(** What each attribute of a model accepts, attribute by attribute. *)
Theorem C64_attributes : forall n P, In (n, P) (acceptable_every ++ acceptable_micro) -> exists k d deep,
  model_table (L "MicroKineticModel") n = Some (AValue k d deep) /\ forall t, proper t -> (check k t = Ok tt <-> P t).
Proof. exact accept_micro. Qed.
Print Assumptions C64_attributes.

Theorem C64_attributes_every : forall n P, In (n, P) acceptable_every -> exists k d deep,
  model_table (L "KineticModel") n = Some (AValue k d deep) /\ forall t, proper t -> (check k t = Ok tt <-> P t).
Proof. exact accept_plain. Qed.
Print Assumptions C64_attributes_every.

Theorem C64_attributes_all : forall n k d deep, model_table (L "MicroKineticModel") n = Some (AValue k d deep) ->
  exists P, In (n, P) (acceptable_every ++ acceptable_micro).
Proof. exact accept_micro_all. Qed.
Print Assumptions C64_attributes_all.

(** ** C65: classes of analysis plugins. *)
Theorem C65_class : forall i a b c x y z,
  analysis_class i a b c = Ok (x, y, z) <->
  (i = None \/ exists n, i = Some (TInt n) /\ (0 < n)%Z) /\
  a <> NotCallable /\ b <> NotCallable /\ c <> NotCallable /\
  (x = true <-> a = Callable) /\ (y = true <-> b = Callable) /\ (z = true <-> c = Callable).
Proof. exact analysis_class_ok. Qed.
Print Assumptions C65_class.

Theorem C65_refusal : forall i a b c e,
  analysis_class i a b c = Err e ->
  (e = TypeError /\ exists t, i = Some t /\ forall n, t = TInt n -> (n <= 0)%Z)
  \/ (e = AttributeError /\ (a = NotCallable \/ b = NotCallable \/ c = NotCallable)).
Proof. exact analysis_class_err. Qed.
Print Assumptions C65_refusal.

Example C65_example : analysis_class (Some (TInt 3)) Callable NoneValue Absent = Ok (true, false, false)
  /\ analysis_class (Some (TInt 0)) Callable NotCallable Absent = Err TypeError
  /\ analysis_class None Callable NotCallable Absent = Err AttributeError.
Proof. repeat split. Qed.

(** ** C84: construction of a kinetic Monte Carlo model. *)

(** Exactly as for a micro-kinetic model, except that the steady-state solver cannot be chosen: the
    solver, if there is one, is the KMC solver, for which no reactions are needed. *)
Theorem C84_construct : forall classify parse w i o,
  nth_error (objects w) i = Some o -> o_class o = kmc -> o_dict o = [] ->
  contents w 6 = TList [] -> contents w 16 = TStr (L "mpmath") ->
  forall l1 l2 l3 dp setup,
  l1 < length (heap w) -> l2 < length (heap w) -> l3 < length (heap w) -> dp < length (heap w) ->
  16 < length (heap w) ->
  proper (contents w l1) -> proper (contents w l2) -> proper (contents w l3) ->
  proper (contents w dp) ->
  NoDup (map fst setup) ->
  (forall kp, In kp setup -> snd kp < length (heap w)) ->
  ((exists w1, init model_table (model_ctor classify) parse w i (L "KMCModel") (l1, l2, l3) dp setup = (Ok tt, w1)) <->
   level_ok w l1 /\ level_ok w l2 /\ level_ok w l3 /\ (exists l, contents w dp = TDict l) /\
   Forall (good_entry kmc w) setup /\
   In (L "parser") (map fst setup) /\ In (L "species_definitions") (map fst setup) /\
   (forall p, In (L "rxn_expressions", p) setup ->
      contents w p <> TList [] -> contents w p <> TTuple [] -> parse (contents w p) = Ok tt) /\
   (forall s, In (L "solver", s) setup -> contents w s = TStr (L "KMCSolver")))
  /\ (forall w1 key p,
        init model_table (model_ctor classify) parse w i kmc (l1, l2, l3) dp setup = (Ok tt, w1) ->
        is_value kmc key -> In (key, p) setup -> held w1 i kmc key = Some p).
Proof. exact init_ok_kmc. Qed.
Print Assumptions C84_construct.

(** Unknown parameters have no effect at all, and those of a micro-kinetic model are unknown. *)
Theorem C84_unknown_ignored : forall classify parse w i levels dp setup,
  init model_table (model_ctor classify) parse w i (L "KMCModel") levels dp setup
  = init model_table (model_ctor classify) parse w i (L "KMCModel") levels dp (filter (known kmc) setup).
Proof. exact init_known_kmc. Qed.
Print Assumptions C84_unknown_ignored.

Example C84_example :
  nth_error (objects kmc_world) 0 = Some {| o_class := kmc; o_dict := [] |} /\
  contents kmc_world 6 = TList [] /\ contents kmc_world 16 = TStr (L "mpmath") /\
  fst (init model_table (model_ctor sorts_all) parse_all kmc_world 0 kmc (2, 3, 2) 43
         (kmc_setup ++ [(L "cell_vectors", 44)])) = Ok tt /\
  filter (known kmc) kmc_setup <> kmc_setup.
Proof.
  split; [reflexivity|]. split; [reflexivity|]. split; [reflexivity|]. split; [exact kmc_setup_ok|].
  discriminate.
Qed.

(** The acceptable cell vectors and coordinates of sites. *)
Theorem C84_vectors : forall width t, check (KVectors width) t = Ok tt <-> good_vectors width t.
Proof. exact check_vectors_ok. Qed.
Print Assumptions C84_vectors.

(** Cell vectors of integers are refused; with one of the numbers written as a float they are
    accepted. *)
Theorem C84_integer_vectors_refuted : exists w p q,
  contents w p = TList [TList [TInt 3; TInt 0; TInt 0]; TList [TInt 0; TInt 3; TInt 0];
                        TList [TInt 0; TInt 0; TInt 3]] /\
  same_value (contents w p) (TList [TList [TFloat 3; TInt 0; TInt 0]; TList [TInt 0; TInt 3; TInt 0];
                                    TList [TInt 0; TInt 0; TInt 3]]) /\
  fst (init model_table (model_ctor sorts_all) parse_all w 0 kmc (2, 3, 2) 43
         (kmc_setup ++ [(L "cell_vectors", q)])) = Ok tt /\
  fst (init model_table (model_ctor sorts_all) parse_all w 0 kmc (2, 3, 2) 43
         (kmc_setup ++ [(L "cell_vectors", p)])) = Err ValueError.
Proof.
  exists kmc_world, 45, 44. split; [reflexivity|].
  split; [apply py_eq_iff; vm_compute; reflexivity|]. split; vm_compute; reflexivity.
Qed.
Print Assumptions C84_integer_vectors_refuted.

(** One of the generators of random numbers of KMCLib cannot be chosen under its name. *)
Theorem C84_generator_refuted : exists w p,
  contents w p = TStr (L "RANLUX48") /\
  fst (init model_table (model_ctor sorts_all) parse_all w 0 kmc (2, 3, 2) 43
         (kmc_setup ++ [(L "random_generator", p)])) = Err ValueError.
Proof. exists kmc_world, 46. split; [reflexivity|]. vm_compute. reflexivity. Qed.
Print Assumptions C84_generator_refuted.

(** The steady-state solver is not refused by the attribute but by its constructor. *)
Theorem C84_solver_refuted : exists w p,
  contents w p = TStr (L "SteadyStateSolver") /\ good_entry kmc w (L "solver", p) /\
  fst (init model_table (model_ctor sorts_all) parse_all w 0 kmc (2, 3, 2) 43
         [ (L "rxn_expressions", 41); (L "species_definitions", 42); (L "parser", 39); (L "solver", p) ])
  = Err AttributeError.
Proof.
  exists kmc_world, 47. split; [reflexivity|]. split; [|vm_compute; reflexivity].
  exists (L "SteadyStateSolver"). split; [reflexivity|]. cbn. tauto.
Qed.
Print Assumptions C84_solver_refuted.

(** The default values of the setup attributes of a KMC model, for all of them (the first twelve
    of [documented] are those of every model). *)
Theorem C84_documented : forall n t, In (n, t) (firstn 12 documented ++ kmc_documented) ->
  exists k d deep, model_table kmc n = Some (AValue k d deep) /\
    nth_error (defaults ++ kmc_defaults) d = Some t /\ (deep = true <-> n = L "species_definitions").
Proof. exact kmc_documented_ok. Qed.
Print Assumptions C84_documented.

Theorem C84_documented_all : forall n k d deep, model_table kmc n = Some (AValue k d deep) ->
  exists t, In (n, t) (firstn 12 documented ++ kmc_documented).
Proof. exact kmc_documented_all. Qed.
Print Assumptions C84_documented_all.

(** The defaults could be given in a setup, except those that are None. *)
Theorem C84_default_accepted : forall n t k d deep, In (n, t) kmc_documented -> t <> TNone ->
  model_table kmc n = Some (AValue k d deep) -> check k t = Ok tt.
Proof. exact kmc_default_accepted. Qed.
Print Assumptions C84_default_accepted.

(** What each attribute of a KMC model accepts. *)
Theorem C84_attributes : forall n P, In (n, P) (acceptable_every ++ acceptable_kmc) -> exists k d deep,
  model_table (L "KMCModel") n = Some (AValue k d deep) /\ forall t, proper t -> (check k t = Ok tt <-> P t).
Proof. exact accept_kmc. Qed.
Print Assumptions C84_attributes.

Theorem C84_attributes_all : forall n k d deep, model_table (L "KMCModel") n = Some (AValue k d deep) ->
  exists P, In (n, P) (acceptable_every ++ acceptable_kmc).
Proof. exact accept_kmc_all. Qed.
Print Assumptions C84_attributes_all.
