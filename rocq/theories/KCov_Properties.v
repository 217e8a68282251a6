(** Properties C38, C39: coverages of a lattice.  Vocabulary: KCov_Spec.v. *)
From Coq Require Import String Ascii List ZArith NArith Bool Arith QArith Lia Lqa.
Import ListNotations.
From Verif Require Import PyBase PyBaseFacts KCov_Model KCov_Spec KCov_Proofs.
Local Open Scope list_scope.
Local Open Scope nat_scope.

(** For any number type and any operations on it (doubles included): on a lattice of whole unit
    cells and without repeated possible types, both functions return the same list.  Missing
    from the claim: other lattices and repeated types, see the refutations. *)
Theorem C38_agreement_partial : forall F (zero : F) add div types possible_types ratios k,
  NoDup possible_types -> ratios <> [] -> types <> [] -> length types = k * length ratios ->
  exists v, py_collect zero add div types possible_types ratios = Ok v /\
    cpp_collect zero add div types possible_types ratios = Some v.
Proof. exact @agree. Qed.
Print Assumptions C38_agreement_partial.

(** On any larger lattice the Python function does what the C++ function does on the points of
    the whole cells. *)
Theorem C38_incomplete_cell : forall F (zero : F) add div types possible_types ratios,
  NoDup possible_types -> ratios <> [] -> length ratios <= length types ->
  exists v, py_collect zero add div types possible_types ratios = Ok v /\
    cpp_collect zero add div (firstn (length types / length ratios * length ratios) types)
      possible_types ratios = Some v.
Proof. exact @py_is_cpp. Qed.
Print Assumptions C38_incomplete_cell.

(** Without ratios (the default of the model) the Python function raises and the C++ function
    is undefined; with fewer points than ratios only the Python function raises. *)
Theorem C38_no_cell : forall F (zero : F) add div types possible_types,
  (py_collect zero add div types possible_types [] = Err ZeroDivisionError /\
   cpp_collect zero add div types possible_types [] = None) /\
  (forall ratios, length types < length ratios -> possible_types <> [] ->
   py_collect zero add div types possible_types ratios = Err ZeroDivisionError /\
   exists v, cpp_collect zero add div types possible_types ratios = Some v).
Proof.
  intros. split; [split; reflexivity|]. intros ratios HL Hp.
  split; [exact (py_few zero add div types possible_types ratios HL Hp)|].
  destruct ratios; [cbn in HL; lia|eexists; reflexivity].
Qed.
Print Assumptions C38_no_cell.

Theorem C38_refuted :
  (exists types pt (ratios : list Q) v w, NoDup pt /\ py_collect 0%Q Qplus qdiv types pt ratios = Ok v /\
     cpp_collect 0%Q Qplus qdiv types pt ratios = Some w /\ (total v == 2)%Q /\ (total w == 3)%Q) /\
  (exists types pt (ratios : list Q) v w, length types = length ratios /\
     py_collect 0%Q Qplus qdiv types pt ratios = Ok v /\
     cpp_collect 0%Q Qplus qdiv types pt ratios = Some w /\ (total v == 1)%Q /\ (total w == 2)%Q).
Proof.
  split.
  - exists [L "O"; L "O"; L "O"], [L "O"], [1%Q; 1%Q]. do 2 eexists.
    split; [repeat constructor; intros []|]. split; [vm_compute; reflexivity|].
    split; [vm_compute; reflexivity|]. split; reflexivity.
  - exists [L "O"], [L "O"; L "O"], [1%Q]. do 2 eexists. split; [reflexivity|].
    split; [vm_compute; reflexivity|]. split; [vm_compute; reflexivity|]. split; reflexivity.
Qed.
Print Assumptions C38_refuted.

Example C38_example : exists v,
  py_collect 0%Q Qplus qdiv [L "O"; L "V"; L "O"; L "CO"] [L "CO"; L "O"] [1#2; 1#2]%Q = Ok v /\
  cpp_collect 0%Q Qplus qdiv [L "O"; L "V"; L "O"; L "CO"] [L "CO"; L "O"] [1#2; 1#2]%Q = Some v /\
  Forall2 Qeq v [1#4; 1#2]%Q.
Proof.
  eexists. split; [vm_compute; reflexivity|]. split; [vm_compute; reflexivity|]. repeat constructor.
Qed.

(** Every collected coverage is the weighted fraction of the points of that type. *)
Theorem C39_collected_fractions : forall possible_types ratios types,
  NoDup possible_types -> whole_cells ratios types ->
  exists v, py_collect 0%Q Qplus qdiv types possible_types ratios = Ok v /\
    Forall2 (fun t c => (c == fraction ratios types t)%Q) possible_types v.
Proof. exact py_fractions. Qed.
Print Assumptions C39_collected_fractions.

(** What the plugin records: if every point has a possible type and the ratios of a cell sum to
    one, the weighted fraction of each type, the empty one included. *)
Theorem C39_recorded_fractions : forall possible_types empty ratios types,
  NoDup possible_types -> In empty possible_types -> whole_cells ratios types ->
  (total ratios == 1)%Q -> (forall t, In t types -> In t possible_types) ->
  exists v, step_coverages possible_types empty ratios types = Ok v /\
    Forall2 (fun t c => (c == fraction ratios types t)%Q) possible_types v.
Proof. exact step_fractions. Qed.
Print Assumptions C39_recorded_fractions.

(** In any case: the recorded coverages lie between 0 and 1 and sum to 1, if the ratios are not
    negative and sum to at most 1. *)
Theorem C39_recorded_bounds : forall possible_types empty ratios types v,
  NoDup possible_types -> In empty possible_types -> whole_cells ratios types ->
  Forall (fun r => (0 <= r)%Q) ratios -> (total ratios <= 1)%Q ->
  step_coverages possible_types empty ratios types = Ok v ->
  Forall (fun c => (0 <= c <= 1)%Q) v /\ (total v == 1)%Q.
Proof. exact step_bounds. Qed.
Print Assumptions C39_recorded_bounds.

(** Every other type is recorded with its weighted fraction and the empty type with the rest,
    whatever types the points have and whatever the ratios are. *)
Theorem C39_recorded_values : forall possible_types empty ratios types i,
  NoDup possible_types -> nth_error possible_types i = Some empty -> whole_cells ratios types ->
  exists v, step_coverages possible_types empty ratios types = Ok v /\
    Forall2 (fun t c => (c == if str_eqb t empty
                             then 1 - total (map (fraction ratios types) (drop_at possible_types i))
                             else fraction ratios types t)%Q) possible_types v.
Proof. exact step_value. Qed.
Print Assumptions C39_recorded_values.

Theorem C39_no_empty_type : forall possible_types empty ratios types,
  ~ In empty possible_types -> step_coverages possible_types empty ratios types = Err ValueError.
Proof. exact step_no_empty. Qed.
Print Assumptions C39_no_empty_type.

Example C39_example :
  whole_cells [1#2; 1#2]%Q [L "O"; L "V"; L "O"; L "CO"] /\
  (total [1#2; 1#2]%Q == 1)%Q /\
  exists v, step_coverages [L "CO"; L "V"; L "O"] (L "V") [1#2; 1#2]%Q [L "O"; L "V"; L "O"; L "CO"] = Ok v /\
    Forall2 Qeq v [1#4; 1#4; 1#2]%Q.
Proof.
  split; [|split; [reflexivity|]].
  - split; [discriminate|]. split; [discriminate|]. exists 2. reflexivity.
  - eexists. split; [vm_compute; reflexivity|]. repeat constructor.
Qed.
