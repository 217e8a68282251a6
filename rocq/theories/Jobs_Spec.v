(** What the setup files of jobs should say. *)
From Coq Require Import String Ascii List ZArith Bool Arith.
Import ListNotations.
From Verif Require Import PyBase PyData_Model PyData_Spec Jobs_Model Jobs_Read.
Local Open Scope list_scope.

(** Values of which [repr] is a literal for the same value. *)
Fixpoint literal (v : sval) : Prop :=
  match v with
  | WNum s => number_text s = true
  | WStr s => plain s = true
  | WWord s => In s words
  | WList l | WTuple l => (fix go l := match l with [] => True | x :: t => literal x /\ go t end) l
  | WDict d => NoDup (map fst d) /\
      (fix go d := match d with
                   | [] => True
                   | (k, x) :: t => plain k = true /\ literal x /\ go t
                   end) d
  end.

(** A setting: a text must not have quotes, backslashes or ends of lines in it. *)
Definition settable (v : sval) : Prop :=
  match v with
  | WStr s => ~ In quote s /\ ~ In "\"%char s /\ ~ In nl s
  | _ => literal v
  end.

(** Settings that can be written: distinct names with such values. *)
Definition writable_setup (d : dict sval) : Prop :=
  NoDup (map fst d) /\ (forall k v, In (k, v) d -> name_text k = true /\ settable v).

(** The text of a setup file gives the settings [d]. *)
Definition means (text : str) (d : dict sval) : Prop :=
  exists m, forall n, (m <= n)%nat -> read_setup n text [] = Ok d.

(** [locs] and [locs'] differ in the pressure of [species] only, which is [p] in [locs']. *)
Definition only_pressure (species p : str) (locs locs' : dict sval) : Prop :=
  exists defs one,
    dget locs (L "species_definitions") = Some (WDict defs) /\
    dget defs species = Some (WDict one) /\
    locs' = dset locs (L "species_definitions")
      (WDict (dset defs species (WDict (dset one (L "pressure") (WNum p))))).

(** The species has a dictionary among the definitions of the species. *)
Definition defined (locs : dict sval) (species : str) : Prop :=
  exists defs one,
    dget locs (L "species_definitions") = Some (WDict defs) /\ dget defs species = Some (WDict one).

(** Both pressures of the two-dimensional scan. *)
Definition both_pressures (c o : str) (locs locs' : dict sval) : Prop :=
  exists l1, only_pressure (L "CO_g") c locs l1 /\ only_pressure (L "O2_g") o l1 locs'.

Definition not_dict (v : sval) : Prop := forall d, v <> WDict d.

(** The directory of a pair of pressures (oxygen, carbon monoxide). *)
Definition dir_2d {P} (shown : P -> str) (oc : P * P) : str :=
  L "pO2-" ++ shown (fst oc) ++ L "/pCO-" ++ shown (snd oc).
