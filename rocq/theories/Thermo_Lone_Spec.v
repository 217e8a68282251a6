(** Specification: gases in only one of the two tables of characteristic temperatures (C105). *)
From Coq Require Import String Ascii List Reals.
Import ListNotations.
From Verif Require Import PyBase.
Open Scope list_scope.

(** Measured characteristic temperatures (K), rounded: wavenumbers times hc/k = 1.4388 K cm. No relation
    to the tables of the code; the values are the commonly quoted ones, written from memory. *)
Definition spectroscopy_vibrations : list (str * list R) :=
  ([(L "C2H2_g", [881; 1050; 2840; 4730; 4850]);
    (L "CHCl3_g", [376; 522; 978; 1114; 1755; 4365])])%R.
(** With the symmetry number: the number of rotations that map the molecule to itself. *)
Definition spectroscopy_rotations : list (str * R * list R) :=
  ([(L "D2_g", 2, [43.8]); (L "Cl2_g", 2, [0.351]); (L "Br2_g", 2, [0.118]); (L "HBr_g", 1, [12.2]); (L "HI_g", 1, [9.37]);
    (L "D2O_g", 2, [22.2; 10.5; 6.97]); (L "H2S_g", 2, [14.9; 13.0; 6.81]); (L "CCl4_g", 12, [0.0823; 0.0823; 0.0823])])%R.
(** Carbon disulphide, 0.1091 per cm. *)
Definition cs2_rotation : R := 0.157%R.
(** Sulphur dioxide, 2.027, 0.344 and 0.294 per cm. *)
Definition so2_rotation : list R := [2.92; 0.495; 0.423]%R.
