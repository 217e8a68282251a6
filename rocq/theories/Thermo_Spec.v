(** Specification vocabulary for thermodynamic corrections (C22, C23, C51, C52). *)
From Coq Require Import String Ascii List ZArith Bool Reals.
Import ListNotations.
From Verif Require Import PyBase Rxn_Model PyReal Energy_Model Energy_Spec Thermo_Model Rate_Spec.
Open Scope list_scope.

(** Energy change of a state under a correction function applied to formula texts. *)
Definition state_change (cf : str -> res R) (fs : list formula) (d : R) : Prop :=
  exists cs, Forall2 (fun f c => cf (f_text f) = Ok c) fs cs /\ d = Rsum cs.

(** [corrected ds old new]: new forward barrier, reverse barrier, reaction energy when the
    states change by [ds]. *)
Inductive corrected : list R -> R * R * R -> R * R * R -> Prop :=
| corrected_two : forall d0 d1 a b c c',
    c' = (c + (d1 - d0))%R -> corrected [d0; d1] (a, b, c) (Rmax 0 c', Rmax 0 (- c'), c')
| corrected_three : forall d0 d1 d2 a b c,
    corrected [d0; d1; d2] (a, b, c) (a + (d1 - d0), b + (d1 - d2), c + (d2 - d0))%R.

Definition entry_t (r : rel_energies) (i : nat) (t : R * R * R) : Prop :=
  entry r i (fst (fst t)) (snd (fst t)) (snd t).

(** What [correct_relative_energies] needs of reaction [i]. *)
Definition correctable (cf : str -> res R) (rxns : list (list (list formula))) (r : rel_energies)
    (i : nat) : Prop :=
  exists t fls ds, entry_t r i t /\ nth_error rxns i = Some fls /\
    Forall2 (state_change cf) fls ds /\ (length fls = 2 \/ length fls = 3).

(** Sum over the gases of a state of stoichiometric number times correction of the gas. *)
Fixpoint gas_sum (corr : str -> R) (fs : list formula) : R :=
  match fs with
  | [] => 0%R
  | f :: t => if str_eqb (f_site f) (L "g")
              then (IZR (f_stoich f) * corr (f_species_site f) + gas_sum corr t)%R
              else gas_sum corr t
  end.

(** Textbook partition functions of an ideal gas (translation per molecule, rotation,
    vibration) as used by [entropy_correction]. *)
Definition q_trans (m p T : R) : R :=
  (kB_J * T / p * Rpower (2 * PI * m * kB_J * T / (h_J * h_J)) (3 / 2))%R.
Definition q_linear (sigma theta T : R) : R :=
  if Rle_dec (theta / T) 0.01 then (T / (sigma * theta))%R
  else (T / (sigma * theta) * (1 + theta / T / 3 + (theta / T) * (theta / T) / 15))%R.
Definition q_nonlinear (sigma a b c T : R) : R :=
  (sqrt (PI * (T / a) * (T / b) * (T / c)) / sigma)%R.
Definition q_rot (sigma : R) (thetas : list R) (T : R) (q : R) : Prop :=
  (exists theta, thetas = [theta] /\ (0 < theta)%R /\ (theta / T < 0.3)%R /\ q = q_linear sigma theta T) \/
  (exists a b c, thetas = [a; b; c] /\ (0 < a /\ 0 < b /\ 0 < c)%R /\ q = q_nonlinear sigma a b c T).
Definition q_vib1 (theta T : R) : R := (/ (1 - exp (- (theta / T))))%R.
Definition q_vib (thetas : list R) (T : R) : R :=
  match thetas with
  | [theta] => (exp (- (theta / T) / 2) * q_vib1 theta T)%R
  | _ => fold_right Rmult 1%R (map (fun th => q_vib1 th T) thetas)
  end.

(** The two correction methods a user can name. *)
Inductive method_correction (rows : list shomate_row) rot vib (o : owner) : str -> (str -> res R) -> Prop :=
| method_shomate : method_correction rows rot vib o (L "shomate") (shomate_correction rows (o_T o))
| method_entropy : method_correction rows rot vib o (L "entropy") (entropy_correction rot vib o).

(** Shomate polynomials of a row at t = T/1000: enthalpy in kJ/mol, entropy and heat capacity
    in J/(mol K). *)
Definition shomate_enthalpy (r : shomate_row) (T : R) : R :=
  let t := (T / 1000)%R in
  (sh_A r * t + sh_B r * t ^ 2 / 2 + sh_C r * t ^ 3 / 3 + sh_D r * t ^ 4 / 4 - sh_E r / t + sh_F r - sh_H r)%R.
Definition shomate_entropy (r : shomate_row) (T : R) : R :=
  let t := (T / 1000)%R in
  (sh_A r * ln t + sh_B r * t + sh_C r * t ^ 2 / 2 + sh_D r * t ^ 3 / 3 - sh_E r / (2 * t ^ 2) + sh_G r)%R.
Definition shomate_heat_capacity (r : shomate_row) (T : R) : R :=
  let t := (T / 1000)%R in
  (sh_A r + sh_B r * t + sh_C r * t ^ 2 + sh_D r * t ^ 3 + sh_E r / t ^ 2)%R.

(** A row says nothing about [gas] at [T]: other gas, or [T] outside its range (below the
    range only if that starts at 300 K or above). *)
Definition row_silent (gas : str) (T : R) (r : shomate_row) : Prop :=
  sh_gas r <> gas \/ (sh_max r < T /\ sh_min r <= T)%R \/ (T < sh_min r /\ 300 <= sh_min r)%R.

(** [r] is a row of [gas], all rows before it are silent. *)
Definition row_for (rows : list shomate_row) (gas : str) (T : R) (r : shomate_row) : Prop :=
  exists before after, rows = before ++ r :: after /\ sh_gas r = gas /\
    Forall (row_silent gas T) before.

(** The gases with both rotational and vibrational temperatures. *)
Definition entropy_gases : list str :=
  [L "H2_g"; L "N2_g"; L "O2_g"; L "CO_g"; L "HCl_g"; L "I2_g"; L "NO_g"; L "CO2_g"; L "N2O_g"; L "H2O_g"; L "NH3_g"; L "CH4_g"].
(** The gases with Shomate parameters, and the highest temperature (K) they are given for. *)
Definition shomate_gases : list (str * R) :=
  [(L "H2_g", 6000); (L "CH4_g", 1600); (L "CO_g", 1600); (L "H2O_g", 6000); (L "CO2_g", 6000); (L "O2_g", 6000);
   (L "NH3_g", 1400); (L "N2_g", 2000); (L "N2O_g", 1400); (L "NO2_g", 1200); (L "NO_g", 1200); (L "NO3_g", 1200);
   (L "HNO2_g", 1200); (L "HNO3_g", 1200); (L "HCN_g", 1200); (L "CH2CH2_g", 1200); (L "CH2O_g", 1500);
   (L "CH3OH_g", 1500); (L "HCOOH_g", 1500); (L "CH3CH2OH_g", 1300)]%R.

(** The Shomate free energy by a row: relative to 298.15 K, in eV. *)
Definition shomate_free_energy (r : shomate_row) (T : R) : R :=
  (0.01036427 * (298.15 * shomate_heat_capacity r 298.15 / 1000
                 + (shomate_enthalpy r T - shomate_enthalpy r 298.15)
                 - T * shomate_entropy r T / 1000))%R.

(** Half of 5 times the gas constant (J/(mol K)): the heat capacity of a gas of structureless particles. *)
Definition monatomic_heat_capacity : R := (5 / 2 * 8.314)%R.

(** The rotation of a linear molecule is computed by the same formula at both temperatures
    (there are two, for theta / T up to 0.01 and above). *)
Definition same_rotor (thetas : list R) (T1 T2 : R) : Prop :=
  forall theta, thetas = [theta] -> (theta / T1 <= 0.01 <-> theta / T2 <= 0.01)%R.

(** Standard molar entropies and heat capacities at constant pressure of gases at 298.15 K, in
    J/(mol K), as physical chemistry texts tabulate them (rounded; not part of the program). *)
Definition standard_gases : list (str * R * R) :=
  ([(L "H2_g", 130.7, 28.8); (L "CH4_g", 186.3, 35.7); (L "CO_g", 197.7, 29.1); (L "H2O_g", 188.8, 33.6);
   (L "CO2_g", 213.8, 37.1); (L "O2_g", 205.2, 29.4); (L "NH3_g", 192.8, 35.6); (L "N2_g", 191.6, 29.1);
   (L "N2O_g", 220.0, 38.6); (L "NO2_g", 240.1, 37.2); (L "NO_g", 210.8, 29.9); (L "NO3_g", 252.6, 46.9);
   (L "HNO2_g", 249.4, 45.6); (L "HNO3_g", 266.9, 54.1); (L "HCN_g", 201.8, 35.9); (L "CH2CH2_g", 219.3, 42.9);
   (L "CH2O_g", 218.8, 35.4); (L "CH3OH_g", 239.9, 44.1); (L "HCOOH_g", 248.7, 45.7)])%R.

(** The free energy with the enthalpy at 298.15 K taken from the parameters [r0]. *)
Definition free_energy_from (r0 r : shomate_row) (T : R) : R :=
  (0.01036427 * (298.15 * shomate_heat_capacity r0 298.15 / 1000
                 + (shomate_enthalpy r T - shomate_enthalpy r0 298.15)
                 - T * shomate_entropy r T / 1000))%R.

(** The molecules of the tables: number of atoms, linear or not, number of rotations that do not change
    them, and how often each vibration is repeated (in the order of the table of the program). *)
Record molecule := { mo_gas : str; mo_atoms : nat; mo_linear : bool; mo_symmetry : R; mo_repeats : list nat }.
Definition molecules : list molecule :=
  [{| mo_gas := L "H2_g"; mo_atoms := 2; mo_linear := true; mo_symmetry := 2; mo_repeats := [1%nat] |};
   {| mo_gas := L "N2_g"; mo_atoms := 2; mo_linear := true; mo_symmetry := 2; mo_repeats := [1%nat] |};
   {| mo_gas := L "O2_g"; mo_atoms := 2; mo_linear := true; mo_symmetry := 2; mo_repeats := [1%nat] |};
   {| mo_gas := L "CO_g"; mo_atoms := 2; mo_linear := true; mo_symmetry := 1; mo_repeats := [1%nat] |};
   {| mo_gas := L "HCl_g"; mo_atoms := 2; mo_linear := true; mo_symmetry := 1; mo_repeats := [1%nat] |};
   {| mo_gas := L "I2_g"; mo_atoms := 2; mo_linear := true; mo_symmetry := 2; mo_repeats := [1%nat] |};
   {| mo_gas := L "NO_g"; mo_atoms := 2; mo_linear := true; mo_symmetry := 1; mo_repeats := [1%nat] |};
   {| mo_gas := L "CO2_g"; mo_atoms := 3; mo_linear := true; mo_symmetry := 2; mo_repeats := [2; 1; 1]%nat |};
   {| mo_gas := L "N2O_g"; mo_atoms := 3; mo_linear := true; mo_symmetry := 1; mo_repeats := [2; 1; 1]%nat |};
   {| mo_gas := L "H2O_g"; mo_atoms := 3; mo_linear := false; mo_symmetry := 2; mo_repeats := [1; 1; 1]%nat |};
   {| mo_gas := L "NH3_g"; mo_atoms := 4; mo_linear := false; mo_symmetry := 3; mo_repeats := [1; 2; 1; 2]%nat |};
   {| mo_gas := L "CH4_g"; mo_atoms := 5; mo_linear := false; mo_symmetry := 12; mo_repeats := [3; 2; 1; 3]%nat |}].
(** A molecule of n atoms has 3n degrees of freedom; three are its motion as a whole, two or three its
    rotation, the others vibrations. *)
Definition normal_modes (m : molecule) : nat := (3 * mo_atoms m - (if mo_linear m then 5 else 6))%nat.
(** Its characteristic temperatures (K) of rotation and vibration, from spectroscopy, rounded. *)
Definition spectroscopy : list (str * list R * list R) :=
  ([(L "H2_g", [87.6], [6330]); (L "N2_g", [2.88], [3390]); (L "O2_g", [2.08], [2270]); (L "CO_g", [2.78], [3120]);
    (L "HCl_g", [15.2], [4300]); (L "I2_g", [0.0538], [308]); (L "NO_g", [2.45], [2740]);
    (L "CO2_g", [0.561], [960; 1930; 3380]); (L "N2O_g", [0.603], [850; 1850; 3200]);
    (L "H2O_g", [40.1; 20.9; 13.4], [2290; 5260; 5400]); (L "NH3_g", [13.6; 13.6; 8.92], [1360; 2330; 4800; 4950]);
    (L "CH4_g", [7.54; 7.54; 7.54], [1880; 2200; 4190; 4340])])%R.
Definition within (fraction : R) (a b : R) : Prop := (Rabs (a - b) <= fraction * b)%R.

(** The logarithm of the vibrational partition function with every vibration as often as it occurs, and
    energies counted from the lowest level. *)
Fixpoint ln_vibrations (repeats : list nat) (thetas : list R) (T : R) : R :=
  match repeats, thetas with
  | n :: repeats', theta :: thetas' => (INR n * ln (q_vib1 theta T) + ln_vibrations repeats' thetas' T)%R
  | _, _ => 0%R
  end.
(** The energy of the lowest level of one vibration (eV). *)
Definition zero_point (theta : R) : R := (kB_eV * theta / 2)%R.
