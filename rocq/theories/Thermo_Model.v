(** Model of scaks/correctors/thermodynamic_corrector.py and of the tables of
    scaks/database/thermo_data.py.  Floats are real numbers: no overflow, no nan. *)
From Coq Require Import String Ascii List ZArith QArith Qreals Bool Arith Reals.
Import ListNotations.
From Verif Require Import PyBase Rxn_Model Mol_Model PyReal Energy_Model.
Open Scope list_scope.

(** [x/y], [math.log(x)], [math.sqrt(x)] on floats.
    thermodynamic_corrector.py:71, 193-240, solver_base.py:88-103. *)
Definition pydiv (x y : R) : res R := if Reqb y 0 then Err ZeroDivisionError else Ok (x / y)%R.
(** [math.log(x)], thermodynamic_corrector.py:240, solver_base.py:103. *)
Definition pylog (x : R) : res R := if Rleb x 0 then Err ValueError else Ok (ln x).
(** [math.sqrt(x)], solver_base.py:88. *)
Definition pysqrt (x : R) : res R := if Rltb x 0 then Err ValueError else Ok (sqrt x).

(** One entry of [shomate_params]: the key "gas:Tmin-Tmax" already split.
    thermodynamic_corrector.py:81-83. *)
Record shomate_row := {
  sh_gas : str; sh_min : R; sh_max : R;
  sh_A : R; sh_B : R; sh_C : R; sh_D : R; sh_E : R; sh_F : R; sh_G : R; sh_H : R }.

(** thermo_data.py:20-47, 50-69, 72-165. *)
Definition rotation_temperatures : dict (R * list R) :=
  [(L "H2_g", (2, [87.5]));
   (L "D2_g", (2, [43.8]));
   (L "N2_g", (2, [2.89]));
   (L "O2_g", (2, [2.08]));
   (L "Cl2_g", (2, [0.351]));
   (L "Br2_g", (2, [0.116]));
   (L "I2_g", (2, [0.0537]));
   (L "CO_g", (1, [2.78]));
   (L "NO_g", (1, [2.45]));
   (L "HCl_g", (1, [15.2]));
   (L "HBr_g", (1, [12.2]));
   (L "HI_g", (1, [9.43]));
   (L "CO2_g", (2, [0.66]));
   (L "CS2_g", (2, [0.0643]));
   (L "N2O_g", (1, [0.61]));
   (L "H2O_g", (2, [40.4; 21.1; 13.5]));
   (L "D2O_g", (2, [22.49; 10.56; 6.7]));
   (L "H2S_g", (2, [15.1; 13.09; 6.89]));
   (L "SO2_g", (2, [3.27; 0.55; 0.47]));
   (L "NH3_g", (3, [14.3; 14.3; 9.08]));
   (L "CH4_g", (12, [7.6; 7.6; 7.6]));
   (L "CCl4_g", (12, [0.0826; 0.0826; 0.0826]))]%R.
(** Same lines: thermo_data.py:20-47, 50-69, 72-165. *)
Definition vibration_temperatures : dict (list R) :=
  [(L "H2_g", [6320]);
   (L "N2_g", [3390]);
   (L "O2_g", [2278]);
   (L "CO_g", [3120]);
   (L "HCl_g", [4330]);
   (L "I2_g", [309]);
   (L "NO_g", [2745]);
   (L "CO2_g", [954; 1890; 3360]);
   (L "N2O_g", [850; 1840; 3200]);
   (L "C2H2_g", [911; 1044; 2820; 4690; 4830]);
   (L "H2O_g", [2290; 5160; 5360]);
   (L "NH3_g", [1360; 2330; 4780; 4880]);
   (L "CH4_g", [1870; 2180; 4170; 4320]);
   (L "CHCl3_g", [374; 523; 938; 1090; 1745; 4330])]%R.
(** Same lines: thermo_data.py:20-47, 50-69, 72-165. *)
Definition shomate_params : list shomate_row :=
  [{| sh_gas := L "H2_g"; sh_min := 298; sh_max := 1000;
      sh_A := 33.066178; sh_B := (-11.363417); sh_C := 11.432816; sh_D := (-2.772874);
      sh_E := (-0.158558); sh_F := (-9.980797); sh_G := 172.707974; sh_H := 0 |};
   {| sh_gas := L "H2_g"; sh_min := 1000; sh_max := 2500;
      sh_A := 18.563083; sh_B := 12.257357; sh_C := (-2.859786); sh_D := 0.268238;
      sh_E := 1.97799; sh_F := (-1.147438); sh_G := 156.288133; sh_H := 0 |};
   {| sh_gas := L "H2_g"; sh_min := 2500; sh_max := 6000;
      sh_A := 43.41356; sh_B := (-4.293079); sh_C := 1.272428; sh_D := (-0.096876);
      sh_E := (-20.533862); sh_F := (-38.515158); sh_G := 162.081354; sh_H := 0 |};
   {| sh_gas := L "CH4_g"; sh_min := 298; sh_max := 1300;
      sh_A := (-0.703029); sh_B := 108.4773; sh_C := (-42.52157); sh_D := 5.862788;
      sh_E := 0.678565; sh_F := (-76.84376); sh_G := 158.7163; sh_H := (-74.8731) |};
   {| sh_gas := L "CH4_g"; sh_min := 1300; sh_max := 1600;
      sh_A := 85.81217; sh_B := 11.26467; sh_C := (-2.114146); sh_D := 0.13819;
      sh_E := (-26.42221); sh_F := (-153.5327); sh_G := 224.4143; sh_H := (-74.8731) |};
   {| sh_gas := L "CO_g"; sh_min := 298; sh_max := 1300;
      sh_A := 25.56759; sh_B := 6.09613; sh_C := 4.054656; sh_D := (-2.671201);
      sh_E := 0.131021; sh_F := (-118.0089); sh_G := 227.3665; sh_H := (-110.5271) |};
   {| sh_gas := L "CO_g"; sh_min := 1300; sh_max := 1600;
      sh_A := 35.1507; sh_B := 1.300095; sh_C := (-0.205921); sh_D := 0.01355;
      sh_E := (-3.28278); sh_F := (-127.8375); sh_G := 231.712; sh_H := (-110.5271) |};
   {| sh_gas := L "H2O_g"; sh_min := 100; sh_max := 500;
      sh_A := 36.303952; sh_B := (-24.11232); sh_C := 63.64111; sh_D := (-38.9524);
      sh_E := (-0.01385); sh_F := (-10.23966); sh_G := 237.39431; sh_H := 0 |};
   {| sh_gas := L "H2O_g"; sh_min := 500; sh_max := 1700;
      sh_A := 30.092; sh_B := 6.832514; sh_C := 6.793435; sh_D := (-2.53448);
      sh_E := 0.082139; sh_F := (-250.881); sh_G := 223.3967; sh_H := (-241.8264) |};
   {| sh_gas := L "H2O_g"; sh_min := 1700; sh_max := 6000;
      sh_A := 41.96426; sh_B := 8.622053; sh_C := (-1.49978); sh_D := 0.098119;
      sh_E := (-11.15764); sh_F := (-272.1797); sh_G := 219.7809; sh_H := (-241.8264) |};
   {| sh_gas := L "CO2_g"; sh_min := 298; sh_max := 1200;
      sh_A := 24.99735; sh_B := 55.18696; sh_C := (-33.69137); sh_D := 7.948387;
      sh_E := (-0.136638); sh_F := (-403.6075); sh_G := 228.2431; sh_H := (-393.5224) |};
   {| sh_gas := L "CO2_g"; sh_min := 1200; sh_max := 6000;
      sh_A := 58.16639; sh_B := 2.720075; sh_C := (-0.492289); sh_D := 0.038844;
      sh_E := (-6.447293); sh_F := (-425.9186); sh_G := 263.6125; sh_H := (-393.5224) |};
   {| sh_gas := L "O2_g"; sh_min := 100; sh_max := 700;
      sh_A := 31.32234; sh_B := (-20.23531); sh_C := 57.8664; sh_D := (-36.50624);
      sh_E := (-0.007374); sh_F := (-8.903471); sh_G := 246.7945; sh_H := 0 |};
   {| sh_gas := L "O2_g"; sh_min := 700; sh_max := 2000;
      sh_A := 30.03235; sh_B := 8.772972; sh_C := (-3.988133); sh_D := 0.788313;
      sh_E := (-0.741599); sh_F := (-11.32468); sh_G := 236.1663; sh_H := 0 |};
   {| sh_gas := L "O2_g"; sh_min := 2000; sh_max := 6000;
      sh_A := 20.91111; sh_B := 10.72071; sh_C := (-2.020498); sh_D := 0.146449;
      sh_E := 9.245722; sh_F := 5.337651; sh_G := 237.6185; sh_H := 0 |};
   {| sh_gas := L "NH3_g"; sh_min := 298; sh_max := 1400;
      sh_A := 19.99563; sh_B := 49.77119; sh_C := (-15.37599); sh_D := 1.921168;
      sh_E := 0.189174; sh_F := (-53.30667); sh_G := 203.8591; sh_H := (-45.89806) |};
   {| sh_gas := L "N2_g"; sh_min := 100; sh_max := 500;
      sh_A := 28.98641; sh_B := 1.853978; sh_C := (-9.647459); sh_D := 16.63537;
      sh_E := 0.000117; sh_F := (-8.671914); sh_G := 226.4168; sh_H := 0 |};
   {| sh_gas := L "N2_g"; sh_min := 500; sh_max := 2000;
      sh_A := 19.50583; sh_B := 19.88705; sh_C := (-8.598535); sh_D := 1.369784;
      sh_E := 0.527601; sh_F := (-4.935202); sh_G := 212.39; sh_H := 0 |};
   {| sh_gas := L "N2O_g"; sh_min := 298; sh_max := 1400;
      sh_A := 27.67988; sh_B := 51.14898; sh_C := (-30.64454); sh_D := 6.847911;
      sh_E := (-0.157906); sh_F := 71.24934; sh_G := 238.6164; sh_H := 82.04824 |};
   {| sh_gas := L "NO2_g"; sh_min := 298; sh_max := 1200;
      sh_A := 16.10857; sh_B := 75.89525; sh_C := (-54.3874); sh_D := 14.30777;
      sh_E := 0.239423; sh_F := 26.17464; sh_G := 240.5386; sh_H := 33.09502 |};
   {| sh_gas := L "NO_g"; sh_min := 298; sh_max := 1200;
      sh_A := 23.83491; sh_B := 12.58878; sh_C := (-1.139011); sh_D := (-1.497459);
      sh_E := 0.214194; sh_F := 83.35783; sh_G := 237.1219; sh_H := 90.29114 |};
   {| sh_gas := L "NO3_g"; sh_min := 298; sh_max := 1200;
      sh_A := 11.22316; sh_B := 166.3889; sh_C := (-148.4458); sh_D := 47.40598;
      sh_E := (-0.176791); sh_F := 61.00858; sh_G := 221.7679; sh_H := 71.128 |};
   {| sh_gas := L "HNO2_g"; sh_min := 298; sh_max := 1200;
      sh_A := 24.89974; sh_B := 91.37563; sh_C := (-64.84614); sh_D := 17.92007;
      sh_E := (-0.134737); sh_F := (-88.13596); sh_G := 254.2671; sh_H := (-76.73498) |};
   {| sh_gas := L "HNO3_g"; sh_min := 298; sh_max := 1200;
      sh_A := 19.63229; sh_B := 153.9599; sh_C := (-115.8378); sh_D := 32.87955;
      sh_E := (-0.249114); sh_F := (-146.8818); sh_G := 247.7049; sh_H := (-134.306) |};
   {| sh_gas := L "HCN_g"; sh_min := 298; sh_max := 1200;
      sh_A := 32.69373; sh_B := 22.59205; sh_C := (-4.369142); sh_D := (-0.407697);
      sh_E := (-0.282399); sh_F := 123.4811; sh_G := 233.2597; sh_H := 135.1432 |};
   {| sh_gas := L "CH2CH2_g"; sh_min := 298; sh_max := 1200;
      sh_A := (-6.38788); sh_B := 184.4019; sh_C := (-112.9718); sh_D := 28.49593;
      sh_E := 0.31554; sh_F := 48.17332; sh_G := 163.1568; sh_H := 52.46694 |};
   {| sh_gas := L "CH2O_g"; sh_min := 298; sh_max := 1500;
      sh_A := 5.193767; sh_B := 93.23249; sh_C := (-44.85457); sh_D := 7.882279;
      sh_E := 0.551175; sh_F := (-119.3591); sh_G := 202.4663; sh_H := (-115.8972) |};
   {| sh_gas := L "CH3OH_g"; sh_min := 298; sh_max := 1500;
      sh_A := (-0.54480506209266066); sh_B := 151.88669435629552; sh_C := (-78.31823594271188); sh_D := 16.106518370880025;
      sh_E := 0.49380897934744739; sh_F := (-5.008); sh_G := 200.05003685507603; sh_H := 0 |};
   {| sh_gas := L "HCOOH_g"; sh_min := 298; sh_max := 1500;
      sh_A := 3.8027523042252258; sh_B := 153.66217894746168; sh_C := (-84.640467738169264); sh_D := 16.297377707561505;
      sh_E := 0.27720649972633382; sh_F := (-6.16527); sh_G := 212.9698972559699; sh_H := 0 |};
   {| sh_gas := L "CH3CH2OH_g"; sh_min := 273; sh_max := 1300;
      sh_A := 6.372731; sh_B := (136.5066 * 2); sh_C := ((-54.3367) * 3); sh_D := (9.6942975 * 4);
      sh_E := 0.334329; sh_F := (-7.25); sh_G := 201; sh_H := 0 |}]%R.

(** thermodynamic_corrector.py:15 *)
Definition kJmol2eV : R := 0.01036427.
(** Same lines: thermodynamic_corrector.py:15. *)
Definition T_ref : R := 298.15.

(** Nested functions H, S, Cp of [shomate_correction], thermodynamic_corrector.py:65-83.
    They are only called at the reference temperature, at a table bound or between the
    bounds of a row: positive for the rows above, so [np.log] is [ln] and no division
    is by zero. *)
Definition shomate_H (T : R) (r : shomate_row) : R :=
  let t := (T / 1000)%R in
  (sh_A r * t + (sh_B r / 2) * t ^ 2 + (sh_C r / 3) * t ^ 3 + (sh_D r / 4) * t ^ 4
   - sh_E r / t + sh_F r - sh_H r)%R.
(** Same lines: thermodynamic_corrector.py:65-83. *)
Definition shomate_S (T : R) (r : shomate_row) : R :=
  let t := (T / 1000)%R in
  (sh_A r * ln t + sh_B r * t + (sh_C r / 2) * t ^ 2 + (sh_D r / 3) * t ^ 3
   - sh_E r / (2 * t ^ 2) + sh_G r)%R.
(** Same lines: thermodynamic_corrector.py:65-83. *)
Definition shomate_Cp (T : R) (r : shomate_row) : R :=
  let t := (T / 1000)%R in
  (sh_A r + sh_B r * t + sh_C r * t ^ 2 + sh_D r * t ^ 3 + sh_E r / t ^ 2)%R.

(** The loop over the table, thermodynamic_corrector.py:85-129: the first row of the gas
    that applies; 0 if there is none. *)
Fixpoint shomate_loop (rows : list shomate_row) (gas : str) (T : R) : R :=
  match rows with
  | [] => 0%R
  | r :: t =>
      if negb (str_eqb (sh_gas r) gas) then shomate_loop t gas T
      else if Rleb (sh_min r) T && Rleb T (sh_max r) then
        let dH := ((T_ref * shomate_Cp T_ref r / 1000
                    + (shomate_H T r - shomate_H T_ref r)) * kJmol2eV)%R in
        let dS := (shomate_S T r * (kJmol2eV / 1000))%R in
        (dH - T * dS)%R
      else if Rltb T (sh_min r) && Rltb (sh_min r) 300 then
        let dH := ((T * shomate_Cp (sh_min r) r / 1000) * kJmol2eV)%R in
        let dS := (shomate_S (sh_min r) r * (kJmol2eV / 1000))%R in
        (dH - T * dS)%R
      else shomate_loop t gas T
  end.

(** What the corrector and the solvers read from their owner, the model.
    thermodynamic_corrector.py:34-137, 243-330. *)
Record owner := {
  o_T : R;                          (* temperature *)
  o_pressures : dict (option R);    (* species_definitions[..]: the entry "pressure" if any *)
  o_rxns : list str;                (* rxn_expressions *)
  o_rxns_list : list (list (list formula)); (* elementary_rxns_list *)
  o_Auc : R;                        (* unitcell_area *)
  o_act_ratio : R;                  (* active_ratio *)
  o_corrector_str : bool            (* corrector is still a text, not an object *)
}.

(** [species_definitions[gas]["pressure"]] (thermodynamic_corrector.py:187-188) *)
Definition pressure_of (o : owner) (gas : str) : res R :=
  do d <- dindex (o_pressures o) gas;
  match d with Some p => Ok p | None => Err KeyError end.

(** [shomate_correction(gas_name, T)], thermodynamic_corrector.py:34-137. *)
Definition shomate_correction (rows : list shomate_row) (T : R) (gas_name : str) : res R :=
  do f <- parse_formula gas_name;
  match formula_type f with
  | Gas => Ok (shomate_loop rows gas_name T)
  | _ => Ok 0%R
  end.

(** Partition functions in [entropy_correction], thermodynamic_corrector.py:193-239.
    [x ** (3/2.0)] of a negative float is a complex number; the final [log] then raises
    TypeError: [None]. *)
Definition pow_3_2 (x : R) : option R := if Rltb x 0 then None else Some (x * sqrt x)%R.
(** Same lines: thermodynamic_corrector.py:193-239. *)
Definition pow_half (x : R) : option R := if Rltb x 0 then None else Some (sqrt x).
(** Same lines: thermodynamic_corrector.py:193-239. *)
Definition omul (a b : option R) : option R :=
  match a, b with Some x, Some y => Some (x * y)%R | _, _ => None end.

(** thermodynamic_corrector.py:204-223. *)
Definition rot_partition (T sigma : R) (thetas : list R) : res (option R) :=
  match thetas with
  | [theta] =>
      do ratio <- pydiv theta T;
      do q <- pydiv T (sigma * theta)%R;
      if Rleb ratio 0.01 then Ok (Some q)
      else
        do a <- pydiv theta (3 * T)%R;
        do b <- pydiv (theta ^ 2)%R (15 * T ^ 2)%R;
        (* self.logger does not exist *)
        if Rleb 0.3 ratio then Err AttributeError
        else Ok (Some (q * (1 + a + b))%R)
  | [a; b; c] =>
      do s <- pydiv (sqrt PI) sigma;
      do x <- pydiv (T ^ 3)%R (a * b * c)%R;
      Ok (omul (Some s) (pow_half x))
  | _ => Err UnboundLocalError
  end.

(** thermodynamic_corrector.py:234. *)
Definition vib_factor (T theta : R) : res R :=
  do x <- pydiv (- theta)%R T;
  pydiv 1 (1 - exp x)%R.
(** thermodynamic_corrector.py:225-235. *)
Definition vib_partition (T : R) (thetas : list R) : res R :=
  match thetas with
  | [theta] =>
      do x <- pydiv (- theta)%R (2 * T)%R;
      do y <- pydiv (- theta)%R T;
      pydiv (exp x) (1 - exp y)%R
  | _ =>
      do l <- mapM (vib_factor T) thetas;
      match l with
      | [] => Err TypeError
      | x :: t => Ok (fold_left Rmult t x)
      end
  end.

(** thermodynamic_corrector.py:194-202. *)
Definition trans_partition (m p T : R) : res (option R) :=
  do v <- pydiv (kB_J * T)%R p;
  Ok (omul (Some v) (pow_3_2 (2 * PI * m * kB_J * T / (h_J ^ 2))%R)).

(** [entropy_correction(gas_name, m, p, T)] with all arguments given,
    thermodynamic_corrector.py:139-241. *)
Definition free_energy (rot : dict (R * list R)) (vib : dict (list R))
    (f : formula) (mp : res (R * R)) (T : R) : res R :=
  match formula_type f with
  | Gas =>
      match dget rot (f_species_site f), dget vib (f_species_site f) with
      | Some (sigma, rthetas), Some vthetas =>
          do mp' <- mp;
          let (m, p) := (mp' : R * R) in
          do qt <- trans_partition m p T;
          do qr <- rot_partition T sigma rthetas;
          do qv <- vib_partition T vthetas;
          match omul (omul qt qr) (Some qv) with
          | None => Err TypeError
          | Some q => do l <- pylog q; Ok (- kB_eV * T * l)%R
          end
      | _, _ => Ok 0%R
      end
  | _ => Ok 0%R
  end.
(** Same lines: thermodynamic_corrector.py:139-241. *)
Definition entropy_correction_full rot vib (gas_name : str) (m p T : R) : res R :=
  do f <- parse_formula gas_name;
  free_energy rot vib f (Ok (m, p)) T.

(** [entropy_correction(gas_name)] with the default arguments, lines 182-189. *)
Definition entropy_correction rot vib (o : owner) (gas_name : str) : res R :=
  do f <- parse_formula gas_name;
  free_energy rot vib f
    (do m <- molecular_mass (f_species f) true;
     do p <- pressure_of o (f_species_site f);
     Ok (Q2R m, (P0 * p)%R)) (o_T o).

(** [__correct_single_relative_energies], thermodynamic_corrector.py:289-306: the
    energy changes of the states. *)
Fixpoint add_corrections (cf : str -> res R) (acc : R) (fs : list formula) : res R :=
  match fs with
  | [] => Ok acc
  | f :: t => do c <- cf (f_text f); add_corrections cf (acc + c)%R t
  end.
(** Same lines: thermodynamic_corrector.py:289-306. *)
Definition state_deltas (cf : str -> res R) (fls : list (list formula)) : res (list R) :=
  mapM (add_corrections cf 0%R) fls.

(** [__change_relative_energies], thermodynamic_corrector.py:308-348. *)
Definition change_energies (deltas : list R) (t : R * R * R) : R * R * R :=
  let '(gaf, gar, dg) := t in
  match deltas with
  | [d_is; d_fs] =>
      let e_is := (0 + d_is)%R in
      let e_fs := (0 + dg + d_fs)%R in
      let e_ts := Rmax e_is e_fs in
      (e_ts - e_is, e_ts - e_fs, e_fs - e_is)%R
  | [d_is; d_ts; d_fs] =>
      (gaf + (d_ts - d_is), gar + (d_ts - d_fs), dg + (d_fs - d_is))%R
  | _ => t
  end.

(** [l[i] = x] (thermodynamic_corrector.py:308-330) *)
Fixpoint lset {A} (l : list A) (i : nat) (x : A) : list A :=
  match l, i with
  | [], _ => []
  | _ :: t, O => x :: t
  | y :: t, S k => y :: lset t k x
  end.

(** thermodynamic_corrector.py:289-330. *)
Definition rel_get (r : rel_energies) (i : nat) : res (R * R * R) :=
  do a <- lindex (r_Gaf r) i;
  do b <- lindex (r_Gar r) i;
  do c <- lindex (r_dG r) i;
  Ok (a, b, c).
(** thermodynamic_corrector.py:308-330. *)
Definition rel_set (r : rel_energies) (i : nat) (t : R * R * R) : rel_energies :=
  let '(a, b, c) := t in
  {| r_Gaf := lset (r_Gaf r) i a; r_Gar := lset (r_Gar r) i b; r_dG := lset (r_dG r) i c |}.

(** One turn of the loop of [correct_relative_energies]. thermodynamic_corrector.py:263-287. *)
Definition correct_one (cf : str -> res R) (rxns : list (list (list formula))) (i : nat)
    (r : rel_energies) : res rel_energies :=
  do t <- rel_get r i;
  do fls <- lindex rxns i;
  do ds <- state_deltas cf fls;
  Ok (rel_set r i (change_energies ds t)).

(** [n] turns from index [i].  The dictionary is modified in place: it is returned also
    when an exception is raised. thermodynamic_corrector.py:263-287. *)
Fixpoint correct_loop (cf : str -> res R) (rxns : list (list (list formula))) (i n : nat)
    (r : rel_energies) : rel_energies * res unit :=
  match n with
  | O => (r, Ok tt)
  | S k => match correct_one cf rxns i r with
           | Err e => (r, Err e)
           | Ok r' => correct_loop cf rxns (S i) k r'
           end
  end.

(** [correct_relative_energies(relative_energies, method)],
    thermodynamic_corrector.py:243-287 (log output left out). *)
Definition correct_relative_energies (rows : list shomate_row) rot vib (o : owner) (method : str)
    (r : rel_energies) : rel_energies * res unit :=
  if str_eqb method (L "shomate") then
    correct_loop (shomate_correction rows (o_T o)) (o_rxns_list o) 0 (length (o_rxns o)) r
  else if str_eqb method (L "entropy") then
    correct_loop (entropy_correction rot vib o) (o_rxns_list o) 0 (length (o_rxns o)) r
  else (r, Err ValueError).
