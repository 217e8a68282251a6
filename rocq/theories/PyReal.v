(** Real numbers stand for the floats and multi-precision numbers of the code:
    rounding, overflow and nan are not modelled. *)
From Coq Require Import Reals List.
Import ListNotations.
Local Open Scope R_scope.

(** [x < y] (steady_state_solver.py 48-60). *)
Definition Rltb (x y : R) : bool := if Rlt_dec x y then true else false.
(** [x <= y] (thermodynamic_corrector.py 83-110). *)
Definition Rleb (x y : R) : bool := if Rle_dec x y then true else false.
(** [x == y] (solver_base.py 250-300). *)
Definition Reqb (x y : R) : bool := if Req_EM_T x y then true else false.

(** [sum(l)] (steady_state_solver.py 63) *)
Fixpoint Rsum (l : list R) : R := match l with [] => 0 | x :: t => x + Rsum t end.

(** scaks/database/thermo_data.py:6-14 *)
Definition kB_J : R := 1.38064852e-23.
(** scaks/database/thermo_data.py:6-14 *)
Definition kB_eV : R := 8.6173324e-5.
(** scaks/database/thermo_data.py:6-14 *)
Definition h_J : R := 6.626070040e-34.
(** scaks/database/thermo_data.py:6-14 *)
Definition h_eV : R := 4.135667662e-15.
(** scaks/database/thermo_data.py:6-14 *)
Definition P0 : R := 101325.
