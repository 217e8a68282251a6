(** Vocabulary for the run scripts (C95). *)
From Coq Require Import String Ascii List ZArith QArith Bool.
Import ListNotations.
From Verif Require Import PyBase PyBase_Spec Run_Model Script_Model.
Local Open Scope list_scope.

(** A setup file: the name ends in ".mkm" and does not begin with a point. *)
Definition setup_file (n : str) : Prop :=
  (exists base, n = base ++ L ".mkm") /\ (forall t, n <> L "." ++ t).

(** Names of one line that do not look like an option. *)
Definition ordinary (n : str) : Prop := ~ In (ascii_of_nat 10) n /\ forall t, n <> L "-" ++ t.

(** The files that are no output of an earlier run. *)
Definition remaining (files : list str) (n : str) : Prop :=
  In n files /\ n <> L "out.log" /\ forall t, n <> L "auto_" ++ t.

(** The last setup file in the order of the names. *)
Definition chosen (present : str -> Prop) (n : str) : Prop :=
  present n /\ setup_file n /\ forall m, present m -> setup_file m -> m = n \/ before m n.

(** The name that a script takes for that of the setup file: without a setup file the complaint
    of the command [ls]. *)
Definition taken (present : str -> Prop) (n : str) : Prop :=
  chosen present n \/
  ((forall m, present m -> ~ setup_file m) /\ n = L "ls: cannot access '*.mkm': No such file or directory").

Section Scripts.
  Context {C G X : Type}.
  Implicit Type o : outside C G X.

  (** How an action goes when the given ones were done before. *)
  Definition answer o (h : list (action C G X)) (a : action C G X) : res unit :=
    match a with
    | Build f => o_build o h f
    | ParseData f => o_parse o h f
    | GetData => o_get_data o h
    | SolveOde s e t => do _ <- o_ode o h s e t; Ok tt
    | RunMkm kw => o_run_mkm o h kw
    | RunKmc => o_run_kmc o h
    | Clock | Say _ _ => Ok tt
    end.

  (** Doing a list of actions one after the other until one raises. *)
  Inductive performed o : list (action C G X) -> list (action C G X) -> list (action C G X) -> res unit -> Prop :=
  | performed_all h : performed o h [] h (Ok tt)
  | performed_next h a p h' r :
      answer o h a = Ok tt -> performed o (h ++ [a]) p h' r -> performed o h (a :: p) h' r
  | performed_raise h a p e :
      answer o h a = Err e -> performed o h (a :: p) (h ++ [a]) (Err e).

  Definition ending (r : res unit) : outcome := match r with Ok _ => Finished | Err e => Raised e end.

  (** What mkm_run/run.py is to do with the setup file [n] when the integration ends at [g]. *)
  Definition mkm_keywords (c : constants) (g : C) : dict (kwval C G X) :=
    [(L "init_cvgs", KGuess (Seq g)); (L "solve_ode", KBool (OdeOnly c)); (L "coarse_guess", KBool false);
     (L "XRC", KBool (CalcXRC c)); (L "product_name", KText (ProductionName c))].
  Definition mkm_plan (c : constants) (n : str) (g : C) : list (action C G X) :=
    [Build n; ParseData None; GetData; SolveOde (OdeInterval c) (OdeEnd c) (OdeOutput c);
     RunMkm (mkm_keywords c g)].

  (** The report of the time: full hours, full minutes below 60 and the rest below 60. *)
  Definition reports o (t : Q) (text : str) : Prop :=
    exists h m s, (0 <= h)%Z /\ (0 <= m < 60)%Z /\ (0 <= s)%Q /\ (s < 60)%Q /\
      (t == inject_Z h * 3600 + inject_Z m * 60 + s)%Q /\
      text = L "Time used: " ++ str_of_Z h ++ L " h " ++ str_of_Z m ++ L " min " ++ o_show o s ++ L " sec".

  (** A keyword has this value; without the keyword it is the default. *)
  Definition keyword {A} (kw : dict (kwval C G X)) (key : str) (as_value : A -> kwval C G X) (default x : A) : Prop :=
    In (key, as_value x) kw \/ (~ In key (map fst kw) /\ x = default).
  Definition known_keywords : list str :=
    map L ["init_cvgs"; "relative_energies"; "fsolve"; "coarse_guess"; "XRC"; "epsilon"; "product_name"]%string.
End Scripts.
