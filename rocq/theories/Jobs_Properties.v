(** C88: jobs for many pressures, made by scripts/kmc_run/1d-run/create_jobs.py and 2d-run/create_jobs.py. *)
From Coq Require Import String Ascii List ZArith Bool Arith.
Import ListNotations.
From Verif Require Import PyBase PyData_Model PyData_Spec Jobs_Model Jobs_Read Jobs_Spec Jobs_Proofs Jobs_Runs Jobs_Witness.
Local Open Scope list_scope.

(** The text written for settings without quotes, backslashes and ends of lines in their texts gives
    the same settings when it is executed. *)
Theorem C88_read_back : forall d, writable_setup d -> exists text, dict2setup d = Ok text /\ means text d.
Proof.
  exact (fun d H => match setup_exists d H with ex_intro _ t E => ex_intro _ t (conj E (setup_means d t H E)) end).
Qed.
Print Assumptions C88_read_back.

Example C88_read_back_example : writable_setup setup0.
Proof. exact setup0_writable. Qed.

(** A text gives one set of settings only. *)
Theorem C88_one_meaning : forall text d d', means text d -> means text d' -> d = d'.
Proof. exact means_unique. Qed.
Print Assumptions C88_one_meaning.

Example C88_one_meaning_example :
  means evil_text [(L "a", WStr (L "1")); (L "n", WList [WNum (L "2")]); (L "m", WStr [])].
Proof. exact evil_means. Qed.

(** Texts are not quoted: one setting can become several. *)
Theorem C88_quoting_refuted : exists d text d', dict2setup d = Ok text /\ length d = 1 /\
  means text d' /\ length d' = 3 /\ ~ means text d.
Proof. exact quoting_lost. Qed.
Print Assumptions C88_quoting_refuted.

(** One job per pressure: each directory has the files of the template and a setup that differs from
    the template in that pressure only; of pressures with the same text the last one counts.  All other
    directories are left alone, and the list of directories is in order. *)
Theorem C88_jobs : forall (P : Type) (shown written : P -> str) template species ps locs d,
  writable_setup locs -> defined locs species -> (forall p, In p ps -> number_text (written p) = true) ->
  exists d', create_jobs_1d shown written template species ps (Some locs) d =
      (d', Ok (concat (map (fun p => shown p ++ [nl]) ps))) /\
    (forall x, ~ In x (map shown ps) -> dget d' x = dget d x) /\
    (forall a p b, ps = a ++ p :: b -> ~ In (shown p) (map shown b) ->
       exists l text, only_pressure species (written p) locs l /\ means text l /\
         dget d' (shown p) = Some (dset template (L "pt-100.mkm") text)).
Proof. exact (fun P => @jobs_1d_ok P). Qed.
Print Assumptions C88_jobs.

Example C88_jobs_example : writable_setup setup0 /\ defined setup0 (L "CO_g") /\
  (forall p, In p [p1; p2] -> number_text (written0 p) = true) /\
  [p1; p2] = [p1] ++ p2 :: [] /\ ~ In (shown0 p2) (map shown0 []).
Proof.
  split; [exact setup0_writable|]. split; [exact setup0_CO|].
  split; [|split; [reflexivity|intros []]]. intros p [<-|[<-|[]]]; reflexivity.
Qed.

(** The same for two pressures: every pair has its job. *)
Theorem C88_jobs_2d : forall (P : Type) (shown written : P -> str) template os cs locs d,
  writable_setup locs -> defined locs (L "CO_g") -> defined locs (L "O2_g") ->
  (forall p, In p (os ++ cs) -> number_text (written p) = true) ->
  exists d', create_jobs_2d shown written template os cs (Some locs) d =
      (d', Ok (concat (map (fun oc => dir_2d shown oc ++ [nl]) (list_prod os cs)))) /\
    (forall x, ~ In x (map (dir_2d shown) (list_prod os cs)) -> dget d' x = dget d x) /\
    (forall a o c b, list_prod os cs = a ++ (o, c) :: b -> ~ In (dir_2d shown (o, c)) (map (dir_2d shown) b) ->
       exists l text, both_pressures (written c) (written o) locs l /\ means text l /\
         dget d' (dir_2d shown (o, c)) = Some (dset template (L "pt-100.mkm") text)).
Proof. exact (fun P => @jobs_2d_ok P). Qed.
Print Assumptions C88_jobs_2d.

Example C88_jobs_2d_example : writable_setup setup0 /\ defined setup0 (L "CO_g") /\ defined setup0 (L "O2_g").
Proof. exact (conj setup0_writable (conj setup0_CO setup0_O2)). Qed.

(** Not every pressure keeps its job: the directory is named by the rounded text. *)
Theorem C88_own_directory_refuted : exists (shown written : str -> str) p q,
  written p <> written q /\
  map fst (fst (create_jobs_1d shown written [] (L "CO_g") [p; q] (Some setup0) [])) = [L "0.041000000000"].
Proof. exact own_directory_lost. Qed.
Print Assumptions C88_own_directory_refuted.

(** Without the setup file in the template, or with a species that is not defined there, the script
    stops at the first job, after having emptied its directory; no list of directories is written. *)
Theorem C88_no_template : forall (P : Type) (shown written : P -> str) template species p ps d,
  create_jobs_1d shown written template species (p :: ps) None d = (dset d (shown p) template, Err NameError).
Proof. exact (fun P => @no_template P). Qed.
Print Assumptions C88_no_template.

Theorem C88_no_template_2d : forall (P : Type) (shown written : P -> str) template o os c cs d,
  create_jobs_2d shown written template (o :: os) (c :: cs) None d =
    (dset d (dir_2d shown (o, c)) template, Err NameError).
Proof. exact (fun P => @no_template_2d P). Qed.
Print Assumptions C88_no_template_2d.

Theorem C88_fails : forall (P : Type) (shown written : P -> str) template species p ps locs d e,
  set_pressure locs species (written p) = Err e ->
  create_jobs_1d shown written template species (p :: ps) (Some locs) d = (dset d (shown p) template, Err e).
Proof. exact (fun P => @fails_1d P). Qed.
Print Assumptions C88_fails.

Example C88_fails_example : set_pressure setup0 (L "NO_g") (L "1.0") = Err KeyError.
Proof. vm_compute. reflexivity. Qed.

(** When a pressure cannot be set. *)
Theorem C88_errors : forall locs species p e, set_pressure locs species p = Err e <->
  (e = KeyError /\ (dget locs (L "species_definitions") = None \/
     exists defs, dget locs (L "species_definitions") = Some (WDict defs) /\ dget defs species = None)) \/
  (e = TypeError /\ ((exists v, dget locs (L "species_definitions") = Some v /\ not_dict v) \/
     exists defs v, dget locs (L "species_definitions") = Some (WDict defs) /\ dget defs species = Some v /\ not_dict v)).
Proof. exact set_pressure_errors. Qed.
Print Assumptions C88_errors.

Example C88_errors_example : dget setup0 (L "species_definitions") <> None /\
  dget [(L "CO_g", WNum (L "1"))] (L "NO_g") = None.
Proof. split; [discriminate|reflexivity]. Qed.

(** No pressures, no jobs. *)
Theorem C88_nothing : forall (P : Type) (shown written : P -> str) template species locs d,
  create_jobs_1d shown written template species [] locs d = (d, Ok []).
Proof. exact (fun P => @nothing_to_do P). Qed.
Print Assumptions C88_nothing.
