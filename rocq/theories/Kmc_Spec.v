(** What a process definition means. *)
From Coq Require Import String Ascii List ZArith NArith Bool Arith QArith Qabs.
Import ListNotations.
From Verif Require Import PyBase Kmc_Model.
Local Open Scope list_scope.
Local Open Scope nat_scope.

(** The content of a process definition. *)
Record pdef := {
  d_reaction : str;
  d_group : list (list (list Q));     (* sets of coordinates *)
  d_before : list str;
  d_after : list str;
  d_sites : list pv
}.

(** A list or a tuple with these items. *)
Definition seq_of (v : pv) (l : list pv) : Prop := v = PList l \/ v = PTuple l.

Definition is_int (v : pv) : Prop := (exists z, v = PInt z) \/ (exists b, v = PBool b).

(** The dictionary [d] states the definition [p]. *)
Record describes (d : dict pv) (p : pdef) : Prop := {
  de_reaction : dget d (L "reaction") = Some (PStr (d_reaction p));
  de_group : exists v, dget d (L "coordinates_group") = Some v /\
     seq_of v (map (fun cs => PList (map (fun c => PList (map PFloat c)) cs)) (d_group p)) ;
  de_before : exists v, dget d (L "elements_before") = Some v /\ seq_of v (map PStr (d_before p));
  de_after : exists v, dget d (L "elements_after") = Some v /\ seq_of v (map PStr (d_after p));
  de_sites : exists v, dget d (L "basis_sites") = Some v /\ seq_of v (d_sites p)
}.

(** Two positions that differ in some entry by more than the tolerance. *)
Definition apart (a b : list Q) : Prop :=
  exists i x y, nth_error a i = Some x /\ nth_error b i = Some y /\ (1 # 1000000 < Qabs (x - y))%Q.

Record well_formed (p : pdef) : Prop := {
  wf_three : forall cs c, In cs (d_group p) -> In c cs -> length c = 3;
  wf_apart : forall cs i j a b, In cs (d_group p) -> i < j ->
     nth_error cs i = Some a -> nth_error cs j = Some b -> apart a b;
  wf_before : forall cs, In cs (d_group p) -> length (d_before p) = length cs;
  wf_after : forall cs, In cs (d_group p) -> length (d_after p) = length cs;
  wf_sites : forall s, In s (d_sites p) -> is_int s
}.

(** Values that count as "not set". *)
Definition falsy (v : pv) : Prop :=
  v = PNone \/ v = PBool false \/ v = PInt 0 \/ (exists q, v = PFloat q /\ (q == 0)%Q) \/
  v = PStr [] \/ v = PList [] \/ v = PTuple [].

(** A flag of a definition: absent means not set. *)
Definition flag (d : dict pv) (k : string) (b : bool) : Prop :=
  match dget d (L k) with Some v => b = false <-> falsy v | None => b = false end.

(** Both element sequences are written in the same way. *)
Definition same_kind (d : dict pv) : Prop :=
  (exists a b, dget d (L "elements_before") = Some (PList a) /\
               dget d (L "elements_after") = Some (PList b)) \/
  (exists a b, dget d (L "elements_before") = Some (PTuple a) /\
               dget d (L "elements_after") = Some (PTuple b)).

Section Meaning.
  Context {K : Type}.

  (** Wildcards and declared types only. *)
  Definition known_elements (o : owner K) (p : pdef) : Prop :=
    forall e, In e (d_before p) \/ In e (d_after p) ->
      e = L "*" \/ In e (possible_element_types o).

  (** The rate constants of a reaction by the algorithm the model names. *)
  Definition rate_pair (o : owner K) (rxn : str) (rf rr : K) : Prop :=
    (rate_algo o = L "CT" /\ rates_CT o rxn = Ok (rf, rr)) \/
    (rate_algo o = L "TST" /\ rates_TST o rxn = Ok (rf, rr)).

  (** The processes of a definition in order, each with its label: for every site and every
      set of coordinates the event and, unless it is a redistribution, its reverse. *)
  Definition labelled (d : dict pv) (p : pdef) (rf rr : K) (fast redist : bool)
    : list (kmc_process K * str) :=
    let seq k := match dget d (L k) with Some v => v | None => PNone end in
    flat_map (fun site => flat_map (fun cs =>
      ({| p_coordinates := cs; p_before := seq "elements_before"%string;
          p_after := seq "elements_after"%string; p_site := site; p_rate := rf;
          p_fast := fast; p_redist := redist;
          p_redist_species := match dget d (L "redist_species") with Some v => v | None => PNone end |},
       d_reaction p ++ L "(->)") ::
      (if redist then [] else
       [({| p_coordinates := cs; p_before := seq "elements_after"%string;
            p_after := seq "elements_before"%string; p_site := site; p_rate := rr;
            p_fast := fast; p_redist := false; p_redist_species := PNone |},
         d_reaction p ++ L "(<-)")])) (d_group p)) (d_sites p).

  (** An acceptable definition, with its labelled processes. *)
  Definition accepted (o : owner K) (d : dict pv) (l : list (kmc_process K * str)) : Prop :=
    exists p rf rr fast redist,
      describes d p /\ well_formed p /\ same_kind d /\
      In (d_reaction p) (rxn_expressions o) /\ known_elements o p /\
      rate_pair o (d_reaction p) rf rr /\
      flag d "fast" fast /\ flag d "redist" redist /\
      l = labelled d p rf rr fast redist.

  Definition slow (pl : kmc_process K * str) : bool := negb (p_fast (fst pl)).

  (** A redistribution that is not declared fast. *)
  Definition slow_redistribution (d : dict pv) : Prop := flag d "fast" false /\ flag d "redist" true.
End Meaning.
