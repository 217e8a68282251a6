(** What the shared logger should be found to do, read off the history of a program. *)
From Coq Require Import String Ascii List ZArith Bool Arith.
Import ListNotations.
From Verif Require Import PyBase Log_Model.
Local Open Scope list_scope.
Local Open Scope nat_scope.

(** The lines that a file or the console has received. *)
Definition same_sink (a b : sink) : bool :=
  match a, b with
  | ToFile m, ToFile n => str_eqb m n
  | ToConsole, ToConsole => true
  | _, _ => false
  end.
Definition lines (w : world) (s : sink) : list str :=
  map snd (filter (fun x => same_sink (fst x) s) (w_out w)).

(** [h] = [before] ++ [v] where [v] is what happened after the handlers were last cleared. *)
Inductive since_cleared : list op -> list op -> Prop :=
| sc_never h : ~ In OClear h -> since_cleared h h
| sc_cleared g v : ~ In OClear v -> since_cleared (g ++ OClear :: v) v.

(** The models that got their log file: file, level of the file, level of the console. *)
Definition made_by (o : op) : list (str * Z * Z) :=
  match o with
  | OStart k size rank true _ f c => [(log_file k size rank, f, c)]
  | _ => []
  end.
Definition made (v : list op) : list (str * Z * Z) := flat_map made_by v.

(** The changes of level that concern a class of handlers; a worker of an MPI run makes one
    of its own. *)
Definition changed_by (ty : str) (o : op) : list Z :=
  match o with
  | OSetLevel t level => if str_eqb t ty then [level] else []
  | OStart Micro _ (S _) true _ _ _ => if str_eqb (L "StreamHandler") ty then [30%Z] else []
  | _ => []
  end.

(** Those made when there was a handler already. *)
Fixpoint changes (ty : str) (v : list op) : list Z :=
  match v with
  | [] => []
  | o :: t => match made_by o with
              | [] => changes ty t
              | _ => flat_map (changed_by ty) (o :: t)
              end
  end.

(** The level of the first handler of a class: as last changed, else as made. *)
Definition first_level (ty : str) (v : list op) (level : Z) : Z := last (changes ty v) level.

(** The levels of all handlers that write to a file, or to the console: only the first model
    has its levels changed. *)
Definition file_levels (v : list op) (name : str) : list Z :=
  match made v with
  | [] => []
  | (n, f, _) :: t =>
      map (fun x => snd (fst x))
        (filter (fun x => str_eqb (fst (fst x)) name)
           ((n, first_level (L "FileHandler") v f, 0%Z) :: t))
  end.
Definition console_levels (v : list op) : list Z :=
  match made v with
  | [] => []
  | (_, _, c) :: t => first_level (L "StreamHandler") v c :: map snd t
  end.

(** The level of the newest model governs (a file that cannot be opened is no obstacle); if it
    is 0, or without a model, that of the root logger does. *)
Inductive threshold : list op -> Z -> Prop :=
| th_none : threshold [] 30
| th_start h k s r b l f c :
    threshold (h ++ [OStart k s r b l f c]) (if Z.eqb l 0 then 30 else l)
| th_other h o l : threshold h l -> (forall k s r b l f c, o <> OStart k s r b l f c) ->
    threshold (h ++ [o]) l.

(** The lines that a message adds to where [levels] are the levels of the handlers. *)
Definition copies (level : Z) (levels : list Z) (text : str) : list str :=
  map (fun _ => text) (filter (fun l => Z.leb l level) levels).

(** The line of a message: name, three blanks, level in at least eight places, a blank, text. *)
Inductive line_of : str -> Z -> str -> str -> Prop :=
| line_known name level word blanks msg :
    In (level, word) [(10, L "DEBUG"); (20, L "INFO"); (30, L "WARNING"); (40, L "ERROR");
                      (50, L "CRITICAL")]%Z ->
    (forall c, In c blanks -> c = ch " ") -> length (word ++ blanks) = 8 ->
    line_of name level msg (name ++ L "   " ++ (word ++ blanks) ++ L " " ++ msg).
