(** The part of Python in which SCAKS writes its data files and in which its scripts read
    them back with [exec]: assignments of lists, tuples and dictionaries of numbers and
    texts, and [x.extend(y)], [x.extend(y[2])], [x[1].extend(y[1])]; comments, blank lines.
    Everything else is answered with [Unsupported] or an exception, never with a value.
    Numbers are kept as the text of the literal.  Values have no identity: two names never
    share one list, so the result is that of Python as long as no extended list is reachable
    under two names (in the files written by SCAKS every extended list is a fresh literal). *)
From Coq Require Import String Ascii List ZArith NArith Bool Arith.
Import ListNotations.
From Verif Require Import PyBase.
Local Open Scope list_scope.

(** The end of line written by format_utilities.py 10-68. *)
Definition nl : ascii := ascii_of_nat 10.
(** The quote of repr, format_utilities.py 10-68. *)
Definition quote : ascii := "'"%char.

(** ** Numbers: [-]digits[.digits][e[+-]digits]
    Part of reading a data file: scripts/kmc_plot/plot_merged_coverages.py 12, plot_tof.py 15, relative_energy_parser.py 85. *)
Inductive nstate := NStart | NSign | NInt | NPoint | NFrac | NExp | NExpSign | NExpInt.

(** Part of reading a data file: scripts/kmc_plot/plot_merged_coverages.py 12, plot_tof.py 15,
    relative_energy_parser.py 85. *)
Definition nstep (st : nstate) (c : ascii) : option nstate :=
  match st with
  | NStart => if is_digit c then Some NInt else if Ascii.eqb c "-" then Some NSign else None
  | NSign => if is_digit c then Some NInt else None
  | NInt => if is_digit c then Some NInt else if Ascii.eqb c "." then Some NPoint
            else if Ascii.eqb c "e" then Some NExp else None
  | NPoint => if is_digit c then Some NFrac else None
  | NFrac => if is_digit c then Some NFrac else if Ascii.eqb c "e" then Some NExp else None
  | NExp => if is_digit c then Some NExpInt
            else if Ascii.eqb c "+" || Ascii.eqb c "-" then Some NExpSign else None
  | NExpSign => if is_digit c then Some NExpInt else None
  | NExpInt => if is_digit c then Some NExpInt else None
  end.

(** Part of reading a data file: scripts/kmc_plot/plot_merged_coverages.py 12, plot_tof.py 15,
    relative_energy_parser.py 85. *)
Fixpoint nrun (st : nstate) (s : str) : option nstate :=
  match s with
  | [] => Some st
  | c :: t => match nstep st c with Some st' => nrun st' t | None => None end
  end.

(** Part of reading a data file: scripts/kmc_plot/plot_merged_coverages.py 12, plot_tof.py 15,
    relative_energy_parser.py 85. *)
Definition number_text (s : str) : bool :=
  match nrun NStart s with
  | Some NInt | Some NFrac | Some NExpInt => true
  | _ => false
  end.

(** ** Tokens
    Part of reading a data file: scripts/kmc_plot/plot_merged_coverages.py 12, plot_tof.py 15, relative_energy_parser.py 85. *)
Inductive dtok :=
| DName (s : str) | DNum (s : str) | DStr (s : str)
| DOpen (c : ascii) | DClose (c : ascii)
| DComma | DColon | DDot | DEq
| DNl                      (* end of a physical line *)
| DIndent.                 (* a line that begins with a blank *)

(** Part of reading a data file: scripts/kmc_plot/plot_merged_coverages.py 12, plot_tof.py 15,
    relative_energy_parser.py 85. *)
Definition keywords : list str := map L
  ["False"; "None"; "True"; "and"; "as"; "assert"; "async"; "await"; "break"; "class";
   "continue"; "def"; "del"; "elif"; "else"; "except"; "finally"; "for"; "from"; "global";
   "if"; "import"; "in"; "is"; "lambda"; "nonlocal"; "not"; "or"; "pass"; "raise"; "return";
   "try"; "while"; "with"; "yield"]%string.

(** Letters that, put directly before a quote, change the meaning of a text literal.
    Part of reading a data file: scripts/kmc_plot/plot_merged_coverages.py 12, plot_tof.py 15, relative_energy_parser.py 85. *)
Definition literal_prefix (s : str) : bool :=
  forallb (fun c => has_char c (L "rRuUbBfF")) s && (length s <=? 2)%nat.

(** Part of reading a data file: scripts/kmc_plot/plot_merged_coverages.py 12, plot_tof.py 15,
    relative_energy_parser.py 85. *)
Inductive dstate :=
| SBol | SStart
| SNum (acc : str)
| SName (acc : str)
| SStr (acc : str)
| SStrEnd (acc : str)
| SComment.

(** Part of reading a data file: scripts/kmc_plot/plot_merged_coverages.py 12, plot_tof.py 15,
    relative_energy_parser.py 85. *)
Definition num_cont (c : ascii) : bool :=
  is_word c || Ascii.eqb c "." || Ascii.eqb c "+" || Ascii.eqb c "-".

(** Part of reading a data file: scripts/kmc_plot/plot_merged_coverages.py 12, plot_tof.py 15,
    relative_energy_parser.py 85. *)
Definition dres := res (list dtok * dstate).

(** Part of reading a data file: scripts/kmc_plot/plot_merged_coverages.py 12, plot_tof.py 15,
    relative_energy_parser.py 85. *)
Definition dstart (c : ascii) : dres :=
  if Ascii.eqb c " " then Ok ([], SStart)
  else if Ascii.eqb c nl then Ok ([DNl], SBol)
  else if is_digit c || Ascii.eqb c "-" then Ok ([], SNum [c])
  else if is_letter c || Ascii.eqb c "_" then Ok ([], SName [c])
  else if Ascii.eqb c quote then Ok ([], SStr [])
  else if Ascii.eqb c "#" then Ok ([], SComment)
  else if Ascii.eqb c "[" || Ascii.eqb c "(" || Ascii.eqb c "{" then Ok ([DOpen c], SStart)
  else if Ascii.eqb c "]" || Ascii.eqb c ")" || Ascii.eqb c "}" then Ok ([DClose c], SStart)
  else if Ascii.eqb c "," then Ok ([DComma], SStart)
  else if Ascii.eqb c ":" then Ok ([DColon], SStart)
  else if Ascii.eqb c "." then Ok ([DDot], SStart)
  else if Ascii.eqb c "=" then Ok ([DEq], SStart)
  else Err Unsupported.

(** Part of reading a data file: scripts/kmc_plot/plot_merged_coverages.py 12, plot_tof.py 15,
    relative_energy_parser.py 85. *)
Definition demit (ts : list dtok) (r : dres) : dres :=
  do (ts', st) <- r; Ok (ts ++ ts', st).

(** Part of reading a data file: scripts/kmc_plot/plot_merged_coverages.py 12, plot_tof.py 15,
    relative_energy_parser.py 85. *)
Definition end_num (acc : str) : res (list dtok) :=
  if number_text acc then Ok [DNum acc] else Err Unsupported.

(** Part of reading a data file: scripts/kmc_plot/plot_merged_coverages.py 12, plot_tof.py 15,
    relative_energy_parser.py 85. *)
Definition end_name (acc : str) : res (list dtok) :=
  if str_mem acc keywords then Err Unsupported else Ok [DName acc].

(** Part of reading a data file: scripts/kmc_plot/plot_merged_coverages.py 12, plot_tof.py 15,
    relative_energy_parser.py 85. *)
Definition dstep (st : dstate) (c : ascii) : dres :=
  match st with
  | SBol => if Ascii.eqb c " " then Ok ([DIndent], SStart) else dstart c
  | SStart => dstart c
  | SNum acc => if num_cont c then Ok ([], SNum (acc ++ [c]))
                else do ts <- end_num acc; demit ts (dstart c)
  | SName acc => if is_word c then Ok ([], SName (acc ++ [c]))
                 else if Ascii.eqb c quote && literal_prefix acc then Err Unsupported
                 else do ts <- end_name acc; demit ts (dstart c)
  | SStr acc => if Ascii.eqb c quote then Ok ([], SStrEnd acc)
                else if Ascii.eqb c "\" then Err Unsupported
                else if Ascii.eqb c nl then Err SyntaxError
                else Ok ([], SStr (acc ++ [c]))
  | SStrEnd acc => if Ascii.eqb c quote then Err Unsupported
                   else demit [DStr acc] (dstart c)
  | SComment => if Ascii.eqb c nl then Ok ([DNl], SBol) else Ok ([], SComment)
  end.

(** Part of reading a data file: scripts/kmc_plot/plot_merged_coverages.py 12, plot_tof.py 15,
    relative_energy_parser.py 85. *)
Fixpoint drun (st : dstate) (s : str) : dres :=
  match s with
  | [] => Ok ([], st)
  | c :: t => do (ts, st') <- dstep st c; demit ts (drun st' t)
  end.

(** Part of reading a data file: scripts/kmc_plot/plot_merged_coverages.py 12, plot_tof.py 15,
    relative_energy_parser.py 85. *)
Definition dflush (st : dstate) : res (list dtok) :=
  match st with
  | SNum acc => end_num acc
  | SName acc => end_name acc
  | SStr _ => Err SyntaxError
  | SStrEnd acc => Ok [DStr acc]
  | _ => Ok []
  end.

(** Part of reading a data file: scripts/kmc_plot/plot_merged_coverages.py 12, plot_tof.py 15,
    relative_energy_parser.py 85. *)
Definition dlex (s : str) : res (list dtok) :=
  do (ts, st) <- drun SBol s; do ts' <- dflush st; Ok (ts ++ ts').

(** ** Logical lines: ends of lines and indentation inside brackets do not count.
    Part of reading a data file: scripts/kmc_plot/plot_merged_coverages.py 12, plot_tof.py 15, relative_energy_parser.py 85. *)
Fixpoint group (depth : nat) (acc : list dtok) (ts : list dtok) : list (list dtok) :=
  match ts with
  | [] => [acc]
  | DNl :: t => match depth with
                | O => acc :: group O [] t
                | _ => group depth acc t
                end
  | DIndent :: t => match depth with
                    | O => group O (acc ++ [DIndent]) t
                    | _ => group depth acc t
                    end
  | DOpen c :: t => group (S depth) (acc ++ [DOpen c]) t
  | DClose c :: t => group (pred depth) (acc ++ [DClose c]) t
  | x :: t => group depth (acc ++ [x]) t
  end.

(** ** Values
    Part of reading a data file: scripts/kmc_plot/plot_merged_coverages.py 12, plot_tof.py 15, relative_energy_parser.py 85. *)
Inductive val :=
| VNum (s : str)
| VStr (s : str)
| VList (l : list val)
| VTuple (l : list val).

(** One open bracket: tuple or list, the items so far, whether an item has just been read
    (so that a comma or the closing bracket must follow), whether a comma has been read.
    Part of reading a data file: scripts/kmc_plot/plot_merged_coverages.py 12, plot_tof.py 15, relative_energy_parser.py 85. *)
Record frame := { f_tuple : bool; f_items : list val; f_item : bool; f_comma : bool }.

(** Part of reading a data file: scripts/kmc_plot/plot_merged_coverages.py 12, plot_tof.py 15,
    relative_energy_parser.py 85. *)
Inductive pstate :=
| PPart (fs : list frame)
| PDone (v : val).

(** Part of reading a data file: scripts/kmc_plot/plot_merged_coverages.py 12, plot_tof.py 15,
    relative_energy_parser.py 85. *)
Definition is_text (v : option val) : bool :=
  match v with Some (VStr _) => true | _ => false end.

(** Part of reading a data file: scripts/kmc_plot/plot_merged_coverages.py 12, plot_tof.py 15,
    relative_energy_parser.py 85. *)
Definition last_item (l : list val) : option val :=
  match rev l with x :: _ => Some x | [] => None end.

(** Part of reading a data file: scripts/kmc_plot/plot_merged_coverages.py 12, plot_tof.py 15,
    relative_energy_parser.py 85. *)
Definition feed (v : val) (fs : list frame) : res pstate :=
  match fs with
  | [] => Ok (PDone v)
  | f :: r =>
      if f_item f then
        (if is_text (last_item (f_items f)) && is_text (Some v) then Err Unsupported
         else Err SyntaxError)
      else Ok (PPart ({| f_tuple := f_tuple f; f_items := f_items f ++ [v];
                         f_item := true; f_comma := f_comma f |} :: r))
  end.

(** Part of reading a data file: scripts/kmc_plot/plot_merged_coverages.py 12, plot_tof.py 15,
    relative_energy_parser.py 85. *)
Definition close_frame (f : frame) : res val :=
  if f_tuple f then
    (if f_comma f then Ok (VTuple (f_items f))
     else match f_items f with
          | [] => Ok (VTuple [])
          | [v] => Ok v                  (* parentheses only *)
          | _ => Err SyntaxError
          end)
  else Ok (VList (f_items f)).

(** Part of reading a data file: scripts/kmc_plot/plot_merged_coverages.py 12, plot_tof.py 15,
    relative_energy_parser.py 85. *)
Definition pstep (st : pstate) (t : dtok) : res pstate :=
  match st with
  | PDone _ => match t with
               | DStr _ | DNum _ | DOpen _ | DDot | DComma => Err Unsupported
               | _ => Err SyntaxError
               end
  | PPart fs =>
      match t with
      | DNum s => match fs with
                  | f :: _ => if f_item f && negb (match s with c :: _ => is_digit c | [] => false end)
                              then Err Unsupported   (* a binary minus *)
                              else feed (VNum s) fs
                  | [] => feed (VNum s) fs
                  end
      | DStr s => feed (VStr s) fs
      | DOpen c =>
          match fs with
          | f :: _ => if f_item f then Err Unsupported
                      else if Ascii.eqb c "{" then Err Unsupported
                      else Ok (PPart ({| f_tuple := Ascii.eqb c "("; f_items := [];
                                         f_item := false; f_comma := false |} :: fs))
          | [] => if Ascii.eqb c "{" then Err Unsupported
                  else Ok (PPart [{| f_tuple := Ascii.eqb c "("; f_items := [];
                                     f_item := false; f_comma := false |}])
          end
      | DClose c =>
          match fs with
          | f :: r => if Ascii.eqb c (if f_tuple f then ")" else "]")%char
                      then do v <- close_frame f; feed v r
                      else Err SyntaxError
          | [] => Err SyntaxError
          end
      | DComma =>
          match fs with
          | f :: r => if f_item f then
                        Ok (PPart ({| f_tuple := f_tuple f; f_items := f_items f;
                                      f_item := false; f_comma := true |} :: r))
                      else Err SyntaxError
          | [] => Err SyntaxError
          end
      | DName _ => match fs with
                   | f :: _ => if f_item f then Err SyntaxError else Err Unsupported
                   | [] => Err Unsupported
                   end
      | _ => Err Unsupported
      end
  end.

(** Part of reading a data file: scripts/kmc_plot/plot_merged_coverages.py 12, plot_tof.py 15,
    relative_energy_parser.py 85. *)
Fixpoint prun (st : pstate) (ts : list dtok) : res pstate :=
  match ts with
  | [] => Ok st
  | t :: r => do st' <- pstep st t; prun st' r
  end.

(** Part of reading a data file: scripts/kmc_plot/plot_merged_coverages.py 12, plot_tof.py 15,
    relative_energy_parser.py 85. *)
Definition parse_val (ts : list dtok) : res val :=
  do st <- prun (PPart []) ts;
  match st with PDone v => Ok v | PPart _ => Err SyntaxError end.

(** ['key': number, ...] up to the closing brace.
    Part of reading a data file: scripts/kmc_plot/plot_merged_coverages.py 12, plot_tof.py 15, relative_energy_parser.py 85. *)
Fixpoint parse_dict (ts : list dtok) : res (list (str * str)) :=
  match ts with
  | [DClose c] => if Ascii.eqb c "}" then Ok [] else Err SyntaxError
  | DStr k :: DColon :: DNum v :: DComma :: r => do d <- parse_dict r; Ok ((k, v) :: d)
  | _ => Err Unsupported
  end.

(** ** Statements
    Part of reading a data file: scripts/kmc_plot/plot_merged_coverages.py 12, plot_tof.py 15, relative_energy_parser.py 85. *)
Inductive obj :=
| OVal (v : val)
| ODict (d : dict str).

(** A list to be extended or read: a name, possibly with an index.
    Part of reading a data file: scripts/kmc_plot/plot_merged_coverages.py 12, plot_tof.py 15, relative_energy_parser.py 85. *)
Definition path := (str * option nat)%type.

(** Part of reading a data file: scripts/kmc_plot/plot_merged_coverages.py 12, plot_tof.py 15,
    relative_energy_parser.py 85. *)
Inductive stmt :=
| SAssign (n : str) (o : obj)
| SExtend (target source : path)
| SPass.

(** A dictionary display: later values of a key replace earlier ones.
    Part of reading a data file: scripts/kmc_plot/plot_merged_coverages.py 12, plot_tof.py 15, relative_energy_parser.py 85. *)
Definition dict_of (l : list (str * str)) : dict str :=
  fold_left (fun d kv => dset d (fst kv) (snd kv)) l [].

(** Part of reading a data file: scripts/kmc_plot/plot_merged_coverages.py 12, plot_tof.py 15,
    relative_energy_parser.py 85. *)
Definition index_text (s : str) : option nat :=
  if forallb is_digit s then Some (Z.to_nat (int_of s)) else None.

(** Part of reading a data file: scripts/kmc_plot/plot_merged_coverages.py 12, plot_tof.py 15,
    relative_energy_parser.py 85. *)
Definition parse_line (ts : list dtok) : res stmt :=
  match ts with
  | [] => Ok SPass
  | DName n :: DEq :: DOpen c :: r =>
      if Ascii.eqb c "{" then do d <- parse_dict r; Ok (SAssign n (ODict (dict_of d)))
      else do v <- parse_val (DOpen c :: r); Ok (SAssign n (OVal v))
  | DName n :: DEq :: r => do v <- parse_val r; Ok (SAssign n (OVal v))
  | [DName n; DDot; DName e; DOpen "("; DName m; DClose ")"] =>
      if str_eqb e (L "extend") then Ok (SExtend (n, None) (m, None)) else Err Unsupported
  | [DName n; DDot; DName e; DOpen "("; DName m; DOpen "["; DNum j; DClose "]"; DClose ")"] =>
      match index_text j with
      | Some j' => if str_eqb e (L "extend") then Ok (SExtend (n, None) (m, Some j'))
                   else Err Unsupported
      | None => Err Unsupported
      end
  | [DName n; DOpen "["; DNum i; DClose "]"; DDot; DName e; DOpen "("; DName m; DOpen "["; DNum j;
     DClose "]"; DClose ")"] =>
      match index_text i, index_text j with
      | Some i', Some j' => if str_eqb e (L "extend") then Ok (SExtend (n, Some i') (m, Some j'))
                            else Err Unsupported
      | _, _ => Err Unsupported
      end
  | _ => Err Unsupported
  end.

(** The whole text is parsed before anything is executed.
    Part of reading a data file: scripts/kmc_plot/plot_merged_coverages.py 12, plot_tof.py 15, relative_energy_parser.py 85. *)
Definition parse_prog (s : str) : res (list stmt) :=
  do ts <- dlex s; mapM parse_line (group 0 [] ts).

(** ** Execution
    Part of reading a data file: scripts/kmc_plot/plot_merged_coverages.py 12, plot_tof.py 15, relative_energy_parser.py 85. *)
Definition names := dict obj.

(** Part of reading a data file: scripts/kmc_plot/plot_merged_coverages.py 12, plot_tof.py 15,
    relative_energy_parser.py 85. *)
Definition elements (v : val) : res (list val) :=
  match v with
  | VList l | VTuple l => Ok l
  | VNum _ => Err TypeError
  | VStr _ => Err Unsupported
  end.

(** Part of reading a data file: scripts/kmc_plot/plot_merged_coverages.py 12, plot_tof.py 15,
    relative_energy_parser.py 85. *)
Definition fetch (g : names) (p : path) : res val :=
  match dget g (fst p) with
  | None => Err NameError
  | Some (ODict _) => Err Unsupported
  | Some (OVal v) =>
      match snd p with
      | None => Ok v
      | Some i => match v with
                  | VList l | VTuple l => lindex l i
                  | VNum _ => Err TypeError
                  | VStr _ => Err Unsupported
                  end
      end
  end.

(** Part of reading a data file: scripts/kmc_plot/plot_merged_coverages.py 12, plot_tof.py 15,
    relative_energy_parser.py 85. *)
Definition extend_val (v : val) (more : list val) : res val :=
  match v with
  | VList l => Ok (VList (l ++ more))
  | _ => Err AttributeError
  end.

(** Part of reading a data file: scripts/kmc_plot/plot_merged_coverages.py 12, plot_tof.py 15,
    relative_energy_parser.py 85. *)
Fixpoint update_at (l : list val) (i : nat) (f : val -> res val) : res (list val) :=
  match l, i with
  | [], _ => Err IndexError
  | x :: t, O => do y <- f x; Ok (y :: t)
  | x :: t, S k => do t' <- update_at t k f; Ok (x :: t')
  end.

(** Python looks up the target and its [extend] before the argument.
    Part of reading a data file: scripts/kmc_plot/plot_merged_coverages.py 12, plot_tof.py 15, relative_energy_parser.py 85. *)
Definition exec_stmt (g : names) (s : stmt) : res names :=
  match s with
  | SPass => Ok g
  | SAssign n o => Ok (dset g n o)
  | SExtend p q =>
      do t <- fetch g p;
      do _ <- extend_val t [];
      do sv <- fetch g q;
      do more <- elements sv;
      match dget g (fst p), snd p with
      | Some (OVal v), None => do v' <- extend_val v more; Ok (dset g (fst p) (OVal v'))
      | Some (OVal (VList l)), Some i =>
          do l' <- update_at l i (fun x => extend_val x more);
          Ok (dset g (fst p) (OVal (VList l')))
      | Some (OVal (VTuple l)), Some i =>
          do l' <- update_at l i (fun x => extend_val x more);
          Ok (dset g (fst p) (OVal (VTuple l')))
      | _, _ => Err Unsupported
      end
  end.

(** Part of reading a data file: scripts/kmc_plot/plot_merged_coverages.py 12, plot_tof.py 15,
    relative_energy_parser.py 85. *)
Fixpoint exec_stmts (g : names) (l : list stmt) : res names :=
  match l with
  | [] => Ok g
  | s :: t => do g' <- exec_stmt g s; exec_stmts g' t
  end.

(** [exec(open(filename).read(), {}, locs)]: the names defined afterwards.
    scripts/kmc_plot/plot_merged_coverages.py 10-12, plot_tof.py 13-15, relative_energy_parser.py 84-86. *)
Definition exec_file (s : str) : res names :=
  do p <- parse_prog s; exec_stmts [] p.

(** ** [str(value)] *)
(** Texts whose [repr] is the text between single quotes.
    The writers use repr: format_utilities.py 10-68. *)
Definition plain_char (c : ascii) : bool :=
  in_range 32 126 c && negb (Ascii.eqb c quote) && negb (Ascii.eqb c "\").
(** The writers use repr: format_utilities.py 10-68. *)
Definition plain (s : str) : bool := forallb plain_char s.

(** The writers use repr: format_utilities.py 10-68, coverages_analysis.py 95-190. *)
Fixpoint repr_val (v : val) : res str :=
  match v with
  | VNum s => Ok s
  | VStr s => if plain s then Ok (L "'" ++ s ++ L "'") else Err Unsupported
  | VList l =>
      do ts <- (fix go l := match l with
                            | [] => Ok []
                            | x :: t => do y <- repr_val x; do ys <- go t; Ok (y :: ys)
                            end) l;
      Ok (L "[" ++ join (L ", ") ts ++ L "]")
  | VTuple l =>
      do ts <- (fix go l := match l with
                            | [] => Ok []
                            | x :: t => do y <- repr_val x; do ys <- go t; Ok (y :: ys)
                            end) l;
      match ts with
      | [x] => Ok (L "(" ++ x ++ L ",)")
      | _ => Ok (L "(" ++ join (L ", ") ts ++ L ")")
      end
  end.
