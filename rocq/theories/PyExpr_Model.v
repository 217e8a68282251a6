(** The part of Python in which SCAKS writes the rate expressions that it passes to [exec]
    and [eval]: numbers, [name['key']], [name[3]], the operators [+ - * **] with Python's
    precedences, unary minus, parentheses, and assignments [name[3] = expression].
    Anything else is answered with [Unsupported] or [SyntaxError], never with a value. *)
From Coq Require Import String Ascii List ZArith NArith Bool Reals.
Import ListNotations.
From Verif Require Import PyBase.
Local Open Scope list_scope.

(** Tokens for the texts written by mean_field_solver.py 325-362, 380-381 and
    steady_state_solver.py 161-172. *)
Inductive tok :=
| TNum (s : str)          (* digits and points *)
| TKey (n k : str)        (* n['k'] *)
| TIdx (n i : str)        (* n[i], i digits *)
| TPlus | TMinus | TStar | TPow | TLpar | TRpar | TEq.

(** Lexer: a state machine over the characters.
    The text is executed at mean_field_solver.py 424, steady_state_solver.py 251 and 491. *)
Inductive lstate :=
| LStart
| LNum (acc : str)
| LStar                   (* one star seen *)
| LName (acc : str)
| LSub (n : str)          (* name and opening bracket seen *)
| LStr (n acc : str)
| LStrEnd (n k : str)
| LIdx (n acc : str).

(** The text is executed at mean_field_solver.py 424, steady_state_solver.py 251 and 491. *)
Definition lstep_start (c : ascii) : option (list tok * lstate) :=
  if Ascii.eqb c " " then Some ([], LStart)
  else if is_digit c then Some ([], LNum [c])
  else if is_letter c || Ascii.eqb c "_" then Some ([], LName [c])
  else if Ascii.eqb c "*" then Some ([], LStar)
  else if Ascii.eqb c "+" then Some ([TPlus], LStart)
  else if Ascii.eqb c "-" then Some ([TMinus], LStart)
  else if Ascii.eqb c "(" then Some ([TLpar], LStart)
  else if Ascii.eqb c ")" then Some ([TRpar], LStart)
  else if Ascii.eqb c "=" then Some ([TEq], LStart)
  else None.

(** The text is executed at mean_field_solver.py 424, steady_state_solver.py 251 and 491. *)
Definition emit (ts : list tok) (r : option (list tok * lstate)) : option (list tok * lstate) :=
  match r with Some (ts', st) => Some (ts ++ ts', st) | None => None end.

(** The text is executed at mean_field_solver.py 424, steady_state_solver.py 251 and 491. *)
Definition lstep (st : lstate) (c : ascii) : option (list tok * lstate) :=
  match st with
  | LStart => lstep_start c
  | LNum acc => if is_digit c || Ascii.eqb c "." then Some ([], LNum (acc ++ [c]))
                else if is_letter c || Ascii.eqb c "_" then None
                else emit [TNum acc] (lstep_start c)
  | LStar => if Ascii.eqb c "*" then Some ([TPow], LStart) else emit [TStar] (lstep_start c)
  | LName acc => if is_word c then Some ([], LName (acc ++ [c]))
                 else if Ascii.eqb c "[" then Some ([], LSub acc) else None
  | LSub n => if Ascii.eqb c "'" then Some ([], LStr n [])
              else if is_digit c then Some ([], LIdx n [c]) else None
  | LStr n acc => if Ascii.eqb c "'" then Some ([], LStrEnd n acc)
                  else if Ascii.eqb c "\" then None else Some ([], LStr n (acc ++ [c]))
  | LStrEnd n k => if Ascii.eqb c "]" then Some ([TKey n k], LStart) else None
  | LIdx n acc => if is_digit c then Some ([], LIdx n (acc ++ [c]))
                  else if Ascii.eqb c "]" then Some ([TIdx n acc], LStart) else None
  end.

(** The text is executed at mean_field_solver.py 424, steady_state_solver.py 251 and 491. *)
Definition lflush (st : lstate) : option (list tok) :=
  match st with
  | LStart => Some []
  | LNum acc => Some [TNum acc]
  | LStar => Some [TStar]
  | _ => None
  end.

(** The text is executed at mean_field_solver.py 424, steady_state_solver.py 251 and 491. *)
Fixpoint lrun (st : lstate) (s : str) : option (list tok * lstate) :=
  match s with
  | [] => Some ([], st)
  | c :: t => match lstep st c with
              | None => None
              | Some (ts, st') => emit ts (lrun st' t)
              end
  end.

(** The text is executed at mean_field_solver.py 424, steady_state_solver.py 251 and 491. *)
Definition lex (s : str) : res (list tok) :=
  match lrun LStart s with
  | Some (ts, st) => match lflush st with Some ts' => Ok (ts ++ ts') | None => Err SyntaxError end
  | None => Err Unsupported
  end.

(** Expressions for the texts written by mean_field_solver.py 325-362, 380-381 and
    steady_state_solver.py 161-172. *)
Inductive expr :=
| ENum (s : str) | EKey (n k : str) | EIdx (n i : str)
| EAdd (a b : expr) | ESub (a b : expr) | EMul (a b : expr) | ENeg (a : expr)
| EPow (a : expr) (n : str).

(** Recursive descent over Python's grammar:
    sum: product (("+"|"-") product)*;  product: unary ("*" unary)*;
    unary: "-" unary | power;  power: atom ["**" integer];
    atom: number | name subscript | "(" sum ")".
    In Python the exponent may be any unary expression; here only an integer literal.
    Used for the texts written by mean_field_solver.py 325-362, 380-381 and steady_state_solver.py 161-172. *)
Fixpoint p_sum (fuel : nat) (ts : list tok) : res (expr * list tok) :=
  match fuel with
  | O => Err OutOfFuel
  | S f => do (e, r) <- p_prod f ts; p_sum_rest f e r
  end
with p_sum_rest (fuel : nat) (e : expr) (ts : list tok) : res (expr * list tok) :=
  match fuel with
  | O => Err OutOfFuel
  | S f =>
      match ts with
      | TPlus :: t => do (e2, r) <- p_prod f t; p_sum_rest f (EAdd e e2) r
      | TMinus :: t => do (e2, r) <- p_prod f t; p_sum_rest f (ESub e e2) r
      | _ => Ok (e, ts)
      end
  end
with p_prod (fuel : nat) (ts : list tok) : res (expr * list tok) :=
  match fuel with
  | O => Err OutOfFuel
  | S f => do (e, r) <- p_unary f ts; p_prod_rest f e r
  end
with p_prod_rest (fuel : nat) (e : expr) (ts : list tok) : res (expr * list tok) :=
  match fuel with
  | O => Err OutOfFuel
  | S f =>
      match ts with
      | TStar :: t => do (e2, r) <- p_unary f t; p_prod_rest f (EMul e e2) r
      | _ => Ok (e, ts)
      end
  end
with p_unary (fuel : nat) (ts : list tok) : res (expr * list tok) :=
  match fuel with
  | O => Err OutOfFuel
  | S f =>
      match ts with
      | TMinus :: t => do (e, r) <- p_unary f t; Ok (ENeg e, r)
      | _ =>
          do (e, r) <- p_atom f ts;
          match r with
          | TPow :: TNum n :: r' => if forallb is_digit n then Ok (EPow e n, r') else Err Unsupported
          | TPow :: _ => Err Unsupported
          | _ => Ok (e, r)
          end
      end
  end
with p_atom (fuel : nat) (ts : list tok) : res (expr * list tok) :=
  match fuel with
  | O => Err OutOfFuel
  | S f =>
      match ts with
      | TNum s :: t => Ok (ENum s, t)
      | TKey n k :: t => Ok (EKey n k, t)
      | TIdx n i :: t => Ok (EIdx n i, t)
      | TLpar :: t =>
          do (e, r) <- p_sum f t;
          match r with TRpar :: r' => Ok (e, r') | _ => Err SyntaxError end
      | _ => Err SyntaxError
      end
  end.

(** Fuel that suffices for every token list: each token is met by at most six nested calls.
    The text is executed at mean_field_solver.py 424, steady_state_solver.py 251 and 491. *)
Definition parse_fuel (ts : list tok) : nat := 8 * length ts + 8.

(** The text is executed at mean_field_solver.py 424, steady_state_solver.py 251 and 491. *)
Definition parse_expr (ts : list tok) : res expr :=
  do (e, r) <- p_sum (parse_fuel ts) ts;
  match r with [] => Ok e | _ => Err SyntaxError end.

(** Numbers: digits, or digits point digits, as exact decimals.
    Numbers as written by mean_field_solver.py 325-362 and steady_state_solver.py 300-420. *)
Definition num_value (s : str) : res R :=
  match split_on "." s with
  | [a] => if forallb is_digit a then Ok (IZR (int_of a)) else Err Unsupported
  | [a; b] => if forallb is_digit a && forallb is_digit b
              then Ok (IZR (int_of (a ++ b)) / 10 ^ length b)%R else Err Unsupported
  | _ => Err SyntaxError
  end.

(** The names an expression can see: mappings with text keys and lists.
    The local names of mean_field_solver.py 400-424 and steady_state_solver.py 235-251, 440-491. *)
Record env := {
  env_key : str -> str -> res R;
  env_idx : str -> Z -> res R
}.

(** The text is executed at mean_field_solver.py 424, steady_state_solver.py 251 and 491. *)
Fixpoint eval (v : env) (e : expr) : res R :=
  match e with
  | ENum s => num_value s
  | EKey n k => env_key v n k
  | EIdx n i => env_idx v n (int_of i)
  | EAdd a b => do x <- eval v a; do y <- eval v b; Ok (x + y)%R
  | ESub a b => do x <- eval v a; do y <- eval v b; Ok (x - y)%R
  | EMul a b => do x <- eval v a; do y <- eval v b; Ok (x * y)%R
  | ENeg a => do x <- eval v a; Ok (- x)%R
  | EPow a n => do x <- eval v a; Ok (x ^ Z.to_nat (int_of n))%R
  end.

(** [eval(text)]
    The text is executed at mean_field_solver.py 424, steady_state_solver.py 251 and 491. *)
Definition eval_text (v : env) (s : str) : res R :=
  do ts <- lex s; do e <- parse_expr ts; eval v e.

(** Assignment to an element of a list: [IndexError] outside the list.
    The targets rfs, rrs (mean_field_solver.py 416) and dtheta_dt (steady_state_solver.py 248). *)
Fixpoint assign_index (l : list R) (i : nat) (x : R) : res (list R) :=
  match l, i with
  | [], _ => Err IndexError
  | _ :: t, O => Ok (x :: t)
  | y :: t, S k => do t' <- assign_index t k x; Ok (y :: t')
  end.

(** [exec(line)] for one line [target[i] = expression] (or an empty line).
    mean_field_solver.py 424, steady_state_solver.py 251 *)
Definition exec_line (v : env) (target : str) (l : list R) (s : str) : res (list R) :=
  do ts <- lex s;
  match ts with
  | [] => Ok l
  | TIdx n i :: TEq :: t =>
      do e <- parse_expr t;
      if str_eqb n target then
        do x <- eval v e; assign_index l (Z.to_nat (int_of i)) x
      else Err Unsupported
  | _ => Err Unsupported
  end.

(** mean_field_solver.py 423-424, steady_state_solver.py 250-251 *)
Fixpoint exec_lines (v : env) (target : str) (l : list R) (lines : list str) : res (list R) :=
  match lines with
  | [] => Ok l
  | s :: t => do l' <- exec_line v target l s; exec_lines v target l' t
  end.

(** [exec(text)] where every line assigns to an element of the list [target]; the value
    is that list afterwards. mean_field_solver.py 423-424, steady_state_solver.py 250-251 *)
Definition exec_text (v : env) (target : str) (l : list R) (s : str) : res (list R) :=
  exec_lines v target l (split_on (ascii_of_nat 10) s).
