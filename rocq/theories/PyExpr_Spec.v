(** The grammar of the rate expressions, independent of the parser of PyExpr_Model.v: products
    bind closer than sums, both group to the left, a minus sign binds closer than a product and
    a power closer than a minus sign (Python language reference, 6.5-6.7). *)
From Coq Require Import String Ascii List ZArith NArith Bool Reals.
Import ListNotations.
From Verif Require Import PyBase PyExpr_Model.
Local Open Scope list_scope.

(** ** Grammar as a relation *)
Inductive g_atom : list tok -> expr -> Prop :=
| ga_num s : g_atom [TNum s] (ENum s)
| ga_key n k : g_atom [TKey n k] (EKey n k)
| ga_idx n i : g_atom [TIdx n i] (EIdx n i)
| ga_par ts e : g_sum ts e -> g_atom (TLpar :: ts ++ [TRpar]) e
with g_unary : list tok -> expr -> Prop :=
| gu_atom ts e : g_atom ts e -> g_unary ts e
| gu_pow ts e n : g_atom ts e -> forallb is_digit n = true -> g_unary (ts ++ [TPow; TNum n]) (EPow e n)
| gu_neg ts e : g_unary ts e -> g_unary (TMinus :: ts) (ENeg e)
with g_prod : list tok -> expr -> Prop :=
| gp_one ts e : g_unary ts e -> g_prod ts e
| gp_mul ts1 ts2 e1 e2 : g_prod ts1 e1 -> g_unary ts2 e2 -> g_prod (ts1 ++ TStar :: ts2) (EMul e1 e2)
with g_sum : list tok -> expr -> Prop :=
| gs_one ts e : g_prod ts e -> g_sum ts e
| gs_add ts1 ts2 e1 e2 : g_sum ts1 e1 -> g_prod ts2 e2 -> g_sum (ts1 ++ TPlus :: ts2) (EAdd e1 e2)
| gs_sub ts1 ts2 e1 e2 : g_sum ts1 e1 -> g_prod ts2 e2 -> g_sum (ts1 ++ TMinus :: ts2) (ESub e1 e2).

Scheme g_atom_ind4 := Induction for g_atom Sort Prop
with g_unary_ind4 := Induction for g_unary Sort Prop
with g_prod_ind4 := Induction for g_prod Sort Prop
with g_sum_ind4 := Induction for g_sum Sort Prop.
Combined Scheme g_mutind from g_atom_ind4, g_unary_ind4, g_prod_ind4, g_sum_ind4.

(** The text of a token. *)
Definition spell (t : tok) : str :=
  match t with
  | TNum s => s
  | TKey n k => n ++ L "['" ++ k ++ L "']"
  | TIdx n i => n ++ L "[" ++ i ++ L "]"
  | TPlus => L "+" | TMinus => L "-" | TStar => L "*" | TPow => L "**"
  | TLpar => L "(" | TRpar => L ")" | TEq => L "="
  end.

(** A token that can be read: a number begins with a digit and goes on with digits and points, a
    name begins with a letter or an underscore, a key has no quote and no backslash. *)
Definition name_ok (n : str) : Prop :=
  exists c r, n = c :: r /\ is_letter c || Ascii.eqb c "_" = true /\ forallb is_word r = true.
Definition tok_ok (t : tok) : Prop :=
  match t with
  | TNum s => exists c r, s = c :: r /\ is_digit c = true /\
                          forallb (fun x => is_digit x || Ascii.eqb x ".") r = true
  | TKey n k => name_ok n /\ ~ In "'"%char k /\ ~ In "\"%char k
  | TIdx n i => name_ok n /\ i <> [] /\ forallb is_digit i = true
  | _ => True
  end.

(** What may stand directly behind a token: a number ends where no digit, letter, underscore or
    point follows, a star where no star follows. *)
Definition follows (t : tok) (s : str) : Prop :=
  match t, s with
  | TNum _, c :: _ => is_word c = false /\ c <> "."%char
  | TStar, c :: _ => c <> "*"%char
  | _, _ => True
  end.

(** The text is that of the tokens in order, with any blanks between them. *)
Inductive reads : list tok -> str -> Prop :=
| rd_nil : reads [] []
| rd_blank ts s : reads ts s -> reads ts (" "%char :: s)
| rd_tok t ts s : tok_ok t -> follows t s -> reads ts s -> reads (t :: ts) (spell t ++ s).

(** ** Values *)
(** What digits stand for: every digit times the power of ten of its place. *)
Definition digit_of (c : ascii) : Z := Z.of_nat (nat_of_ascii c) - 48.
Fixpoint whole (s : str) : Z :=
  match s with
  | [] => 0
  | c :: t => digit_of c * 10 ^ Z.of_nat (length t) + whole t
  end.
Fixpoint fraction (s : str) : R :=
  match s with
  | [] => 0
  | c :: t => (IZR (digit_of c) + fraction t) / 10
  end%R.

(** A number is written with digits, or digits, a point and digits. *)
Definition number (s : str) (x : R) : Prop :=
  (forallb is_digit s = true /\ x = IZR (whole s)) \/
  (exists a b, s = a ++ L "." ++ b /\ forallb is_digit a = true /\ forallb is_digit b = true /\
               x = (IZR (whole a) + fraction b)%R).

(** The value of an expression under the names it sees. *)
Inductive value (v : env) : expr -> R -> Prop :=
| va_num s x : number s x -> value v (ENum s) x
| va_key n k x : env_key v n k = Ok x -> value v (EKey n k) x
| va_idx n i x : env_idx v n (whole i) = Ok x -> value v (EIdx n i) x
| va_add a b x y : value v a x -> value v b y -> value v (EAdd a b) (x + y)%R
| va_sub a b x y : value v a x -> value v b y -> value v (ESub a b) (x - y)%R
| va_mul a b x y : value v a x -> value v b y -> value v (EMul a b) (x * y)%R
| va_neg a x : value v a x -> value v (ENeg a) (- x)%R
| va_pow a n x : value v a x -> value v (EPow a n) (x ^ Z.to_nat (whole n))%R.

(** A text that is an expression with the value [x]. *)
Definition text_value (v : env) (s : str) (x : R) : Prop :=
  exists ts e, reads ts s /\ g_sum ts e /\ value v e x.

(** What one line does to the list it assigns to: nothing if it is blank, otherwise one element
    of the list is replaced. *)
Inductive line_effect (v : env) (target : str) : str -> list R -> list R -> Prop :=
| le_blank s l : reads [] s -> line_effect v target s l l
| le_assign s i ts e x a y b : reads (TIdx target i :: TEq :: ts) s -> g_sum ts e -> value v e x ->
    Z.of_nat (length a) = whole i -> line_effect v target s (a ++ y :: b) (a ++ x :: b).

(** The lines one after the other. *)
Inductive lines_effect (v : env) (target : str) : list str -> list R -> list R -> Prop :=
| lse_nil l : lines_effect v target [] l l
| lse_cons s t l l1 l2 : line_effect v target s l l1 -> lines_effect v target t l1 l2 ->
    lines_effect v target (s :: t) l l2.
