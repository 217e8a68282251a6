(** A backtracking pattern matcher with the priorities of Python's [re]:
    leftmost start, greedy repetition, first alternative first.
    [rmatch r caps s] lists all ways in which [r] matches a prefix of [s], in the
    order in which the backtracking engine would try them, as pairs of the
    capture groups and the remaining text.  Repetition is only needed over single
    characters, so no fuel is needed. *)
From Coq Require Import String Ascii List Bool Arith.
Import ListNotations.
From Verif Require Import PyBase.

Definition caps := list (nat * str).

Inductive re :=
| RChr (p : ascii -> bool)      (* one character of a class *)
| RStar (p : ascii -> bool)     (* class star, greedy *)
| RPlus (p : ascii -> bool)     (* class plus, greedy *)
| RSeq (r1 r2 : re)
| RAlt (r1 r2 : re)
| REps
| RGroup (n : nat) (r : re).

Definition ROpt (r : re) : re := RAlt r REps.

(** The remaining texts after [p*], longest match first. *)
Fixpoint star_rests (p : ascii -> bool) (s : str) : list str :=
  match s with
  | [] => [[]]
  | c :: t => if p c then star_rests p t ++ [s] else [s]
  end.

Definition plus_rests (p : ascii -> bool) (s : str) : list str :=
  match s with
  | [] => []
  | c :: t => if p c then star_rests p t else []
  end.

Definition consumed (s rest : str) : str := firstn (length s - length rest) s.

Fixpoint rmatch (r : re) (c : caps) (s : str) : list (caps * str) :=
  match r with
  | RChr p => match s with
              | x :: t => if p x then [(c, t)] else []
              | [] => []
              end
  | RStar p => map (fun rest => (c, rest)) (star_rests p s)
  | RPlus p => map (fun rest => (c, rest)) (plus_rests p s)
  | RSeq r1 r2 => flat_map (fun m => rmatch r2 (fst m) (snd m)) (rmatch r1 c s)
  | RAlt r1 r2 => rmatch r1 c s ++ rmatch r2 c s
  | REps => [(c, s)]
  | RGroup n r1 => map (fun m => ((n, consumed s (snd m)) :: fst m, snd m)) (rmatch r1 c s)
  end.

(** [regex.search(s)]: the captures of the first match at the leftmost possible
    start, together with the text before the match and the text after it. *)
Record mtch := { m_before : str; m_caps : caps; m_rest : str }.

Fixpoint search_from (r : re) (before : str) (s : str) : option mtch :=
  match rmatch r [] s with
  | (c, rest) :: _ => Some {| m_before := rev before; m_caps := c; m_rest := rest |}
  | [] => match s with
          | [] => None
          | x :: t => search_from r (x :: before) t
          end
  end.

Definition search (r : re) (s : str) : option mtch := search_from r [] s.

(** [m.group(n)]: [None] when the group took no part in the match. *)
Fixpoint cap (n : nat) (c : caps) : option str :=
  match c with
  | [] => None
  | (k, t) :: c' => if Nat.eqb k n then Some t else cap n c'
  end.

Definition group (m : mtch) (n : nat) : option str := cap n (m_caps m).

(** [m.group(n)] used as a text when the group always takes part. *)
Definition group_text (m : mtch) (n : nat) : str :=
  match group m n with Some t => t | None => [] end.

(** A literal text as a pattern. *)
Fixpoint rlit (s : str) : re :=
  match s with
  | [] => REps
  | c :: t => RSeq (RChr (Ascii.eqb c)) (rlit t)
  end.
