(** Reading a setup file of assignments of literals: what executing the text of a job's setup file
    gives.  Used to say what the files written by create_jobs.py mean. *)
From Coq Require Import String Ascii List ZArith Bool Arith.
Import ListNotations.
From Verif Require Import PyBase PyData_Model PyData_Spec Jobs_Model.
Local Open Scope list_scope.

Definition is_open (c : ascii) : option ascii :=
  if Ascii.eqb c "[" then Some "]"%char else if Ascii.eqb c "(" then Some ")"%char else None.

Fixpoint skip (s : str) : str :=
  match s with
  | c :: t => if Ascii.eqb c " " then skip t else s
  | [] => []
  end.

Fixpoint take_while (f : ascii -> bool) (s : str) : str * str :=
  match s with
  | c :: t => if f c then let (a, b) := take_while f t in (c :: a, b) else ([], s)
  | [] => ([], [])
  end.

Definition text_char (c : ascii) : bool :=
  negb (Ascii.eqb c quote) && negb (Ascii.eqb c "\") && negb (Ascii.eqb c nl).

(** A text after its opening quote.  Escapes, and a quote right behind the text (adjacent or triple
    quoted texts), are not modelled. *)
Definition read_text (s : str) : res (str * str) :=
  let (a, b) := take_while text_char s in
  match b with
  | c :: r => if Ascii.eqb c quote
              then match skip r with
                   | c' :: _ => if Ascii.eqb c' quote then Err Unsupported else Ok (a, r)
                   | [] => Ok (a, r)
                   end
              else if Ascii.eqb c nl then Err SyntaxError else Err Unsupported
  | [] => Err SyntaxError
  end.

Definition words : list str := [L "True"; L "False"; L "None"].

(** One literal, and what follows it.  Anything else is not modelled. *)
Fixpoint read_sval (n : nat) (s : str) : res (sval * str) :=
  match n with
  | O => Err OutOfFuel
  | S n =>
      match skip s with
      | [] => Err SyntaxError
      | c :: t =>
          if Ascii.eqb c quote then do (a, r) <- read_text t; Ok (WStr a, r)
          else if is_digit c || Ascii.eqb c "-" then
            let (a, r) := take_while num_cont (c :: t) in
            if number_text a then Ok (WNum a, r) else Err Unsupported
          else if is_letter c then
            let (a, r) := take_while is_word (c :: t) in
            if str_mem a words then Ok (WWord a, r) else Err Unsupported
          else if Ascii.eqb c "[" then do (l, _, r) <- read_items n "]"%char t; Ok (WList l, r)
          else if Ascii.eqb c "(" then
            do (l, comma, r) <- read_items n ")"%char t;
            match l, comma with
            | [x], false => Ok (x, r)
            | _, _ => Ok (WTuple l, r)
            end
          else if Ascii.eqb c "{" then do (d, r) <- read_entries n t; Ok (WDict d, r)
          else Err Unsupported
      end
  end
(** The items up to the closing bracket; whether the last of them is followed by a comma. *)
with read_items (n : nat) (close : ascii) (s : str) : res (list sval * bool * str) :=
  match n with
  | O => Err OutOfFuel
  | S n =>
      match skip s with
      | [] => Err SyntaxError
      | c :: t =>
          if Ascii.eqb c close then Ok ([], true, t)
          else
            do (x, r) <- read_sval n (c :: t);
            match skip r with
            | c' :: r' =>
                if Ascii.eqb c' close then Ok ([x], false, r')
                else if Ascii.eqb c' "," then
                  do (l, comma, r'') <- read_items n close r'; Ok (x :: l, comma, r'')
                else Err Unsupported
            | [] => Err SyntaxError
            end
      end
  end
(** The entries of a dictionary; a key given twice keeps its place and takes the later value. *)
with read_entries (n : nat) (s : str) : res (dict sval * str) :=
  match n with
  | O => Err OutOfFuel
  | S n =>
      match skip s with
      | [] => Err SyntaxError
      | c :: t =>
          if Ascii.eqb c "}" then Ok ([], t)
          else
            do (k, r) <- read_sval n (c :: t);
            match k, skip r with
            | WStr key, c1 :: r1 =>
                if Ascii.eqb c1 ":" then
                  do (x, r2) <- read_sval n r1;
                  match skip r2 with
                  | c2 :: r3 =>
                      if Ascii.eqb c2 "}" then Ok ([(key, x)], r3)
                      else if Ascii.eqb c2 "," then
                        do (d, r4) <- read_entries n r3;
                        Ok (fold_left (fun m kv => dset m (fst kv) (snd kv)) d [(key, x)], r4)
                      else Err Unsupported
                  | [] => Err SyntaxError
                  end
                else Err Unsupported
            | _, _ => Err Unsupported
            end
      end
  end.

(** One line [name = literal]; anything else, blank lines and comments too, is not modelled. *)
Definition read_line (n : nat) (s : str) (g : dict sval) : res (dict sval * str) :=
  let (k, r) := take_while is_word s in
  if name_text k then
    match skip r with
    | c :: r1 =>
        if Ascii.eqb c "=" then
          do (v, r2) <- read_sval n r1;
          match skip r2 with
          | [] => Ok (dset g k v, [])
          | c2 :: r3 => if Ascii.eqb c2 nl then Ok (dset g k v, r3) else Err SyntaxError
          end
        else Err Unsupported
    | [] => Err Unsupported
    end
  else Err Unsupported.

(** The settings a setup file makes. *)
Fixpoint read_setup (n : nat) (s : str) (g : dict sval) : res (dict sval) :=
  match s, n with
  | [], _ => Ok g
  | _, O => Err OutOfFuel
  | _, S n => do (g', r) <- read_line n s g; read_setup n r g'
  end.
