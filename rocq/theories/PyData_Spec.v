(** What may be written to a data file. *)
From Coq Require Import String Ascii List ZArith NArith Bool Arith QArith.
Import ListNotations.
From Verif Require Import PyBase PyData_Model.
Local Open Scope list_scope.

(** Values that can be written and read: proper numbers and plain texts. *)
Fixpoint writable (v : val) : Prop :=
  match v with
  | VNum s => number_text s = true
  | VStr s => plain s = true
  | VList l | VTuple l => (fix go l := match l with [] => True | x :: t => writable x /\ go t end) l
  end.

(** Python names that are not keywords. *)
Definition name_text (s : str) : bool :=
  match s with
  | c :: t => (is_letter c || Ascii.eqb c "_") && forallb is_word t
  | [] => false
  end && negb (str_mem s keywords).

(** The number literal of an integer. *)
Definition VInt (z : Z) : val := VNum (str_of_Z z).

(** ** The grammar of the values in a data file (Python language reference, 6.2), independent of
    the reader of PyData_Model.v: [d_seq ts l]: one or more values separated by commas. *)
Inductive d_val : list dtok -> val -> Prop :=
| dv_num s : d_val [DNum s] (VNum s)
| dv_str s : d_val [DStr s] (VStr s)
| dv_list_nil : d_val [DOpen "["; DClose "]"] (VList [])
| dv_list ts l : d_seq ts l -> d_val (DOpen "[" :: ts ++ [DClose "]"]) (VList l)
| dv_list_comma ts l : d_seq ts l -> d_val (DOpen "[" :: ts ++ [DComma; DClose "]"]) (VList l)
| dv_tuple_nil : d_val [DOpen "("; DClose ")"] (VTuple [])
| dv_tuple ts l : d_seq ts l -> (2 <= length l)%nat -> d_val (DOpen "(" :: ts ++ [DClose ")"]) (VTuple l)
| dv_tuple_comma ts l : d_seq ts l -> d_val (DOpen "(" :: ts ++ [DComma; DClose ")"]) (VTuple l)
| dv_paren ts v : d_val ts v -> d_val (DOpen "(" :: ts ++ [DClose ")"]) v
with d_seq : list dtok -> list val -> Prop :=
| ds_one ts v : d_val ts v -> d_seq ts [v]
| ds_more ts l tv v : d_seq ts l -> d_val tv v -> d_seq (ts ++ DComma :: tv) (l ++ [v]).

(** The list or tuple of a value. *)
Definition parts (v : val) (l : list val) : Prop := v = VList l \/ v = VTuple l.

(** What a name, or a name with an index, stands for. *)
Definition at_path (g : names) (p : path) (v : val) : Prop :=
  match snd p with
  | None => dget g (fst p) = Some (OVal v)
  | Some i => exists w l, dget g (fst p) = Some (OVal w) /\ parts w l /\ nth_error l i = Some v
  end.

(** The value [w] with its part number [i] replaced. *)
Definition with_part (w : val) (i : nat) (v w' : val) : Prop :=
  exists a x b, length a = i /\
    ((w = VList (a ++ x :: b) /\ w' = VList (a ++ v :: b)) \/
     (w = VTuple (a ++ x :: b) /\ w' = VTuple (a ++ v :: b))).

(** The names after the value at a path is replaced. *)
Definition replaced (g : names) (p : path) (v : val) (g' : names) : Prop :=
  exists w', g' = dset g (fst p) (OVal w') /\
  match snd p with
  | None => w' = v
  | Some i => exists w, dget g (fst p) = Some (OVal w) /\ with_part w i v w'
  end.

(** ** The text of tokens *)
Definition dspell (t : dtok) : str :=
  match t with
  | DName s | DNum s => s
  | DStr s => L "'" ++ s ++ L "'"
  | DOpen c | DClose c => [c]
  | DComma => L "," | DColon => L ":" | DDot => L "." | DEq => L "="
  | DNl => [nl] | DIndent => L " "
  end.

(** Tokens within a line that can be read. *)
Definition dtok_ok (t : dtok) : Prop :=
  match t with
  | DName s => name_text s = true
  | DNum s => number_text s = true
  | DStr s => ~ In quote s /\ ~ In "\"%char s /\ ~ In nl s
  | DOpen c => In c (L "[({")
  | DClose c => In c (L "])}")
  | DNl | DIndent => False
  | _ => True
  end.

(** Where a number, a name and a text end. *)
Definition dfollows (t : dtok) (s : str) : Prop :=
  match t, s with
  | DNum _, c :: _ => num_cont c = false
  | DName n, c :: _ => is_word c = false /\ (c = quote -> literal_prefix n = false)
  | DStr _, c :: _ => c <> quote
  | _, _ => True
  end.

(** [d_reads b ts s]: the text [s] is that of the tokens, with blanks and comments between them;
    [b]: it stands at the beginning of a line. *)
Inductive d_reads : bool -> list dtok -> str -> Prop :=
| dr_end b : d_reads b [] []
| dr_indent ts s : d_reads false ts s -> d_reads true (DIndent :: ts) (" "%char :: s)
| dr_blank ts s : d_reads false ts s -> d_reads false ts (" "%char :: s)
| dr_nl b ts s : d_reads true ts s -> d_reads b (DNl :: ts) (nl :: s)
| dr_comment b c ts s : ~ In nl c -> (s = [] \/ exists r, s = nl :: r) -> d_reads false ts s ->
    d_reads b ts ("#"%char :: c ++ s)
| dr_tok b t ts s : dtok_ok t -> dfollows t s -> d_reads false ts s -> d_reads b (t :: ts) (dspell t ++ s).

(** ** Lines and files *)
(** A name or a name with an index, as written. *)
Inductive d_path : list dtok -> path -> Prop :=
| dp_name n : d_path [DName n] (n, None)
| dp_index n s : forallb is_digit s = true ->
    d_path [DName n; DOpen "["; DNum s; DClose "]"] (n, Some (Z.to_nat (int_of s))).

(** The entries of a dictionary display, every one with its comma. *)
Definition d_entries (d : list (str * str)) : list dtok :=
  concat (map (fun kv => [DStr (fst kv); DColon; DNum (snd kv); DComma]) d).

(** A line: blank, an assignment, or the extension of a list by the elements of another. *)
Inductive d_line : list dtok -> stmt -> Prop :=
| dl_blank : d_line [] SPass
| dl_assign n ts v : d_val ts v -> d_line (DName n :: DEq :: ts) (SAssign n (OVal v))
| dl_dict n d : d_line (DName n :: DEq :: DOpen "{" :: d_entries d ++ [DClose "}"])
    (SAssign n (ODict (fold_left (fun m kv => dset m (fst kv) (snd kv)) d [])))
| dl_extend tp p tq q : d_path tp p -> d_path tq q -> (snd p = None \/ snd q <> None) ->
    d_line (tp ++ DDot :: DName (L "extend") :: DOpen "(" :: tq ++ [DClose ")"]) (SExtend p q).

(** Ends of lines and indentation within brackets do not count: [d_joined n ts us], [n] brackets
    being open before [ts], all of them closed behind it. *)
Inductive d_joined : nat -> list dtok -> list dtok -> Prop :=
| dj_nil : d_joined 0 [] []
| dj_indent ts us : d_joined 0 ts us -> d_joined 0 (DIndent :: ts) (DIndent :: us)
| dj_skip n t ts us : t = DNl \/ t = DIndent -> d_joined (S n) ts us -> d_joined (S n) (t :: ts) us
| dj_open n c ts us : d_joined (S n) ts us -> d_joined n (DOpen c :: ts) (DOpen c :: us)
| dj_close n c ts us : d_joined n ts us -> d_joined (S n) (DClose c :: ts) (DClose c :: us)
| dj_word n t ts us : match t with DNl | DIndent | DOpen _ | DClose _ => False | _ => True end ->
    d_joined n ts us -> d_joined n (t :: ts) (t :: us).

(** A file: lines, one after the other. *)
Inductive d_file : list dtok -> list stmt -> Prop :=
| df_last ts us s : d_joined 0 ts us -> d_line us s -> d_file ts [s]
| df_more ts us s r l : d_joined 0 ts us -> d_line us s -> d_file r l -> d_file (ts ++ DNl :: r) (s :: l).

(** What the lines of a file do to the names, in order. *)
Definition does (s : stmt) (g g' : names) : Prop :=
  match s with
  | SPass => g' = g
  | SAssign n o => g' = dset g n o
  | SExtend p q => exists l w more, at_path g p (VList l) /\ at_path g q w /\ parts w more /\
                     replaced g p (VList (l ++ more)) g'
  end.
Inductive all_do : list stmt -> names -> names -> Prop :=
| ad_nil g : all_do [] g g
| ad_cons s l g g1 g2 : does s g g1 -> all_do l g1 g2 -> all_do (s :: l) g g2.
