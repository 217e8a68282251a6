(** Setup attributes of the kinetic models: the descriptors, the component
    descriptors, the checks of the setup values, the loading of the setup
    dictionary, and the registration of analysis plugins.

    scaks/descriptors/descriptors.py 13-337, scaks/descriptors/component_descriptors.py 7-37,
    scaks/utilities/check_utilities.py 62-135, scaks/models/kinetic_model.py 132-330,
    scaks/models/micro_kinetic_model.py 298-309, scaks/models/kmc_model.py 11-114,
    metaclasses.py 6-33.

    Simplifications. A Python object is a place of a list (the heap) and its
    contents there are a [tree]; what a list or dict contains is part of the
    tree, so objects inside a container have no place of their own and
    [copy.deepcopy] is a new place with the same tree.  Floats are rationals
    (no NaN, no infinity).  Subclasses of [dict], [list], [str], [int] and
    [float] other than [bool] do not occur as values.  Messages of exceptions
    and of the logger are left out.  Names of a class that start with an
    underscore are not listed among its attributes. *)
From Coq Require Import String Ascii List ZArith QArith Bool.
From Verif Require Import PyBase.
Import ListNotations.
Local Open Scope list_scope.
Local Open Scope nat_scope.

(** A Python value by contents.  [TObj c] is an instance of a class named [c].
    The values set through scaks/descriptors/descriptors.py 43-53. *)
Inductive tree :=
| TNone | TBool (b : bool) | TInt (z : Z) | TFloat (q : Q) | TStr (s : str)
| TList (l : list tree) | TTuple (l : list tree) | TDict (l : list (tree * tree))
| TObj (cls : str).

(** [type(value)], by name. As in descriptors.py 73-81. *)
Definition type_of (t : tree) : str :=
  match t with
  | TNone => L "NoneType" | TBool _ => L "bool" | TInt _ => L "int"
  | TFloat _ => L "float" | TStr _ => L "str" | TList _ => L "list"
  | TTuple _ => L "tuple" | TDict _ => L "dict" | TObj c => c
  end.

(** A number for [==]: booleans are 0 and 1. *)
Definition number (t : tree) : option Q :=
  match t with
  | TBool b => Some (if b then 1%Q else 0%Q)
  | TInt z => Some (inject_Z z)
  | TFloat q => Some q
  | _ => None
  end.

(** [a == b].  Two instances of the classes that occur as [TObj] are equal only
    when they are the same object; by contents this cannot be seen and two
    [TObj] are taken as different. Used by [in], descriptors.py 79-81. *)
Fixpoint py_eq (a b : tree) {struct a} : bool :=
  let fix all2 (l m : list tree) {struct l} : bool :=
    match l, m with
    | [], [] => true
    | x :: l', y :: m' => py_eq x y && all2 l' m'
    | _, _ => false
    end in
  let fix sub (l m : list (tree * tree)) {struct l} : bool :=
    match l with
    | [] => true
    | (k, v) :: l' => existsb (fun kv => py_eq k (fst kv) && py_eq v (snd kv)) m && sub l' m
    end in
  match a, b with
  | TNone, TNone => true
  | TStr s, TStr s' => str_eqb s s'
  | TList l, TList m => all2 l m
  | TTuple l, TTuple m => all2 l m
  | TDict l, TDict m => Nat.eqb (length l) (length m) && sub l m
  | _, _ =>
      match number a, number b with
      | Some p, Some q => Qeq_bool p q
      | _, _ => false
      end
  end.

(** [value in candidates] for a list (or a [range]) of values. descriptors.py 79-81. *)
Definition py_in (v : tree) (l : list tree) : bool := existsb (py_eq v) l.

(** [s.endswith(suffix)]. check_utilities.py 77. *)
Fixpoint str_prefix (p s : str) : bool :=
  match p, s with
  | [], _ => true
  | x :: p', y :: s' => Ascii.eqb x y && str_prefix p' s'
  | _, [] => false
  end.
(** [s.endswith(suffix)], check_utilities.py 77. *)
Definition endswith (s suffix : str) : bool := str_prefix (rev suffix) (rev s).

(** [p in s] for two texts. check_utilities.py 84-102. *)
Fixpoint substring (p s : str) : bool :=
  str_prefix p s || match s with [] => false | _ :: t => substring p t end.

(** [key in value]: keys of a dict, entries of a sequence, parts of a text;
    TypeError for what is not a container. check_utilities.py 84-102. *)
Definition contains (key : str) (t : tree) : res bool :=
  match t with
  | TDict l => Ok (existsb (fun kv => py_eq (TStr key) (fst kv)) l)
  | TList l | TTuple l => Ok (py_in (TStr key) l)
  | TStr s => Ok (substring key s)
  | _ => Err TypeError
  end.

(** check_utilities.py 74-82: the body of the loop of [check_species_definitions]. *)
Definition check_species1 (kv : tree * tree) : res unit :=
  match fst kv with
  | TStr sp =>
      if endswith sp (L "_g") then
        do b <- contains (L "pressure") (snd kv);
        if b then Ok tt else Err SetupError
      else Ok tt
  | _ => Err AttributeError
  end.

(** check_utilities.py 62-82 *)
Definition check_species (t : tree) : res unit :=
  match t with
  | TDict l => do _ <- mapM check_species1 l; Ok tt
  | _ => Err SetupError
  end.

(** check_utilities.py 96-102: the body of the loop of [check_ref_energies]. *)
Definition check_ref1 (kv : tree * tree) : res unit :=
  match kv with
  | (TStr _, TFloat _) => Ok tt
  | _ => Err SetupError
  end.

(** check_utilities.py 84-102 *)
Definition check_ref (t : tree) : res unit :=
  match t with
  | TDict l => do _ <- mapM check_ref1 l; Ok tt
  | _ => Err SetupError
  end.

(** [type(i) == int] check_utilities.py 105-135. *)
Definition is_int (t : tree) : bool := str_eqb (type_of t) (L "int").

(** check_utilities.py 114-132: one entry of the list of intervals. *)
Definition check_interval1 (t : tree) : res unit :=
  match t with
  | TInt _ => Ok tt
  | TList l | TTuple l =>
      if negb (Nat.eqb (length l) 3) then Err SetupError
      else if negb (forallb is_int l) then Err SetupError
      else match l with
           | [TInt start; TInt stop; TInt step] =>
               if (stop <? start)%Z then Err SetupError
               else if (stop - start <? step)%Z then Err SetupError
               else Ok tt
           | _ => Err SetupError
           end
  | _ => Err SetupError
  end.

(** check_utilities.py 105-135 *)
Definition check_interval (t : tree) : res unit :=
  match t with
  | TInt _ => Ok tt
  | TList l | TTuple l => do _ <- mapM check_interval1 l; Ok tt
  | _ => Err SetupError
  end.

(** [numpy.array(value).shape] for nested lists and tuples, everything else being an entry;
    [None] if the parts differ in shape (numpy raises a ValueError, or makes an array of
    objects, which the checks below refuse with a ValueError). descriptors.py 295, 321. *)
Definition shape_eqb (a b : list nat) : bool := if list_eq_dec Nat.eq_dec a b then true else false.
(** The common shape of the parts of an array, descriptors.py 295, 321. *)
Definition common_shape (l : list (option (list nat))) : option (list nat) :=
  match l with
  | [] => Some [0]
  | None :: _ => None
  | Some s :: t =>
      if forallb (fun x => match x with Some s' => shape_eqb s s' | None => false end) t
      then Some (length l :: s) else None
  end.
(** [numpy.array(value).shape], descriptors.py 295, 321. *)
Fixpoint np_shape (t : tree) : option (list nat) :=
  match t with
  | TList l | TTuple l => common_shape (map np_shape l)
  | _ => Some []
  end.

(** The entries of the array. descriptors.py 295-303. *)
Fixpoint np_entries (t : tree) : list tree :=
  match t with
  | TList l | TTuple l => concat (map np_entries l)
  | _ => [t]
  end.

(** [numpy.array(value).dtype.kind == 'f']: numbers of which one is a float, or no entries at
    all.  Integers fit into 64 bits. *)
Definition np_floats (l : list tree) : bool :=
  forallb (fun x => match number x with Some _ => true | None => false end) l
  && (match l with [] => true | _ => false end
      || existsb (fun x => match x with TFloat _ => true | _ => false end) l).

(** descriptors.py 294-301 and, with a width, 319-324: [FloatList2D._check] and
    [SpaceVectors._check]; every refusal is a ValueError. *)
Definition check_vectors (width : option nat) (t : tree) : res unit :=
  match np_shape t with
  | None => Err ValueError
  | Some shape =>
      match t with
      | TList _ =>
          if negb (np_floats (np_entries t)) then Err ValueError
          else match shape with
               | [_; n] => match width with
                           | Some m => if Nat.eqb n m then Ok tt else Err ValueError
                           | None => Ok tt
                           end
               | _ => Err ValueError
               end
      | _ => Err ValueError
      end
  end.

(** The descriptors by what they check. The classes of descriptors.py 56-323. *)
Inductive kind :=
| KAny                                              (* AttrDescriptor 39-41 *)
| KType (ty : str) (candidates : option (list tree)) (* Type and its subclasses *)
| KFloat (candidates : option (list tree))          (* Float *)
| KSpecies | KRef | KInterval
| KSequence (entry : option str) (candidates : option (list tree))
| KVectors (width : option nat).                    (* FloatList2D, SpaceVectors *)

(** [self.candidates is not None and value not in self.candidates]: ValueError.
    descriptors.py 79-81. *)
Definition check_candidates (c : option (list tree)) (t : tree) : res unit :=
  match c with
  | Some l => if py_in t l then Ok tt else Err ValueError
  | None => Ok tt
  end.

(** The [_check] methods: descriptors.py 39-41, 73-81, 121-129, 207-209 (the
    check comes before [super().__set__]), 230-231, 238-239, 262-276, 294-301, 319-324. *)
Definition check (k : kind) (t : tree) : res unit :=
  match k with
  | KAny => Ok tt
  | KType ty c => if str_eqb (type_of t) ty then check_candidates c t else Err ValueError
  | KFloat c =>
      if str_eqb (type_of t) (L "float") || str_eqb (type_of t) (L "int")
      then check_candidates c t else Err ValueError
  | KSpecies => check_species t
  | KRef => check_ref t
  | KInterval => check_interval t
  | KSequence entry c =>
      match t with
      | TList l | TTuple l =>
          do _ <- match entry with
                  | Some ty => mapM (fun x => if str_eqb (type_of x) ty then Ok tt
                                              else Err ValueError) l
                  | None => Ok []
                  end;
          do _ <- mapM (check_candidates c) l;
          Ok tt
      | _ => Err ValueError
      end
  | KVectors width => check_vectors width t
  end.

(** A class attribute.  [AValue]: an [AttrDescriptor] with its default (a place
    of the heap, made once when the class is made) and its [deepcopy] flag.
    [AComponent]: a [Component].  [AProperty]: a read-only [Property].
    [APlain]: a method, a static method or any other name of the class.
    descriptors.py 13-53, 327-340; component_descriptors.py 10-37. *)
Inductive attr :=
| AValue (k : kind) (default : nat) (deepcopy : bool)
| AComponent (default : nat) (candidates : list str)
| AProperty
| APlain.

(** What a component's constructor does with its owner: [CGet n] is
    [owner.n]; [CMust n t] is the same and goes wrong with an AttributeError if the
    value is not the text [t]; [CPrivate n] reads the instance dictionary under the private
    name directly (parser_base.py 29-30); [CReactions f] uses what the parser made of the
    reactions, an AttributeError if nothing was parsed.  Calls that touch no setup attribute
    are left out. *)
Inductive action := CGet (n : str) | CMust (n t : str) | CPrivate (n : str) | CReactions (f : tree -> res unit).

(** An object: the name of its class and [__dict__]. kinetic_model.py 132-181. *)
Record object := { o_class : str; o_dict : dict nat }.
(** The heap and the objects; assignments are by reference (descriptors.py 43-53). *)
Record world := { heap : list tree; objects : list object }.

(** ["_{}__{}".format(instance.__class__.__name__, self.name)]
    descriptors.py 31, 47; component_descriptors.py 34; functions.py 115-140 *)
Definition private_name (cls n : str) : str := ch "_" :: cls ++ L "__" ++ n.

(** [instance.__dict__[key] = place] descriptors.py 37, 53. *)
Definition store (w : world) (i : nat) (key : str) (p : nat) : world :=
  match nth_error (objects w) i with
  | Some o =>
      {| heap := heap w;
         objects := firstn i (objects w)
                    ++ {| o_class := o_class o; o_dict := dset (o_dict o) key p |}
                    :: skipn (S i) (objects w) |}
  | None => w
  end.

(** A new object of the heap. [copy.deepcopy], descriptors.py 35, and literals of the setup. *)
Definition alloc (w : world) (t : tree) : nat * world :=
  (length (heap w), {| heap := heap w ++ [t]; objects := objects w |}).

(** The contents of an object. What [__get__] returns by contents, descriptors.py 30-37. *)
Definition contents (w : world) (p : nat) : tree := nth p (heap w) TNone.

(** The instance variables set by the parsing of the reactions (kinetic_model.py 319-325), as one:
    [_KineticModel__elementary_rxns_list]. *)
Definition reactions_key : str := L "_KineticModel__elementary_rxns_list".

(** A change in place: only lists, dicts and instances can be changed.
    On what descriptors.py 30-37 hands out. *)
Definition mutable (t : tree) : bool :=
  match t with TList _ | TDict _ | TObj _ => true | _ => false end.
(** The change itself, by a user of what descriptors.py 30-37 hands out. *)
Definition overwrite (w : world) (p : nat) (t : tree) : world :=
  {| heap := firstn p (heap w) ++ t :: skipn (S p) (heap w); objects := objects w |}.

Section Model.
(** The class attributes: class name, attribute name.  For the classes of the
    code see [kinetic_attrs] and [micro_attrs] below. *)
Variable table : str -> str -> option attr.
(** What the constructors of the components do with the owner, and what they
    return besides; [None] if no class of that name was imported
    ([value in globals()]). *)
Variable ctor : str -> option (list action * res unit).

(** AttrDescriptor.__get__, descriptors.py 30-37, [private] the private name. *)
Definition desc_get (w : world) (i : nat) (o : object) (private : str)
    (default : nat) (deepcopy : bool) : nat * world :=
  let w1 := if dmem (o_dict o) private then w else store w i private default in
  let p := match dget (o_dict o) private with Some p => p | None => default end in
  if deepcopy then alloc w1 (contents w1 p) else (p, w1).

(** [getattr(object, name)].  A [Property] and a plain name are not followed
    further: [Unsupported]. descriptors.py 30-37, component_descriptors.py 23-37. *)
Definition getattr (w : world) (i : nat) (n : str) : res nat * world :=
  match nth_error (objects w) i with
  | None => (Err NameError, w)
  | Some o =>
      match table (o_class o) n with
      | Some (AValue k d deep) =>
          let '(p, w1) := desc_get w i o (private_name (o_class o) n) d deep in (Ok p, w1)
      | Some (AComponent d c) =>
          let '(p, w1) := desc_get w i o (private_name (o_class o) n) d false in (Ok p, w1)
      | Some AProperty | Some APlain => (Err Unsupported, w)
      | None => (Err AttributeError, w)
      end
  end.

(** A component's constructor at work on its owner. component_descriptors.py 23-37. *)
Fixpoint construct (w : world) (i : nat) (acts : list action) : res unit * world :=
  match acts with
  | [] => (Ok tt, w)
  | CGet n :: t =>
      match getattr w i n with
      | (Ok _, w1) => construct w1 i t
      | (Err e, w1) => (Err e, w1)
      end
  | CMust n s :: t =>
      match getattr w i n with
      | (Ok p, w1) => if (match contents w1 p with TStr s' => str_eqb s' s | _ => false end)
                      then construct w1 i t else (Err AttributeError, w1)
      | (Err e, w1) => (Err e, w1)
      end
  | CPrivate n :: t =>
      match nth_error (objects w) i with
      | Some o => if dmem (o_dict o) (private_name (o_class o) n)
                  then construct w i t else (Err AttributeError, w)
      | None => (Err NameError, w)
      end
  | CReactions f :: t =>
      match nth_error (objects w) i with
      | Some o => match dget (o_dict o) reactions_key with
                  | Some p => match f (contents w p) with
                              | Ok _ => construct w i t
                              | Err e => (Err e, w)
                              end
                  | None => (Err AttributeError, w)
                  end
      | None => (Err NameError, w)
      end
  end.

(** Component.__set__, component_descriptors.py 23-37. *)
Definition component_set (w : world) (i : nat) (private : str) (candidates : list str)
    (v : tree) : res unit * world :=
  match v with
  | TStr c =>
      if negb (str_mem c candidates) then (Err ValueError, w)
      else match ctor c with
           | Some (acts, r) =>
               match construct w i acts with
               | (Ok _, w1) =>
                   match r with
                   | Ok _ =>
                       let '(p, w2) := alloc w1 (TObj c) in (Ok tt, store w2 i private p)
                   | Err e => (Err e, w1)
                   end
               | (Err e, w1) => (Err e, w1)
               end
           | None => (Err ValueError, w)
           end
  | _ => (Err ValueError, w)
  end.

(** [setattr(object, name, value)]: AttrDescriptor.__set__ (43-53),
    Component.__set__, Property.__set__ (334-337); a plain name of the class
    is hidden by a new entry of the instance dictionary, and so is a name that
    the class does not have. *)
Definition setattr (w : world) (i : nat) (n : str) (p : nat) : res unit * world :=
  match nth_error (objects w) i with
  | None => (Err NameError, w)
  | Some o =>
      let private := private_name (o_class o) n in
      match table (o_class o) n with
      | Some (AValue k d deep) =>
          match check k (contents w p) with
          | Err e => (Err e, w)
          | Ok _ =>
              if dmem (o_dict o) private then (Err AttributeError, w)
              else (Ok tt, store w i private p)
          end
      | Some (AComponent d c) => component_set w i private c (contents w p)
      | Some AProperty => (Err AttributeError, w)
      | Some APlain | None => (Ok tt, store w i n p)
      end
  end.

(** MicroKineticModel.analysis_register, micro_kinetic_model.py 298-309;
    [is_plugin]: [issubclass(analysis_cls, OnTheFlyAnalysis)]. *)
Definition analysis_register (w : world) (i : nat) (is_plugin : bool) (cls : str)
    : res unit * world :=
  if negb is_plugin then (Err TypeError, w)
  else match getattr w i (L "analysis") with
       | (Ok p, w1) =>
           match contents w1 p with
           | TList l => (Ok tt, overwrite w1 p (TList (l ++ [TObj cls])))
           | _ => (Err AttributeError, w1)
           end
       | (Err e, w1) => (Err e, w1)
       end.

(** One operation of a program using the models.
    descriptors.py 30-53, component_descriptors.py 23-37, kinetic_model.py 132-181. *)
Inductive op :=
| Get (i : nat) (n : str)
| Put (i : nat) (n : str) (p : nat)
| Make (t : tree)                  (* a new value *)
| Change (p : nat) (t : tree)      (* a change in place *)
| Register (i : nat) (is_plugin : bool) (cls : str).

(** What the program sees of it: a place, or nothing.
    descriptors.py 30-53, component_descriptors.py 23-37, kinetic_model.py 132-181. *)
Definition step (w : world) (x : op) : res (option nat) * world :=
  match x with
  | Get i n => match getattr w i n with
               | (Ok p, w1) => (Ok (Some p), w1)
               | (Err e, w1) => (Err e, w1)
               end
  | Put i n p => match setattr w i n p with
                 | (Ok _, w1) => (Ok None, w1)
                 | (Err e, w1) => (Err e, w1)
                 end
  | Make t => let '(p, w1) := alloc w t in (Ok (Some p), w1)
  | Change p t =>
      if (p <? length (heap w)) && mutable (contents w p) && mutable t
      then (Ok None, overwrite w p t) else (Err AttributeError, w)
  | Register i b c => match analysis_register w i b c with
                      | (Ok _, w1) => (Ok None, w1)
                      | (Err e, w1) => (Err e, w1)
                      end
  end.

(** Operations in order; an exception ends an operation, not the program. *)
Fixpoint run (w : world) (ops : list op) : list (res (option nat)) * world :=
  match ops with
  | [] => ([], w)
  | x :: t =>
      let '(r, w1) := step w x in
      let '(rs, w2) := run w1 t in (r :: rs, w2)
  end.

(** KineticModel._load, kinetic_model.py 258-308: the loop over the setup
    dictionary (places of the values), in its order. *)
Fixpoint load_loop (w : world) (i : nat) (cls : str) (setup : list (str * nat))
    : res unit * world :=
  match setup with
  | [] => (Ok tt, w)
  | (key, p) :: t =>
      match table cls key with
      | None => load_loop w i cls t                    (* redundant parameter: a warning *)
      | Some _ =>
          if str_eqb key (L "parser") || str_eqb key (L "solver") then load_loop w i cls t
          else match setattr w i key p with
               | (Ok _, w1) => load_loop w1 i cls t
               | (Err e, w1) => (Err e, w1)
               end
      end
  end.

(** KineticModel._load, kinetic_model.py 258-330.  [parse] is
    [parser.parse_elementary_rxns] (Rxn_Model, Species_Model), called when
    [self.rxn_expressions] is not empty; what it returns depends on the expressions only and is
    kept as a copy of them. *)
Definition is_empty (t : tree) : bool :=
  match t with TList [] | TTuple [] => true | _ => false end.

(** As above with an owner: kinetic_model.py 262-330. *)
Definition load (parse : tree -> res unit) (w : world) (i : nat) (cls : str)
    (setup : list (str * nat)) : res unit * world :=
  match load_loop w i cls setup with
  | (Err e, w1) => (Err e, w1)
  | (Ok _, w1) =>
      match dget setup (L "parser") with
      | None => (Err ParameterError, w1)
      | Some p =>
          match setattr w1 i (L "parser") p with
          | (Err e, w2) => (Err e, w2)
          | (Ok _, w2) =>
              match getattr w2 i (L "rxn_expressions") with
              | (Err e, w3) => (Err e, w3)
              | (Ok q, w3) =>
                  match (if is_empty (contents w3 q) then (Ok tt, w3)
                         else match parse (contents w3 q) with
                              | Err e => (Err e, w3)
                              | Ok _ => let '(c, w4) := alloc w3 (contents w3 q) in
                                        (Ok tt, store w4 i reactions_key c)
                              end) with
                  | (Err e, w4) => (Err e, w4)
                  | (Ok _, w4) =>
                      match dget setup (L "solver") with
                      | Some s => setattr w4 i (L "solver") s
                      | None => (Ok tt, w4)
                      end
                  end
              end
          end
      end
  end.

(** KineticModel.__init__, kinetic_model.py 132-183, for a given setup
    dictionary: the three logging levels (places of the arguments or of their
    defaults), [setup_dict], and the loading. *)
Definition init (parse : tree -> res unit) (w : world) (i : nat) (cls : str)
    (levels : nat * nat * nat) (dict_place : nat) (setup : list (str * nat))
    : res unit * world :=
  let '(l1, l2, l3) := levels in
  match setattr w i (L "logger_level") l1 with
  | (Err e, w1) => (Err e, w1)
  | (Ok _, w1) =>
  match setattr w1 i (L "file_handler_level") l2 with
  | (Err e, w2) => (Err e, w2)
  | (Ok _, w2) =>
  match setattr w2 i (L "console_handler_level") l3 with
  | (Err e, w3) => (Err e, w3)
  | (Ok _, w3) =>
  match setattr w3 i (L "setup_dict") dict_place with
  | (Err e, w4) => (Err e, w4)
  | (Ok _, w4) => load parse w4 i cls setup
  end end end end.

End Model.

(** The places of the defaults of the two classes, made when the classes are
    made: kinetic_model.py 87-130, micro_kinetic_model.py 82-123. *)
Definition defaults : list tree :=
  [ TStr []; TDict []; TInt 20; TInt 10; TNone; TFloat (298 # 1); TList [];
    TDict []; TStr (L "TST"); TList [TStr (L "parser")]; TFloat 0; TFloat 1;
    TInt 100; TFloat (1 # 100); TStr (L "right"); TList [TStr (L "steady_state_coverages")];
    TStr (L "mpmath"); TStr (L "MDNewton"); TFloat (1 # 100000000); TInt 500; TInt 200;
    TDict []; TList [] ].

(** [range(0, 60, 10)], kinetic_model.py 81-93. *)
Definition levels_range : list tree := map TInt [0; 10; 20; 30; 40; 50]%Z.

(** The attributes that KineticModel declares, kinetic_model.py 85-130. *)
Definition kinetic_attrs : dict attr :=
  [ (L "setup_file", AValue (KType (L "str") None) 0 false);
    (L "setup_dict", AValue (KType (L "dict") None) 1 false);
    (L "logger_level", AValue (KType (L "int") (Some levels_range)) 2 false);
    (L "file_handler_level", AValue (KType (L "int") (Some levels_range)) 3 false);
    (L "console_handler_level", AValue (KType (L "int") (Some levels_range)) 2 false);
    (L "parser", AComponent 4 [L "RelativeEnergyParser"; L "AbsoluteEnergyParser"; L "KMCParser"]);
    (L "solver", AComponent 4 [L "KMCSolver"; L "SteadyStateSolver"]);
    (L "corrector", AComponent 4 [L "ThermodynamicCorrector"]);
    (L "plotter", AComponent 4 [L "EnergyProfilePlotter"]);
    (L "temperature", AValue (KFloat None) 5 false);
    (L "rxn_expressions", AValue (KSequence (Some (L "str")) None) 6 false);
    (L "species_definitions", AValue KSpecies 7 true);
    (L "rate_algo", AValue (KType (L "str") None) 8 false);
    (L "components", AValue (KSequence (Some (L "str")) None) 9 false);
    (L "unitcell_area", AValue (KFloat None) 10 false);
    (L "active_ratio", AValue (KFloat None) 11 false);
    (* properties and methods that the class also has *)
    (L "log_allowed", AProperty); (L "kB", AProperty); (L "h", AProperty);
    (L "logger", AProperty); (L "elementary_rxns_list", AProperty);
    (L "site_names", AProperty); (L "adsorbate_names", AProperty);
    (L "gas_names", AProperty); (L "liquid_names", AProperty);
    (L "transition_state_names", AProperty); (L "has_relative_energy", AProperty);
    (L "has_absolute_energy", AProperty); (L "relative_energies", AProperty);
    (L "absolute_energies", AProperty);
    (L "run", APlain); (L "set_solver", APlain); (L "set_corrector", APlain);
    (L "set_plotter", APlain); (L "set_logger_level", APlain); (L "clear_handlers", APlain);
    (L "generate_relative_energies_file", APlain);
    (L "generate_absolute_energies_file", APlain) ].

(** The attributes that MicroKineticModel adds, micro_kinetic_model.py 80-123.
    [archived_variables] is declared with the descriptor name ["archive_data"]
    (89); no other descriptor has that name, so only the private name differs
    and it is left out here. *)
Definition micro_attrs : dict attr :=
  kinetic_attrs ++
  [ (L "decimal_precision", AValue (KType (L "int") None) 12 false);
    (L "perturbation_size", AValue (KFloat None) 13 false);
    (L "perturbation_direction",
       AValue (KType (L "str") (Some [TStr (L "right"); TStr (L "left")])) 14 false);
    (L "archived_variables", AValue (KSequence (Some (L "str")) None) 15 false);
    (L "numerical_representation",
       AValue (KType (L "str") (Some [TStr (L "mpmath"); TStr (L "sympy")])) 16 false);
    (L "rootfinding",
       AValue (KType (L "str") (Some [TStr (L "MDNewton"); TStr (L "ConstrainedNewton")])) 17 false);
    (L "tolerance", AValue (KFloat None) 18 false);
    (L "max_rootfinding_iterations", AValue (KType (L "int") None) 12 false);
    (L "ode_buffer_size", AValue (KType (L "int") None) 19 false);
    (L "ode_output_interval", AValue (KType (L "int") None) 20 false);
    (L "ref_energies", AValue KRef 21 false);
    (L "hybrid_method", APlain);
    (L "analysis", AValue (KSequence (Some (L "OnTheFlyAnalysis")) None) 22 false);
    (L "hybrid_method_register", APlain); (L "analysis_register", APlain);
    (L "model_info", AProperty); (L "data_file", AProperty);
    (L "steady_state_coverages", AProperty); (L "TOFs", AProperty);
    (L "reversibilities", AProperty); (L "error", AProperty) ].

(** The class of micro_kinetic_model.py 14. *)
Definition micro : str := L "MicroKineticModel".

(** The places of the further defaults of KMCModel, kmc_model.py 13-113, after those above.
    The default of [time_limit] is infinity, a float without a value here. *)
Definition kmc_defaults : list tree :=
  [ TList [TList [TFloat 1; TFloat 0; TFloat 0]; TList [TFloat 0; TFloat 1; TFloat 0];
           TList [TFloat 0; TFloat 0; TFloat 1]];
    TList [TList [TFloat 0; TFloat 0; TFloat 0]];
    TTuple [TInt 1; TInt 1; TInt 1]; TTuple [TBool true; TBool true; TBool true]; TInt 1;
    TBool false; TStr (L "MT"); TList []; TList []; TList []; TStr (L "V"); TInt 0;
    TObj (L "float"); TList []; TInt 10; TStr (L "RandomDistributor") ].

(** The attributes that KMCModel adds, kmc_model.py 11-114, 161-202.  [extra_trajectories] is
    declared with the descriptor name ["extra_trajectries"] (87); again only the private name
    differs. *)
Definition kmc_attrs : dict attr :=
  kinetic_attrs ++
  [ (L "cell_vectors", AValue (KVectors (Some 3)) 23 false);
    (L "basis_sites", AValue (KVectors (Some 3)) 24 false);
    (L "repetitions", AValue (KSequence (Some (L "int")) None) 25 false);
    (L "periodic", AValue (KSequence (Some (L "bool")) None) 26 false);
    (L "nstep", AValue (KType (L "int") None) 27 false);
    (L "random_seed", AValue (KType (L "int") None) 4 false);
    (L "time_seed", AValue (KType (L "bool") None) 28 false);
    (L "trajectory_dump_interval", AValue (KType (L "int") None) 27 false);
    (L "random_generator",
       AValue (KType (L "str") (Some (map TStr [L "MT"; L "MINSTD"; L "RANLUX24"; L "RANLUNX48"]))) 29 false);
    (L "analysis",
       AValue (KSequence (Some (L "str"))
                 (Some (map TStr [L "CoveragesAnalysis"; L "FrequencyAnalysis"; L "TOFAnalysis";
                                  L "EventAnalysis"]))) 30 false);
    (L "analysis_interval", AValue KInterval 4 false);
    (L "possible_element_types", AValue (KSequence (Some (L "str")) None) 31 false);
    (L "possible_site_types", AValue (KSequence (Some (L "str")) None) 32 false);
    (L "empty_type", AValue (KType (L "str") None) 33 false);
    (L "tof_start", AValue (KType (L "int") None) 34 false);
    (L "time_limit", AValue (KFloat None) 35 false);
    (L "coverage_ratios", AValue (KSequence (Some (L "float")) None) 36 false);
    (L "extra_trajectories", AValue (KSequence (Some (L "int")) None) 4 false);
    (L "start_time", AValue (KFloat None) 10 false);
    (L "tof_interval", AValue (KFloat None) 37 false);
    (L "do_redistribution", AValue (KType (L "bool") None) 28 false);
    (L "redistribution_interval", AValue (KType (L "int") None) 27 false);
    (L "fast_species", AValue (KSequence (Some (L "str")) None) 4 false);
    (L "nsplits", AValue (KSequence (Some (L "int")) None) 25 false);
    (L "distributor_type",
       AValue (KType (L "str") (Some (map TStr [L "RandomDistributor"; L "ProcessRandomDistributor"]))) 38 false);
    (L "process_dicts", AProperty); (L "processes", AProperty); (L "configuration", AProperty);
    (L "sitesmap", AProperty); (L "process_mapping", AProperty) ].

(** The class of kmc_model.py 11. *)
Definition kmc : str := L "KMCModel".

(** Attributes by class and name: kinetic_model.py 76-130 and the two tables above. *)
Definition model_table (cls n : str) : option attr :=
  if str_eqb cls micro then dget micro_attrs n
  else if str_eqb cls kmc then dget kmc_attrs n
  else dget kinetic_attrs n.

(** The constructors: the parsers read the private species definitions
    (parser_base.py 29-30), the corrector and the plotter read nothing
    (corrector_base.py 5-10, plotter_base.py 5-10, thermodynamic_corrector.py
    24-32, energy_profile_plotter.py 12-21), and so does the KMC solver (kmc_solver.py 27-46,
    solver_base.py 20-24).  The steady-state solver
    (mean_field_solver.py 24-67, 116-129) reads the numerical representation and, for mpmath, the
    precision; then the reactions; then it needs [_mpf], which is set for mpmath only, and the
    temperature; then it sorts the adsorbates by site, [classify] (MF_Model.classify) on the parsed
    reactions. *)
Definition model_ctor (classify : tree -> res unit) (c : str) : option (list action * res unit) :=
  dget [ (L "RelativeEnergyParser", ([CPrivate (L "species_definitions")], Ok tt));
         (L "AbsoluteEnergyParser", ([CPrivate (L "species_definitions")], Ok tt));
         (L "KMCParser", ([CPrivate (L "species_definitions")], Ok tt));
         (L "KMCSolver", ([], Ok tt));
         (L "ThermodynamicCorrector", ([], Ok tt));
         (L "EnergyProfilePlotter", ([], Ok tt));
         (L "SteadyStateSolver",
            ([CMust (L "numerical_representation") (L "mpmath"); CGet (L "decimal_precision");
              CReactions (fun _ => Ok tt); CGet (L "temperature"); CReactions classify], Ok tt)) ] c.

(** AnalysisMeta.__new__, metaclasses.py 9-33: the entries of the class body
    that matter ([None]: absent), and the resulting table of methods: [true]
    if it is the one given, [false] for a default that does nothing.  A method
    is callable or not; [Some TNone] for a method is the value [None]. *)
Definition meta_interval (i : option tree) : res unit :=
  match i with
  | None => Ok tt
  | Some t =>
      match t with
      | TInt z => if (z <=? 0)%Z then Err TypeError else Ok tt
      | _ => Err TypeError
      end
  end.

(** What the body of a class says of a method, metaclasses.py 16-28. *)
Inductive given := Absent | NoneValue | Callable | NotCallable.

(** The test of one method, metaclasses.py 16-28. *)
Definition meta_method (g : given) : res bool :=
  match g with
  | Callable => Ok true
  | NotCallable => Err AttributeError
  | Absent | NoneValue => Ok false
  end.

(** AnalysisMeta.__new__ as a whole, metaclasses.py 9-34. *)
Definition analysis_class (i : option tree) (setup register_step finalize : given)
    : res (bool * bool * bool) :=
  do _ <- meta_interval i;
  do a <- meta_method setup;
  do b <- meta_method register_step;
  do c <- meta_method finalize;
  Ok (a, b, c).
