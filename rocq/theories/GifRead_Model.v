(** Reading animated pictures: readGif of /repo/scaks/plotters/images2gif.py 603-651.
    PIL is an oracle: what [convert] gives at each position of the file and whether [seek] gets there. *)
From Coq Require Import List Arith.
Import ListNotations.
From Verif Require Import PyBase.
Local Open Scope list_scope.

(** How the call ends; MemoryError is no exception of [exn] (images2gif.py 629-651). *)
Inductive reading (A : Type) :=
| Returned (x : A)
| Raised (e : exn)
| MemoryError.
Arguments Returned {A} _.
Arguments Raised {A} _.
Arguments MemoryError {A}.

Section Read.
(** numpy's arrays and PIL's images *)
Variables array picture : Type.

(** An opened file: the number of dimensions and the entries of [np.asarray(pilIm.convert())] at a
    position, and [pilIm.seek]; both may raise (images2gif.py 624-638).  The position only ever grows by
    one, so what PIL remembers of earlier frames is part of what it gives at a position. *)
Record opened := { convert_at : nat -> res (nat * array); seek_to : nat -> res unit }.

(** The loop with its handler of EOFError, images2gif.py 628-640. *)
Fixpoint read_loop (fuel : nat) (f : opened) (i : nat) (images : list array) : reading (list array) :=
  match fuel with
  | O => Raised OutOfFuel
  | S fuel' =>
      match convert_at f i with
      | Err EOFError => Returned images
      | Err e => Raised e
      | Ok (O, _) => MemoryError
      | Ok (S _, a) =>
          match seek_to f (S i) with
          | Err EOFError => Returned (images ++ [a])
          | Err e => Raised e
          | Ok _ => read_loop fuel' f (S i) (images ++ [a])
          end
      end
  end.

(** What the call returns, by [asNumpy] (images2gif.py 642-651). *)
Inductive images := Arrays (l : list array) | Pictures (l : list picture).

(** [PIL.Image.fromarray] of each, images2gif.py 643-648. *)
Variable from_array : array -> res picture.

(** readGif, images2gif.py 603-651: [has_pil], [has_numpy]: the modules could be imported; [is_file]: the
    name is that of a file; [open]: what PIL makes of it.  [seek(0)] is outside the handler. *)
Definition read_gif_file (has_pil has_numpy is_file : bool) (open : res opened) (fuel : nat) (as_numpy : bool)
  : reading images :=
  if negb has_pil then Raised RuntimeError
  else if negb has_numpy then Raised RuntimeError
  else if negb is_file then Raised IOError
  else
    match open with
    | Err e => Raised e
    | Ok f =>
        match seek_to f 0 with
        | Err e => Raised e
        | Ok _ =>
            match read_loop fuel f 0 [] with
            | Raised e => Raised e
            | MemoryError => MemoryError
            | Returned l =>
                if as_numpy then Returned (Arrays l)
                else match mapM from_array l with
                     | Err e => Raised e
                     | Ok ps => Returned (Pictures ps)
                     end
            end
        end
    end.
End Read.
Arguments convert_at {array} _ _.
Arguments seek_to {array} _ _.
Arguments Arrays {array picture} _.
Arguments Pictures {array picture} _.
