(** What a file of pictures holds (C104). *)
From Coq Require Import List Arith.
Import ListNotations.
From Verif Require Import PyBase GifRead_Model.

(** [f] can be read up to frame number [length l], and these are its frames. *)
Definition starts_with {A} (f : opened A) (l : list A) : Prop :=
  forall i a, nth_error l i = Some a ->
    (exists d, convert_at f i = Ok (S d, a)) /\ seek_to f i = Ok tt.
(** After them the file ends. *)
Definition ends_at {A} (f : opened A) (n : nat) : Prop := seek_to f n = Err EOFError.
(** A frame is there but cannot be read to its end. *)
Definition cut_off {A} (f : opened A) (n : nat) : Prop := seek_to f n = Ok tt /\ convert_at f n = Err EOFError.
Definition holds {A} (f : opened A) (l : list A) : Prop := starts_with f l /\ ends_at f (length l).
