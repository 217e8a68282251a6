(** Property C104: reading animated pictures.  Vocabulary: GifRead_Spec.v. *)
From Coq Require Import List Arith Lia.
Import ListNotations.
From Verif Require Import PyBase GifRead_Model GifRead_Spec GifRead_Proofs.
Local Open Scope list_scope.

(** C104.  All frames, in order, as arrays or as pictures. *)
Theorem C104_read : forall array picture (from_array : array -> res picture) f l fuel,
  holds f l -> l <> [] -> length l <= fuel ->
  read_gif_file array picture from_array true true true (Ok f) fuel true = Returned (Arrays l) /\
  forall ps, mapM from_array l = Ok ps ->
    read_gif_file array picture from_array true true true (Ok f) fuel false = Returned (Pictures ps).
Proof. exact read_all. Qed.
Print Assumptions C104_read.

(** Whatever comes back are the first frames of the file, up to its end or up to a frame that is cut off. *)
Theorem C104_first_frames_partial : forall array picture (from_array : array -> res picture) f fuel l,
  read_gif_file array picture from_array true true true (Ok f) fuel true = Returned (Arrays l) ->
  starts_with f l /\ (ends_at f (length l) \/ cut_off f (length l)).
Proof. exact read_sound. Qed.
Print Assumptions C104_first_frames_partial.

(** Every other exception while reading reaches the caller. *)
Theorem C104_raised : forall array picture (from_array : array -> res picture) f l fuel e as_numpy,
  length l < fuel -> starts_with f l -> e <> EOFError -> seek_to f 0 = Ok tt ->
  (l <> [] /\ seek_to f (length l) = Err e \/ seek_to f (length l) = Ok tt /\ convert_at f (length l) = Err e) ->
  read_gif_file array picture from_array true true true (Ok f) fuel as_numpy = Raised e.
Proof. exact read_raises. Qed.
Print Assumptions C104_raised.

Theorem C104_scalar : forall array picture (from_array : array -> res picture) f l a fuel as_numpy,
  length l < fuel -> starts_with f l -> seek_to f 0 = Ok tt ->
  seek_to f (length l) = Ok tt -> convert_at f (length l) = Ok (0, a) ->
  read_gif_file array picture from_array true true true (Ok f) fuel as_numpy = MemoryError.
Proof. exact read_scalar. Qed.
Print Assumptions C104_scalar.

Theorem C104_picture_fails : forall array picture (from_array : array -> res picture) f l fuel e,
  holds f l -> l <> [] -> length l <= fuel -> mapM from_array l = Err e ->
  read_gif_file array picture from_array true true true (Ok f) fuel false = Raised e.
Proof. exact read_picture_fails. Qed.
Print Assumptions C104_picture_fails.

(** Missing modules and files. *)
Theorem C104_refused : forall array picture (from_array : array -> res picture) has_numpy is_file open fuel as_numpy,
  let read := read_gif_file array picture from_array in
  read false has_numpy is_file open fuel as_numpy = Raised RuntimeError /\
  read true false is_file open fuel as_numpy = Raised RuntimeError /\
  read true true false open fuel as_numpy = Raised IOError /\
  (forall e, read true true true (Err e) fuel as_numpy = Raised e) /\
  (forall f e, seek_to f 0 = Err e -> read true true true (Ok f) fuel as_numpy = Raised e).
Proof. exact read_refused. Qed.
Print Assumptions C104_refused.

(** A frame that is cut off ends the reading without error, and the frames after it are lost. *)
Theorem C104_complete_refuted : exists (f : opened nat) a b, convert_at f 0 = Ok (2, a) /\ cut_off f 1 /\
  convert_at f 2 = Ok (2, b) /\ seek_to f 2 = Ok tt /\ ends_at f 3 /\
  forall fuel, 1 < fuel -> read_gif_file nat nat Ok true true true (Ok f) fuel true = Returned (Arrays [a]).
Proof.
  exists damaged, 0, 2. repeat split. intros [|[|fuel]] H; [lia|lia|reflexivity].
Qed.
Print Assumptions C104_complete_refuted.

Example C104_example : holds whole [0; 1; 2] /\
  read_gif_file nat nat Ok true true true (Ok whole) 3 true = Returned (Arrays [0; 1; 2]).
Proof. split; [exact whole_holds|reflexivity]. Qed.
