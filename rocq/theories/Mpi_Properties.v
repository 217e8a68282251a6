(** Properties C43, C44, C54: distribution of work over MPI ranks, dictionary merging.
    Vocabulary: Mpi_Spec.v. *)
From Coq Require Import String Ascii List ZArith Bool Arith Lia.
Import ListNotations.
From Verif Require Import PyBase PyBaseFacts Mpi_Model Mpi_Spec Mpi_Proofs.
Local Open Scope list_scope.
Local Open Scope nat_scope.

(** With at least one element per rank, what every rank holds after splitting and merging is
    the first [P * (n / P)] elements.  Missing from the claim: the remaining elements, and
    sequences with fewer elements than ranks; see the refutations. *)
Theorem C43_split_then_merge_partial : forall A (s : list A) P r,
  0 < P -> P <= length s -> r < P ->
  exists pieces, all_ranks_get P s pieces /\
    merged_on_rank P r pieces = Some (firstn (P * (length s / P)) s).
Proof. exact @merged_is_prefix. Qed.
Print Assumptions C43_split_then_merge_partial.

(** Nothing is lost exactly when the number of ranks divides the length. *)
Theorem C43_lossless_iff_divides : forall A (s : list A) P pieces r,
  0 < P -> P <= length s -> r < P -> all_ranks_get P s pieces ->
  (merged_on_rank P r pieces = Some s <-> Nat.divide P (length s)).
Proof. exact @lossless_iff. Qed.
Print Assumptions C43_lossless_iff_divides.

(** The piece of a rank is a run of [n / P] consecutive elements, in rank order. *)
Theorem C43_piece : forall A (s : list A) P r p,
  0 < P -> r < P -> split_seq P r s = Ok p ->
  P <= length s /\ length p = length s / P /\
  forall i, i < length p -> nth_error p i = nth_error s (r * (length s / P) + i).
Proof. exact @pieces_in_order. Qed.
Print Assumptions C43_piece.

(** With fewer elements than ranks (an empty sequence included) every rank raises ValueError. *)
Theorem C43_few_elements_rejected : forall A (s : list A) P r,
  0 < P -> length s < P -> split_seq P r s = Err ValueError.
Proof. exact @split_seq_short. Qed.
Print Assumptions C43_few_elements_rejected.

(** Over no ranks nothing can be split. *)
Theorem C43_no_ranks : forall A (s : list A) r, split_seq 0 r s = Err ZeroDivisionError.
Proof. exact (fun A s r => eq_refl). Qed.
Print Assumptions C43_no_ranks.

(** Five elements over two ranks: the last one is lost.  One element over two ranks: refused. *)
Theorem C43_refuted :
  (exists (s : list nat) P r pieces, r < P /\ all_ranks_get P s pieces /\
     merged_on_rank P r pieces <> Some s) /\
  (exists (s : list nat) P r, 0 < P /\ r < P /\ split_seq P r s = Err ValueError).
Proof.
  split.
  - exists [1;2;3;4;5], 2, 0, [[1;2];[3;4]]. split; [lia|]. split; [|discriminate].
    split; [reflexivity|]. intros [|[|[|r]]] p E; cbn in E; try discriminate; injection E as <-; reflexivity.
  - exists [1], 2, 0. repeat split; lia.
Qed.
Print Assumptions C43_refuted.

Example C43_example :
  all_ranks_get 3 [1;2;3;4;5;6] [[1;2];[3;4];[5;6]] /\
  merged_on_rank 3 2 [[1;2];[3;4];[5;6]] = Some [1;2;3;4;5;6] /\
  split_seq 1 0 [7] = Ok [7].
Proof.
  split; [|split; reflexivity]. split; [reflexivity|].
  intros [|[|[|[|r]]]] p E; cbn in E; try discriminate; injection E as <-; reflexivity.
Qed.

Theorem C44_exact_and_balanced : forall P size, 0 < P -> (0 <= size)%Z ->
  exists sizes, mapM (fun r => split_size P r size) (seq 0 P) = Ok sizes /\
    length sizes = P /\ zsum sizes = size /\
    (forall a b, In a sizes -> In b sizes -> (Z.abs (a - b) <= 1)%Z) /\
    (forall a, In a sizes -> (0 <= a)%Z).
Proof. exact split_size_all. Qed.
Print Assumptions C44_exact_and_balanced.

(** The larger chunks go to the first ranks. *)
Theorem C44_chunk_of_rank : forall P r size, 0 < P -> (0 <= size)%Z -> r < P ->
  split_size P r size =
  Ok (size / Z.of_nat P + (if (Z.of_nat r <? size mod Z.of_nat P)%Z then 1 else 0))%Z.
Proof. exact split_size_at. Qed.
Print Assumptions C44_chunk_of_rank.

Example C44_example :
  mapM (fun r => split_size 4 r 10%Z) (seq 0 4) = Ok [3;3;2;2]%Z /\
  mapM (fun r => split_size 4 r 2%Z) (seq 0 4) = Ok [1;1;0;0]%Z /\
  mapM (fun r => split_size 4 r 8%Z) (seq 0 4) = Ok [2;2;2;2]%Z.
Proof. repeat split. Qed.

(** Every key of the second dictionary has its value there, every other key its value in the
    first. *)
Theorem C54_merge : forall V (d1 d2 : dict V) k, NoDup (map fst d2) ->
  dget (merge_two_dicts d1 d2) k = match dget d2 k with Some v => Some v | None => dget d1 k end.
Proof. exact @merge_get. Qed.
Print Assumptions C54_merge.

(** A function restricted to the master runs on rank 0 and on no other rank. *)
Theorem C54_master_only : forall A rank (call : unit -> A),
  master_only rank call = Some (call tt) /\ rank = 0 \/ master_only rank call = None /\ rank <> 0.
Proof. intros A [|r] call; [left|right]; split; auto. Qed.
Print Assumptions C54_master_only.

Example C54_example :
  merge_two_dicts [(L "a", 1); (L "b", 2)] [(L "b", 3); (L "c", 4)]
  = [(L "a", 1); (L "b", 3); (L "c", 4)].
Proof. reflexivity. Qed.
