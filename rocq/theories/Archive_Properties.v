(** Property C49: the data archive.  Vocabulary: Archive_Spec.v; [final ... s ops] is the state
    after a history. *)
From Coq Require Import String Ascii List Arith NArith Bool Lia.
From Verif Require Import PyBase PyBaseFacts Archive_Model Archive_Spec Archive_Proofs Archive_Witness.
Import ListNotations.
Local Open Scope list_scope.
Local Open Scope nat_scope.

(** After any history of archiving calls of any number of tools and of restarts, a file holds the
    dictionary of the tool that wrote it last, with exactly the values that this tool archived last
    in its process; unselected names are not in it. *)
Theorem C49_file : forall (V B : Type) (dump : dict V -> list B * option exn) selected path opens s,
  (forall t, dicts s t = []) -> forall a t name v b,
  selected t name = true -> opens (path t) = true ->
  (forall x, In x b -> ~ writes selected path opens (path t) x) ->
  exists d, disk (final dump selected path opens s (a ++ Archive t name v :: b)) (path t) = Some (fst (dump d)) /\
    NoDup (map fst d) /\
    (forall n x, dget d n = Some x <-> latest selected (a ++ [Archive t name v]) t n x) /\
    fst (step dump selected path opens (final dump selected path opens s a) (Archive t name v))
    = match snd (dump d) with None => Ok tt | Some e => Err e end.
Proof. intros V B dump selected path opens s. exact (file_exact dump selected path opens s). Qed.
Print Assumptions C49_file.

(** A file that is not written keeps its content. *)
Theorem C49_kept : forall (V B : Type) (dump : dict V -> list B * option exn) selected path opens s ops p,
  (forall x, In x ops -> ~ writes selected path opens p x) ->
  disk (final dump selected path opens s ops) p = disk s p.
Proof. intros V B dump selected path opens s ops p. exact (file_kept dump selected path opens s ops p). Qed.
Print Assumptions C49_kept.

(** Read back: if only one tool writes the file, it maps exactly the selected names archived in
    this process to their latest values.  Missing: several tools with the same file, values of an
    earlier process, crashes and values that cannot be pickled; for all four it is false (below). *)
Theorem C49_read_partial : forall (V B : Type) (dump : dict V -> list B * option exn) selected path opens s load t ops,
  (forall u, dicts s u = []) -> faithful dump load -> (forall d, snd (dump d) = None) ->
  opens (path t) = true ->
  (forall u n v, In (Archive u n v) ops -> u <> t -> selected u n = true -> path u <> path t) ->
  (exists n v, latest selected ops t n v) ->
  exists bytes d, disk (final dump selected path opens s ops) (path t) = Some bytes /\ load bytes = Ok d /\
    forall n x, dget d n = Some x <-> latest selected ops t n x.
Proof. intros V B dump selected path opens s load t ops. exact (read_latest dump selected path opens s load t ops). Qed.
Print Assumptions C49_read_partial.

Example C49_example : faithful toy_dump toy_load /\ (forall d, snd (toy_dump d) = None) /\
  latest only_coverages some_history 0 (L "steady_state_coverages") 4 /\
  disk (final toy_dump only_coverages one_path always nothing some_history) (one_path 0)
  = Some [Some (L "steady_state_coverages", 4); None].
Proof.
  split; [exact toy_faithful|]. split; [reflexivity|]. split; [exact some_history_latest|].
  vm_compute. reflexivity.
Qed.

(** The processes of a parallel run have different files. *)
Theorem C49_ranks : forall size r r', size <> 1 -> data_file size r = data_file size r' -> r = r'.
Proof. exact data_file_inj. Qed.
Print Assumptions C49_ranks.

(** A process that dies inside a call: every tool starts again with nothing; at most the file of the
    tool changes, to a beginning of what the call would have written. *)
Theorem C49_crash : forall (V B : Type) (dump : dict V -> list B * option exn) selected path opens s t name v k,
  let s' := crash dump selected path opens s t name v k in
  (forall u, dicts s' u = []) /\
  (forall p, (p <> path t \/ selected t name = false \/ opens (path t) = false) -> disk s' p = disk s p) /\
  (selected t name = true -> opens (path t) = true ->
   exists whole rest, disk s' (path t) = Some whole /\ length whole <= k /\
     disk (snd (step dump selected path opens s (Archive t name v))) (path t) = Some (whole ++ rest) /\
     (length whole < k -> rest = [])).
Proof. intros V B dump selected path opens s t name v k. exact (crash_exact dump selected path opens s t name v k). Qed.
Print Assumptions C49_crash.

(** Refuted: a crash inside a call can leave an empty file, which cannot be read, for every pickle
    that refuses an empty file; the content before the call was readable. *)
Theorem C49_crash_refuted : forall (V B : Type) (dump : dict V -> list B * option exn) load (v v' : V),
  faithful dump load -> (forall d, snd (dump d) = None) -> load [] = Err EOFError ->
  exists ops t name bytes d,
    disk (final dump all_selected one_path always nothing ops) (one_path t) = Some bytes /\
    load bytes = Ok d /\ dget d (L "rates") = Some v /\
    exists k bytes',
      disk (crash dump all_selected one_path always
              (final dump all_selected one_path always nothing ops) t name v' k) (one_path t) = Some bytes' /\
      load bytes' = Err EOFError.
Proof.
  intros V B dump load v v' F A E. exists [Archive 0 (L "rates") v], 0, (L "rates").
  destruct (read_latest dump all_selected one_path always nothing load 0 [Archive 0 (L "rates") v])
    as (bytes & d & D & Ld & G); auto.
  - intros u n x [I|[]] N. injection I as <- _ _. congruence.
  - exists (L "rates"), v. split; [reflexivity|]. exists [], []. auto.
  - exists bytes, d. split; [exact D|]. split; [exact Ld|]. split.
    + apply G. split; [reflexivity|]. exists [], []. auto.
    + exists 0, []. split; [|exact E]. now apply crash_empties.
Qed.
Print Assumptions C49_crash_refuted.

(** Refuted: two tools with the same file (two solvers, two models in one directory); the file has
    only the values of the one that wrote last. *)
Theorem C49_two_tools_refuted : exists ops bytes d,
  latest all_selected ops 0 (L "rates") 1 /\
  disk (final toy_dump all_selected one_path always nothing ops) (one_path 0) = Some bytes /\
  toy_load bytes = Ok d /\ dget d (L "rates") = None.
Proof.
  exists [Archive 0 (L "rates") 1; Archive 1 (L "tofs") 2]. do 2 eexists. split.
  - split; [reflexivity|]. exists [], [Archive 1 (L "tofs") 2]. split; [reflexivity|].
    split; [intros [I|[]]; discriminate|]. intros v [I|[]]. discriminate.
  - split; [vm_compute; reflexivity|]. split; vm_compute; reflexivity.
Qed.
Print Assumptions C49_two_tools_refuted.

(** Refuted: after a restart, the first call removes what the earlier process archived. *)
Theorem C49_restart_refuted : exists before after bytes bytes' d d',
  disk (final toy_dump all_selected one_path always nothing before) (one_path 0) = Some bytes /\
  toy_load bytes = Ok d /\ dget d (L "rates") = Some 1 /\
  (forall v, ~ In (Archive 0 (L "rates") v) after) /\
  disk (final toy_dump all_selected one_path always nothing (before ++ Restart :: after)) (one_path 0) = Some bytes' /\
  toy_load bytes' = Ok d' /\ dget d' (L "rates") = None.
Proof.
  exists [Archive 0 (L "rates") 1], [Archive 0 (L "tofs") 2]. do 4 eexists.
  split; [vm_compute; reflexivity|]. split; [vm_compute; reflexivity|]. split; [reflexivity|].
  split; [intros v [I|[]]; discriminate|].
  split; [vm_compute; reflexivity|]. split; vm_compute; reflexivity.
Qed.
Print Assumptions C49_restart_refuted.

(** A value that cannot be pickled stays in the dictionary: every later call of that tool that is
    to archive something fails, until that name is archived again. *)
Theorem C49_stuck : forall (V B : Type) (dump : dict V -> list B * option exn) selected path opens s t bad,
  (forall d e, In (e, bad) d -> exists x, snd (dump d) = Some x) ->
  opens (path t) = true ->
  forall ops n, dget (dicts s t) n = Some bad ->
  (forall v, ~ In (Archive t n v) ops) -> ~ In Restart ops ->
  forall m u k v r, nth_error ops m = Some (Archive u k v) -> u = t -> selected t k = true ->
  nth_error (fst (run dump selected path opens s ops)) m = Some r -> exists e, r = Err e.
Proof. intros V B dump selected path opens s t bad. exact (stuck dump selected path opens s t bad). Qed.
Print Assumptions C49_stuck.

Example C49_stuck_example :
  let dump := fun d : dict nat => (map snd d, if existsb (fun e => Nat.eqb (snd e) 0) d then Some TypeError else None) in
  (forall d e, In (e, 0) d -> exists x, snd (dump d) = Some x) /\
  fst (run dump all_selected one_path always nothing [Archive 0 (L "rates") 0; Archive 0 (L "tofs") 1])
  = [Err TypeError; Err TypeError].
Proof.
  split; [|reflexivity]. intros d e I. exists TypeError. cbn.
  assert (X : existsb (fun e => Nat.eqb (snd e) 0) d = true) by (apply existsb_exists; exists (e, 0); auto).
  now rewrite X.
Qed.
