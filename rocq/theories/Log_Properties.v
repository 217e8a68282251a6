(** C71: messages of the models. *)
From Coq Require Import String Ascii List ZArith Bool Arith Lia.
Import ListNotations.
From Verif Require Import PyBase PyBaseFacts Log_Model Log_Spec Log_Proofs PyBase_Spec PyBase_Sound.
Local Open Scope list_scope.
Local Open Scope nat_scope.

(** Whatever happened before, a message below the level of the newest model leaves no trace. *)
Theorem C71_level : forall h, exists t, threshold h t /\
  forall name level msg, (level < t \/ level <= 0)%Z ->
    after (h ++ [OLog name level msg]) = after h.
Proof.
  intro h. destruct (threshold_exists h) as [t Ht]. exists t. split; [exact Ht|].
  intros name level msg Hl. exact (log_silent h t name level msg Ht Hl).
Qed.
Print Assumptions C71_level.

(** Any other message is added to a log file once for every model that was built on that file
    since the handlers were last cleared and admits the level, and to nothing else of it. *)
Theorem C71_file : forall h v t name level msg text n,
  since_cleared h v -> threshold h t -> (t <= level)%Z -> (0 < level)%Z ->
  line_of name level msg text ->
  lines (after (h ++ [OLog name level msg])) (ToFile n) =
  lines (after h) (ToFile n) ++ copies level (file_levels v n) text.
Proof.
  intros h v t name level msg text n Hv Ht Hl H0 Hx. rewrite <- (line_format _ _ _ _ Hx).
  exact (log_file_lines h v t name level msg n Hv Ht Hl H0).
Qed.
Print Assumptions C71_file.

Theorem C71_console : forall h v t name level msg text,
  since_cleared h v -> threshold h t -> (t <= level)%Z -> (0 < level)%Z -> made v <> [] ->
  line_of name level msg text ->
  lines (after (h ++ [OLog name level msg])) ToConsole =
  lines (after h) ToConsole ++ copies level (console_levels v) text.
Proof.
  intros h v t name level msg text Hv Ht Hl H0 Hm Hx. rewrite <- (line_format _ _ _ _ Hx).
  exact (log_console_lines h v t name level msg Hv Ht Hl H0 Hm).
Qed.
Print Assumptions C71_console.

(** Without handlers, warnings and worse go to the console, bare, and nothing to a file. *)
Theorem C71_no_handlers : forall h v t name level msg,
  since_cleared h v -> threshold h t -> (t <= level)%Z -> (0 < level)%Z -> made v = [] ->
  lines (after (h ++ [OLog name level msg])) ToConsole =
    lines (after h) ToConsole ++ (if Z.leb 30 level then [msg] else []) /\
  forall n, lines (after (h ++ [OLog name level msg])) (ToFile n) = lines (after h) (ToFile n).
Proof.
  intros h v t name level msg Hv Ht Hl H0 Hm. split.
  - exact (log_last_resort h v t name level msg Hv Ht Hl H0 Hm).
  - intro n. rewrite (log_file_lines h v t name level msg n Hv Ht Hl H0).
    unfold file_levels. rewrite Hm. apply app_nil_r.
Qed.
Print Assumptions C71_no_handlers.

(** The construction of a model succeeds if its file can be opened; the five lines about the
    parallel run are written as any message of level INFO would be, by the classes that may. *)
Theorem C71_construction : forall h v k s r l f c n, since_cleared h v ->
  snd (start k s r true l f c (after h)) = Ok tt /\
  forall texts, Forall2 (line_of (L "model") 20) (banner s) texts ->
  let o := OStart k s r true l f c in
  let loud := log_allowed k r && ((Z.ltb 0 l && Z.leb l 20) || Z.ltb l 0)%Z in
  lines (after (h ++ [o])) (ToFile n) = lines (after h) (ToFile n) ++
    (if loud then flat_map (copies 20 (file_levels (v ++ [o]) n)) texts else []) /\
  lines (after (h ++ [o])) ToConsole = lines (after h) ToConsole ++
    (if loud then flat_map (copies 20 (console_levels (v ++ [o]))) texts else []).
Proof.
  intros h v k s r l f c n Hv. destruct (started_lines h v k s r l f c n Hv) as [Hs [Hf Hc]].
  split; [exact Hs|]. intros texts Ht. cbv zeta.
  assert (forall g : str -> list str, flat_map (fun m => g (format (L "model") 20 m)) (banner s)
          = flat_map g texts) as E.
  { intro g. exact (flat_map_lines g (banner s) texts Ht). }
  cbv zeta in Hf, Hc.
  rewrite (E (copies 20 (file_levels (v ++ [OStart k s r true l f c]) n))) in Hf.
  rewrite (E (copies 20 (console_levels (v ++ [OStart k s r true l f c])))) in Hc. now split.
Qed.
Print Assumptions C71_construction.

(** Those five lines; the third tells the number of processes. *)
Theorem C71_banner : forall s, exists t, banner s =
  [ L "------------------------------------"; L " Model is runing in MPI Environment "; L " Number of process: " ++ t;
    L "------------------------------------"; L " " ] /\ decimal (Z.of_nat s) t.
Proof. exact (fun s => ex_intro _ (str_of_Z (Z.of_nat s)) (conj eq_refl (decimal_of (Z.of_nat s)))). Qed.
Print Assumptions C71_banner.

Example C71_banner_example : decimal (Z.of_nat 12) (L "12").
Proof. apply str_of_Z_iff. reflexivity. Qed.

Theorem C71_file_not_opened : forall h k s r l f c,
  snd (start k s r false l f c (after h)) = Err IOError /\
  forall q, lines (after (h ++ [OStart k s r false l f c])) q = lines (after h) q.
Proof. exact not_opened. Qed.
Print Assumptions C71_file_not_opened.

(** Changing a level and clearing the handlers write nothing. *)
Theorem C71_quiet : forall h o q, match o with OSetLevel _ _ | OClear => True | _ => False end ->
  lines (after (h ++ [o])) q = lines (after h) q.
Proof. exact quiet. Qed.
Print Assumptions C71_quiet.

(** set_logger_level returns the level that the handler had, or raises ValueError if there is
    no handler of the class. *)
Theorem C71_old_level : forall h v ty l, since_cleared h v ->
  snd (set_logger_level ty l (after h)) =
  match made v with
  | [] => Err ValueError
  | (n, f, c) :: _ =>
      if str_eqb ty (L "FileHandler") then Ok (first_level (L "FileHandler") v f)
      else if str_eqb ty (L "StreamHandler") then Ok (first_level (L "StreamHandler") v c)
      else Err ValueError
  end.
Proof. exact set_outcome. Qed.
Print Assumptions C71_old_level.

(** n + 1 models built alike: every message appears n + 1 times, whichever model logs it. *)
Theorem C71_models_alike : forall k s r l f c n name level msg text,
  (k = Micro -> r = 0) -> (0 < l)%Z -> (l <= level)%Z -> line_of name level msg text ->
  let h := repeat (OStart k s r true l f c) (S n) in
  lines (after (h ++ [OLog name level msg])) (ToFile (log_file k s r)) =
    lines (after h) (ToFile (log_file k s r)) ++
    (if Z.leb f level then repeat text (S n) else []) /\
  lines (after (h ++ [OLog name level msg])) ToConsole =
    lines (after h) ToConsole ++ (if Z.leb c level then repeat text (S n) else []).
Proof.
  intros k s r l f c n name level msg text Hk H0 Hl Hx. rewrite <- (line_format _ _ _ _ Hx).
  exact (models_alike k s r l f c n name level msg Hk H0 Hl).
Qed.
Print Assumptions C71_models_alike.

(** The ranks of an MPI run use files of their own, except for KMC. *)
Theorem C71_own_file : forall k k' s r r', s <> 1 -> k <> Kmc -> k' <> Kmc ->
  log_file k s r = log_file k' s r' -> r = r'.
Proof. intros k k' s r r' Hs Hk Hk' H. exact (log_file_inj k k' s r r' H Hs Hk Hk'). Qed.
Print Assumptions C71_own_file.

Theorem C71_shared_file_refuted : exists s r r', s <> 1 /\ r <> r' /\
  log_file Kmc s r = log_file Kmc s r'.
Proof. exists 2, 0, 1. repeat split; discriminate. Qed.
Print Assumptions C71_shared_file_refuted.

(** "Every message appears once" is false from the second model on. *)
Definition usual (k : family) := OStart k 1 0 true 20 10 20.
Theorem C71_once_refuted : exists h msg text,
  line_of (L "model") 20 msg text /\
  lines (after (h ++ [OLog (L "model") 20 msg])) (ToFile (L "out.log")) =
  lines (after h) (ToFile (L "out.log")) ++ [text; text].
Proof.
  exists [usual Micro; usual Micro], (L "done"), (L "model   INFO     done").
  split; [|vm_compute; reflexivity].
  apply (line_known (L "model") 20 (L "INFO") (L "    ") (L "done"));
    [right; left; reflexivity| |reflexivity].
  intros c Hc. cbn in Hc. repeat (destruct Hc as [<- |Hc]; [reflexivity|]). destruct Hc.
Qed.
Print Assumptions C71_once_refuted.

(** A later model with a higher level silences the earlier one. *)
Theorem C71_earlier_model_refuted : exists h o msg,
  (exists text, lines (after (h ++ [OLog (L "model") 20 msg])) (ToFile (L "out.log")) =
     lines (after h) (ToFile (L "out.log")) ++ [text]) /\
  after (h ++ [o] ++ [OLog (L "model") 20 msg]) = after (h ++ [o]) /\
  o = OStart Micro 1 0 true 40 10 20.
Proof.
  exists [usual Micro], (OStart Micro 1 0 true 40 10 20), (L "done").
  split; [|split; [|reflexivity]]; [|vm_compute; reflexivity].
  exists (L "model   INFO     done"). vm_compute. reflexivity.
Qed.
Print Assumptions C71_earlier_model_refuted.

(** The lowest level, 0, shows less than the next one. *)
Theorem C71_lowest_level_refuted : exists msg text,
  after ([OStart Micro 1 0 true 0 0 0] ++ [OLog (L "model") 20 msg])
    = after [OStart Micro 1 0 true 0 0 0] /\
  lines (after ([OStart Micro 1 0 true 10 0 0] ++ [OLog (L "model") 20 msg])) ToConsole =
  lines (after [OStart Micro 1 0 true 10 0 0]) ToConsole ++ [text].
Proof.
  exists (L "done"), (L "model   INFO     done"). split; vm_compute; reflexivity.
Qed.
Print Assumptions C71_lowest_level_refuted.

(** The second model's console cannot be silenced through set_logger_level. *)
Theorem C71_own_console_refuted : exists h msg text,
  h = [usual Micro; usual Micro; OSetLevel (L "StreamHandler") 50;
       OSetLevel (L "StreamHandler") 50] /\
  lines (after (h ++ [OLog (L "model") 20 msg])) ToConsole = lines (after h) ToConsole ++ [text].
Proof.
  exists [usual Micro; usual Micro; OSetLevel (L "StreamHandler") 50; OSetLevel (L "StreamHandler") 50],
    (L "done"), (L "model   INFO     done"). split; [reflexivity|vm_compute; reflexivity].
Qed.
Print Assumptions C71_own_console_refuted.

(** The first model of a worker of an MPI run sends no INFO to the console ... *)
Theorem C71_worker : forall s r l f c name msg,
  lines (after [OStart Micro s (S r) true l f c]) ToConsole = [] /\
  lines (after [OStart Micro s (S r) true l f c; OLog name 20 msg]) ToConsole = [].
Proof.
  intros s r l f c name msg.
  assert (forall o, o = OStart Micro s (S r) true l f c -> console_levels [o] = [30%Z]) as Hc.
  { intros o ->. reflexivity. }
  assert (since_cleared [OStart Micro s (S r) true l f c] [OStart Micro s (S r) true l f c]) as Hs.
  { constructor. intros [H|[]]. discriminate. }
  assert (since_cleared [] []) as H0 by (constructor; intros []).
  assert (lines (after [OStart Micro s (S r) true l f c]) ToConsole = []) as E.
  { destruct (started_lines [] [] Micro s (S r) l f c [] H0) as [_ [_ H]]. cbn [app] in H.
    rewrite H, (Hc _ eq_refl).
    match goal with |- context [if ?b then _ else _] => destruct b end; reflexivity. }
  split; [exact E|].
  change [OStart Micro s (S r) true l f c; OLog name 20 msg]
    with ([OStart Micro s (S r) true l f c] ++ [OLog name 20 msg]).
  destruct (threshold_exists [OStart Micro s (S r) true l f c]) as [t Ht].
  destruct (Z_le_gt_dec t 20) as [Hl|Hl].
  - rewrite (log_console_lines _ _ t name 20 msg Hs Ht Hl); [|lia|discriminate].
    rewrite E, (Hc _ eq_refl). reflexivity.
  - rewrite (log_silent _ t name 20 msg Ht); [exact E|lia].
Qed.
Print Assumptions C71_worker.

(** ... the second one does. *)
Theorem C71_second_worker_refuted : exists o, o = OStart Micro 2 1 true 20 10 20 /\
  lines (after [o; o]) ToConsole = map (fun m => L "model   INFO     " ++ m) (banner 2).
Proof. exists (OStart Micro 2 1 true 20 10 20). split; [reflexivity|vm_compute; reflexivity]. Qed.
Print Assumptions C71_second_worker_refuted.

(** A case: one model, a debug message, a change of level, the handlers cleared. *)
Example C71_ex :
  lines (after [usual Kmc; OLog (L "model.parsers") 30 (L "odd"); OSetLevel (L "FileHandler") 40;
                OLog (L "model") 30 (L "odd again"); OClear; OLog (L "model") 40 (L "bare")])
    (ToFile (L "out.log"))
  = map (fun m => L "model   INFO     " ++ m) (banner 1) ++ [L "model.parsers   WARNING  odd"].
Proof. vm_compute. reflexivity. Qed.
Example C71_ex_since :
  since_cleared [usual Kmc; OClear; usual Base] [usual Base] /\
  threshold [usual Kmc; OClear; usual Base] 20 /\ made [usual Base] <> [].
Proof.
  split; [|split; [|discriminate]].
  - apply (sc_cleared [usual Kmc] [usual Base]). intros [H|[]]. discriminate.
  - exact (th_start [usual Kmc; OClear] Base 1 0 true 20 10 20).
Qed.
