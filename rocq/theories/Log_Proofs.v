(** Proofs about the shared logger. *)
From Coq Require Import String Ascii List ZArith Bool Arith Lia.
Import ListNotations.
From Verif Require Import PyBase PyBaseFacts Log_Model Log_Spec.
From Verif Require Fmt_Proofs.
Local Open Scope list_scope.
Local Open Scope nat_scope.

Definition FH := L "FileHandler".
Definition SH := L "StreamHandler".
Definition hF (n : str) (l : Z) := {| h_class := FH; h_level := l; h_sink := ToFile n |}.
Definition hC (l : Z) := {| h_class := SH; h_level := l; h_sink := ToConsole |}.
Definition pair (x : str * Z * Z) := [hF (fst (fst x)) (snd (fst x)); hC (snd x)].

Definition handlers_of (v : list op) : list handler :=
  match made v with
  | [] => []
  | (n, f, c) :: t =>
      hF n (first_level FH v f) :: hC (first_level SH v c) :: flat_map pair t
  end.

Lemma made_app v w : made (v ++ w) = made v ++ made w.
Proof. unfold made. apply flat_map_app. Qed.

Lemma changes_none ty v w : made v = [] -> changes ty (v ++ w) = changes ty w.
Proof.
  induction v as [|o v IH]; [reflexivity|]. intro H. cbn in H. apply app_eq_nil in H as [Ho Hv].
  cbn [app changes]. rewrite Ho. exact (IH Hv).
Qed.

Lemma changes_some ty v w : made v <> [] -> changes ty (v ++ w) = changes ty v ++ flat_map (changed_by ty) w.
Proof.
  induction v as [|o v IH]; [intro H; now elim H|]. intro H. cbn [app changes].
  destruct (made_by o) eqn:E.
  - apply IH. intro Hv. apply H. cbn. now rewrite E.
  - now rewrite app_comm_cons, flat_map_app.
Qed.

Lemma last_app1 (l m : list Z) d : last (l ++ m) d = last m (last l d).
Proof.
  induction m as [|a m IH] using rev_ind; [now rewrite app_nil_r|].
  now rewrite app_assoc, !last_last.
Qed.

Lemma first_level_none ty v w l : made v = [] -> first_level ty (v ++ w) l = first_level ty w l.
Proof. intro H. unfold first_level. now rewrite changes_none. Qed.
Lemma first_level_some ty v w l : made v <> [] ->
  first_level ty (v ++ w) l = last (flat_map (changed_by ty) w) (first_level ty v l).
Proof. intro H. unfold first_level. rewrite changes_some by exact H. apply last_app1. Qed.

(** Nothing but the construction of models and changes of level touches the handlers. *)
Definition calm (o : op) : Prop := made_by o = [] /\ forall ty, changed_by ty o = [].
Lemma calm_handlers v o : calm o -> handlers_of (v ++ [o]) = handlers_of v.
Proof.
  intros [Hm Hc]. unfold handlers_of. rewrite made_app. cbn. rewrite Hm, !app_nil_r.
  destruct (made v) as [|[[n f] c] t] eqn:E; [reflexivity|].
  rewrite !first_level_some by congruence. cbn. now rewrite !Hc.
Qed.

Lemma set_first_FH v l : set_first FH l (handlers_of v) =
  match made v with
  | [] => None
  | (n, f, c) :: t => Some (first_level FH v f, hF n l :: hC (first_level SH v c) :: flat_map pair t)
  end.
Proof. unfold handlers_of. now destruct (made v) as [|[[n f] c] t]. Qed.
Lemma set_first_SH v l : set_first SH l (handlers_of v) =
  match made v with
  | [] => None
  | (n, f, c) :: t => Some (first_level SH v c, hF n (first_level FH v f) :: hC l :: flat_map pair t)
  end.
Proof. unfold handlers_of. now destruct (made v) as [|[[n f] c] t]. Qed.

Lemma set_first_none ty l hs : (forall h, In h hs -> h_class h <> ty) -> set_first ty l hs = None.
Proof.
  induction hs as [|h hs IH]; [reflexivity|]. intro H. cbn.
  destruct (str_eqb (h_class h) ty) eqn:E.
  - apply str_eqb_eq in E. elim (H h (or_introl eq_refl) E).
  - rewrite IH; [reflexivity|]. intros x Hx. apply H. now right.
Qed.

Lemma handlers_class v h : In h (handlers_of v) -> h_class h = FH \/ h_class h = SH.
Proof.
  unfold handlers_of. destruct (made v) as [|[[n f] c] t]; [intros []|].
  intros [<- |[<- |H]]; [now left|now right|]. apply in_flat_map in H as [x [_ Hx]].
  destruct Hx as [<- |[<- |[]]]; [now left|now right].
Qed.

Lemma set_first_other ty l v : ty <> FH -> ty <> SH -> set_first ty l (handlers_of v) = None.
Proof.
  intros Hf Hs. apply set_first_none. intros h Hh He. subst ty.
  destruct (handlers_class _ _ Hh); congruence.
Qed.

Lemma str_eqb_no a b : a <> b -> str_eqb a b = false.
Proof.
  intro H. destruct (str_eqb a b) eqn:E; [|reflexivity]. apply str_eqb_eq in E. contradiction.
Qed.

Lemma set_level_handlers v ty l :
  handlers_of (v ++ [OSetLevel ty l]) =
  match set_first ty l (handlers_of v) with Some (_, hs) => hs | None => handlers_of v end.
Proof.
  destruct (list_eq_dec ascii_dec ty FH) as [-> |Hf].
  - rewrite set_first_FH. unfold handlers_of. rewrite made_app. cbn [made flat_map made_by app].
    rewrite app_nil_r. destruct (made v) as [|[[n f] c] t] eqn:E; [reflexivity|].
    rewrite !first_level_some by congruence. reflexivity.
  - destruct (list_eq_dec ascii_dec ty SH) as [-> |Hs].
    + rewrite set_first_SH. unfold handlers_of. rewrite made_app. cbn [made flat_map made_by app].
      rewrite app_nil_r. destruct (made v) as [|[[n f] c] t] eqn:E; [reflexivity|].
      rewrite !first_level_some by congruence. reflexivity.
    + rewrite set_first_other by assumption. unfold handlers_of. rewrite made_app.
      cbn [made flat_map made_by app]. rewrite app_nil_r.
      destruct (made v) as [|[[n f] c] t] eqn:E; [reflexivity|].
      rewrite !first_level_some by congruence. cbn [flat_map changed_by app].
      now rewrite (str_eqb_no ty FH), (str_eqb_no ty SH).
Qed.

(** A model is built. *)
Lemma pushed v k s r l f c hs :
  hs = handlers_of v ++ [hF (log_file k s r) f; hC c] ->
  handlers_of (v ++ [OStart k s r true l f c]) =
  match k, r with
  | Micro, S _ => match set_first SH 30 hs with Some (_, x) => x | None => hs end
  | _, _ => hs
  end.
Proof.
  intros ->. unfold handlers_of at 1. rewrite made_app. cbn [made flat_map made_by app].
  destruct (made v) as [|[[n f0] c0] t] eqn:E.
  - cbn [app]. rewrite !first_level_none by exact E. unfold handlers_of. rewrite E. cbn [app].
    unfold first_level. cbn [changes made_by flat_map changed_by app]. destruct k, r; reflexivity.
  - cbn [app]. rewrite !first_level_some by congruence.
    assert (handlers_of v ++ [hF (log_file k s r) f; hC c] =
            hF n (first_level FH v f0) :: hC (first_level SH v c0) ::
            flat_map pair (t ++ [(log_file k s r, f, c)])) as ->.
    { unfold handlers_of. rewrite E. cbn [app]. rewrite flat_map_app. reflexivity. }
    cbn [flat_map changed_by]. destruct k, r; reflexivity.
Qed.

Lemma log_handlers n l m w : w_handlers (log n l m w) = w_handlers w.
Proof. unfold log. now destruct (enabled l w). Qed.
Lemma log_level n l m w : w_level (log n l m w) = w_level w.
Proof. unfold log. now destruct (enabled l w). Qed.

Lemma fold_log_handlers ms w :
  w_handlers (fold_left (fun w m => log (L "model") 20 m w) ms w) = w_handlers w.
Proof.
  revert w. induction ms as [|m ms IH]; [reflexivity|]. intro w. cbn [fold_left].
  rewrite IH. apply log_handlers.
Qed.
Lemma fold_log_level ms w :
  w_level (fold_left (fun w m => log (L "model") 20 m w) ms w) = w_level w.
Proof.
  revert w. induction ms as [|m ms IH]; [reflexivity|]. intro w. cbn [fold_left].
  rewrite IH. apply log_level.
Qed.

Lemma start_handlers k s r l f c w :
  w_handlers (fst (start k s r true l f c w)) =
  let hs := w_handlers w ++ [hF (log_file k s r) f; hC c] in
  match k, r with
  | Micro, S _ => match set_first SH 30 hs with Some (_, x) => x | None => hs end
  | _, _ => hs
  end.
Proof.
  unfold start, set_logger. cbn [negb].
  destruct k; [reflexivity| |].
  - destruct r as [|r]; [cbn [Nat.eqb log_allowed fst]; now rewrite fold_log_handlers|].
    cbn [Nat.eqb]. unfold set_logger_level. cbn [w_handlers]. change (L "StreamHandler") with SH.
    cbv zeta. unfold hF, hC, FH, SH.
    destruct (set_first (L "StreamHandler") 30 _) as [[old hs]|]; cbn [fst log_allowed];
      [now rewrite fold_log_handlers|reflexivity].
  - cbn [log_allowed]. destruct r as [|r]; [|reflexivity].
    cbn [Nat.eqb fst]. now rewrite fold_log_handlers.
Qed.

Lemma start_closed k s r l f c w :
  w_handlers (fst (start k s r false l f c w)) = w_handlers w.
Proof. reflexivity. Qed.

Lemma start_level k s r b l f c w : w_level (fst (start k s r b l f c w)) = l.
Proof.
  unfold start, set_logger. destruct b; cbn [negb]; [|reflexivity].
  destruct k; [reflexivity| |].
  - destruct r as [|r]; [cbn [Nat.eqb log_allowed fst]; now rewrite fold_log_level|].
    cbn [Nat.eqb]. unfold set_logger_level. cbn [w_handlers].
    destruct (set_first _ 30 _) as [[old hs]|]; cbn [fst log_allowed]; [now rewrite fold_log_level|reflexivity].
  - cbn [log_allowed]. destruct r as [|r]; [|reflexivity]. cbn [Nat.eqb fst]. now rewrite fold_log_level.
Qed.

Lemma after_snoc h o : after (h ++ [o]) = step (after h) o.
Proof. unfold after. now rewrite fold_left_app. Qed.

Lemma op_eq_clear (o : op) : o = OClear \/ o <> OClear.
Proof. destruct o; ((now left) || (right; discriminate)). Qed.

Lemma since_snoc h o v : o <> OClear -> since_cleared (h ++ [o]) v ->
  exists u, v = u ++ [o] /\ since_cleared h u.
Proof.
  intros Ho H. inversion H as [h' Hn|g v' Hn E]; subst.
  - exists h. split; [reflexivity|]. constructor. intro Hi. apply Hn. apply in_or_app. now left.
  - destruct v as [|x v] using rev_ind.
    + apply app_inj_tail in E as [_ E]. now elim Ho.
    + clear IHv. rewrite app_comm_cons, app_assoc in E. apply app_inj_tail in E as [E ->].
      exists v. split; [reflexivity|]. subst h. constructor. intro Hi. apply Hn. apply in_or_app. now left.
Qed.

Lemma since_clear h v : since_cleared (h ++ [OClear]) v -> v = [].
Proof.
  intro H. inversion H as [h' Hn|g v' Hn E]; subst.
  - elim Hn. apply in_or_app. right. now left.
  - destruct v as [|x v] using rev_ind; [reflexivity|]. clear IHv.
    rewrite app_comm_cons, app_assoc in E. apply app_inj_tail in E as [_ ->].
    elim Hn. apply in_or_app. right. now left.
Qed.

Lemma step_handlers w v o : w_handlers w = handlers_of v -> o <> OClear ->
  w_handlers (step w o) = handlers_of (v ++ [o]).
Proof.
  intros Hw Ho. destruct o as [k s r b l f c|ty l| |n l m]; [| |now elim Ho|].
  - cbn [step]. destruct b.
    + rewrite start_handlers, Hw. symmetry. exact (pushed v k s r l f c _ eq_refl).
    + rewrite start_closed, calm_handlers; [exact Hw|]. split; [reflexivity|].
      intro ty. destruct k; try reflexivity. now destruct r.
  - cbn [step]. rewrite set_level_handlers. unfold set_logger_level. rewrite Hw.
    destruct (set_first ty l (handlers_of v)) as [[old hs]|]; [reflexivity|exact Hw].
  - cbn [step]. rewrite log_handlers, calm_handlers; [exact Hw|]. now split.
Qed.

(** The handlers after any history. *)
Lemma handlers_after h : forall v, since_cleared h v -> w_handlers (after h) = handlers_of v.
Proof.
  induction h as [|o h IH] using rev_ind.
  - intros v H. inversion H as [x Hn|g x Hn E]; subst; [reflexivity|].
    now destruct g.
  - intros v H. destruct (op_eq_clear o) as [-> |Ho].
    + apply since_clear in H as ->. rewrite after_snoc. reflexivity.
    + destruct (since_snoc _ _ _ Ho H) as [u [-> Hu]]. rewrite after_snoc.
      apply step_handlers; [exact (IH u Hu)|exact Ho].
Qed.

(** The level. *)
Lemma step_level w o : (forall k s r b l f c, o <> OStart k s r b l f c) -> w_level (step w o) = w_level w.
Proof.
  intro H. destruct o as [k s r b l f c|ty l| |n l m]; [now elim (H k s r b l f c)| |reflexivity|].
  - cbn. unfold set_logger_level. destruct (set_first ty l (w_handlers w)) as [[old hs]|]; reflexivity.
  - apply log_level.
Qed.
Lemma threshold_after h t : threshold h t ->
  t = if Z.eqb (w_level (after h)) 0 then 30%Z else w_level (after h).
Proof.
  induction 1 as [|h k s r b l f c|h o l H IH Ho].
  - reflexivity.
  - rewrite after_snoc. cbn [step]. rewrite start_level. reflexivity.
  - rewrite after_snoc. rewrite step_level by exact Ho. exact IH.
Qed.
Lemma threshold_exists h : exists t, threshold h t.
Proof.
  induction h as [|o h [t IH]] using rev_ind; [eexists; constructor|].
  destruct o as [k s r b l f c|ty l| |n l m].
  - eexists. apply th_start.
  - exists t. apply th_other; [exact IH|discriminate].
  - exists t. apply th_other; [exact IH|discriminate].
  - exists t. apply th_other; [exact IH|discriminate].
Qed.

(** The lines that a message adds. *)
Lemma lines_app w o s : 
  map snd (filter (fun x : sink * str => same_sink (fst x) s) (w ++ o)) =
  map snd (filter (fun x => same_sink (fst x) s) w) ++
  map snd (filter (fun x => same_sink (fst x) s) o).
Proof. now rewrite filter_app, map_app. Qed.

Lemma added_copies text level s hs :
  map snd (filter (fun x : sink * str => same_sink (fst x) s)
    (map (fun h => (h_sink h, text)) (filter (fun h => Z.leb (h_level h) level) hs))) =
  copies level (map h_level (filter (fun h => same_sink (h_sink h) s) hs)) text.
Proof.
  unfold copies. induction hs as [|h hs IH]; [reflexivity|]. cbn [filter].
  destruct (Z.leb (h_level h) level) eqn:El; destruct (same_sink (h_sink h) s) eqn:Es;
    cbn [map filter fst snd]; rewrite ?Es, ?El; cbn [map filter fst snd]; now rewrite ?IH.
Qed.

Lemma pair_file t n :
  map h_level (filter (fun h => same_sink (h_sink h) (ToFile n)) (flat_map pair t)) =
  map (fun x => snd (fst x)) (filter (fun x => str_eqb (fst (fst x)) n) t).
Proof.
  induction t as [|[[m f] c] t IH]; [reflexivity|]. cbn.
  destruct (str_eqb m n); cbn; now rewrite IH.
Qed.
Lemma pair_console t :
  map h_level (filter (fun h => same_sink (h_sink h) ToConsole) (flat_map pair t)) = map snd t.
Proof. induction t as [|[[m f] c] t IH]; [reflexivity|]. cbn. now rewrite IH. Qed.

Lemma levels_file v n :
  map h_level (filter (fun h => same_sink (h_sink h) (ToFile n)) (handlers_of v)) = file_levels v n.
Proof.
  unfold handlers_of, file_levels. destruct (made v) as [|[[m f] c] t]; [reflexivity|].
  cbn. destruct (str_eqb m n); cbn; now rewrite pair_file.
Qed.
Lemma levels_console v :
  map h_level (filter (fun h => same_sink (h_sink h) ToConsole) (handlers_of v)) = console_levels v.
Proof.
  unfold handlers_of, console_levels. destruct (made v) as [|[[m f] c] t]; [reflexivity|].
  cbn. now rewrite pair_console.
Qed.

Lemma handlers_nil v : handlers_of v = [] <-> made v = [].
Proof. unfold handlers_of. destruct (made v) as [|[[n f] c] t]; split; congruence. Qed.

Lemma log_silent h t name level msg : threshold h t -> (level < t \/ level <= 0)%Z ->
  after (h ++ [OLog name level msg]) = after h.
Proof.
  intros Ht Hl. rewrite after_snoc. cbn [step]. unfold log, enabled.
  rewrite <- (threshold_after _ _ Ht).
  assert (negb (level <=? 0)%Z && (t <=? level)%Z = false) as ->; [|reflexivity].
  destruct Hl as [Hl|Hl].
  - rewrite (proj2 (Z.leb_gt t level) Hl). apply andb_false_r.
  - apply Z.leb_le in Hl. rewrite Hl. reflexivity.
Qed.

Lemma log_loud h t level : threshold h t -> (t <= level)%Z -> (0 < level)%Z ->
  enabled level (after h) = true.
Proof.
  intros Ht Hl H0. unfold enabled. rewrite <- (threshold_after _ _ Ht).
  apply andb_true_intro. split; [|now apply Z.leb_le].
  apply Z.leb_gt in H0. now rewrite H0.
Qed.

Lemma log_file_lines h v t name level msg n : since_cleared h v -> threshold h t ->
  (t <= level)%Z -> (0 < level)%Z ->
  lines (after (h ++ [OLog name level msg])) (ToFile n) =
  lines (after h) (ToFile n) ++ copies level (file_levels v n) (format name level msg).
Proof.
  intros Hv Ht Hl H0. rewrite after_snoc. cbn [step]. unfold log.
  rewrite (log_loud h t level Ht Hl H0). unfold lines. cbn [w_out].
  rewrite lines_app. f_equal. rewrite (handlers_after h v Hv). rewrite <- levels_file.
  destruct (handlers_of v) as [|x l] eqn:E.
  - now destruct (30 <=? level)%Z.
  - exact (added_copies _ _ _ _).
Qed.

Lemma log_console_lines h v t name level msg : since_cleared h v -> threshold h t ->
  (t <= level)%Z -> (0 < level)%Z -> made v <> [] ->
  lines (after (h ++ [OLog name level msg])) ToConsole =
  lines (after h) ToConsole ++ copies level (console_levels v) (format name level msg).
Proof.
  intros Hv Ht Hl H0 Hm. rewrite after_snoc. cbn [step]. unfold log.
  rewrite (log_loud h t level Ht Hl H0). unfold lines. cbn [w_out].
  rewrite lines_app. f_equal. rewrite (handlers_after h v Hv). rewrite <- levels_console.
  destruct (handlers_of v) as [|x l] eqn:E; [apply handlers_nil in E; contradiction|].
  exact (added_copies _ _ _ _).
Qed.

Lemma log_last_resort h v t name level msg : since_cleared h v -> threshold h t ->
  (t <= level)%Z -> (0 < level)%Z -> made v = [] ->
  lines (after (h ++ [OLog name level msg])) ToConsole =
  lines (after h) ToConsole ++ if Z.leb 30 level then [msg] else [].
Proof.
  intros Hv Ht Hl H0 Hm. rewrite after_snoc. cbn [step]. unfold log.
  rewrite (log_loud h t level Ht Hl H0). unfold lines. cbn [w_out].
  rewrite lines_app. f_equal. rewrite (handlers_after h v Hv).
  rewrite (proj2 (handlers_nil v) Hm). now destruct (30 <=? level)%Z.
Qed.

(** The outcome of a change of level. *)
Lemma set_outcome h v ty l : since_cleared h v ->
  snd (set_logger_level ty l (after h)) =
  match made v with
  | [] => Err ValueError
  | (n, f, c) :: _ =>
      if str_eqb ty FH then Ok (first_level FH v f)
      else if str_eqb ty SH then Ok (first_level SH v c) else Err ValueError
  end.
Proof.
  intro Hv. unfold set_logger_level. rewrite (handlers_after h v Hv).
  destruct (list_eq_dec ascii_dec ty FH) as [-> |Hf].
  - rewrite set_first_FH. destruct (made v) as [|[[n f] c] t]; reflexivity.
  - destruct (list_eq_dec ascii_dec ty SH) as [-> |Hs].
    + rewrite set_first_SH. destruct (made v) as [|[[n f] c] t]; reflexivity.
    + rewrite set_first_other by assumption. rewrite (str_eqb_no ty FH), (str_eqb_no ty SH) by assumption.
      now destruct (made v) as [|[[n f] c] t].
Qed.

Lemma line_format name level msg text : line_of name level msg text -> format name level msg = text.
Proof.
  intro H. inversion H as [n l word blanks m Hin Hb Hlen]; subst. unfold format. f_equal. f_equal. f_equal.
  assert (blanks = repeat (ch " ") (8 - length word)) as ->.
  { rewrite app_length in Hlen. replace (8 - length word) with (length blanks) by lia. clear -Hb.
    induction blanks as [|b t IH]; [reflexivity|]. cbn. rewrite (Hb b (or_introl eq_refl)). f_equal.
    apply IH. intros c Hc. apply Hb. now right. }
  unfold pad8.
  repeat (destruct Hin as [Hin|Hin]; [injection Hin as <- <-; reflexivity|]). destruct Hin.
Qed.

(** The messages of the construction itself. *)
Lemma fold_lines ms w s : w_handlers w <> [] ->
  lines (fold_left (fun w m => log (L "model") 20 m w) ms w) s =
  lines w s ++
  (if enabled 20 w then
     flat_map (fun m => copies 20 (map h_level (filter (fun h => same_sink (h_sink h) s) (w_handlers w)))
                          (format (L "model") 20 m)) ms
   else []).
Proof.
  revert w. induction ms as [|m ms IH]; intros w Hw.
  - cbn [fold_left flat_map]. destruct (enabled 20 w); now rewrite app_nil_r.
  - cbn [fold_left]. rewrite IH by (rewrite log_handlers; exact Hw).
    assert (enabled 20 (log (L "model") 20 m w) = enabled 20 w) as ->
      by (unfold enabled; now rewrite log_level).
    rewrite log_handlers. unfold log at 1. destruct (enabled 20 w) eqn:E; [|reflexivity].
    unfold lines at 1. cbn [w_out]. rewrite lines_app. cbn [flat_map]. rewrite <- app_assoc. f_equal. f_equal.
    destruct (w_handlers w) as [|x l] eqn:El; [now elim Hw|]. apply added_copies.
Qed.

Lemma start_out k s r b l f c w : exists w1,
  snd (start k s r b l f c w) = (if b then Ok tt else Err IOError) /\
  w_out w1 = w_out w /\ w_level w1 = l /\
  w_handlers w1 = w_handlers (fst (start k s r b l f c w)) /\
  fst (start k s r b l f c w) =
  if b && log_allowed k r
  then fold_left (fun w m => log (L "model") 20 m w) (banner s) w1 else w1.
Proof.
  unfold start, set_logger. destruct b; cbn [negb].
  2: { eexists {| w_level := l; w_handlers := w_handlers w; w_out := w_out w |}.
       cbn [w_level w_handlers w_out fst snd andb]. auto. }
  destruct k; cbn [log_allowed andb].
  - eexists {| w_level := l; w_handlers := _; w_out := w_out w |}.
    cbn [w_level w_handlers w_out fst snd]. auto.
  - destruct (Nat.eqb r 0).
    + eexists {| w_level := l; w_handlers := _; w_out := w_out w |}.
      cbn [fst snd]. rewrite fold_log_handlers. cbn [w_level w_handlers w_out]. auto.
    + unfold set_logger_level. cbn [w_handlers w_level w_out].
      assert (forall hs x, set_first SH 30 (hs ++ [x; hC c]) <> None) as Hn.
      { intros hs x. induction hs as [|y hs IH]; cbn [app set_first].
        - destruct (str_eqb (h_class x) SH); [discriminate|].
          change (h_class (hC c)) with SH. rewrite str_eqb_refl. discriminate.
        - destruct (str_eqb (h_class y) SH); [discriminate|].
          destruct (set_first SH 30 (hs ++ [x; hC c])) as [[o t]|]; [discriminate|contradiction]. }
      specialize (Hn (w_handlers w) (hF (log_file Micro s r) f)). unfold hF, hC, FH, SH in Hn.
      destruct (set_first (L "StreamHandler") 30 _) as [[old hs]|]; [|contradiction].
      eexists {| w_level := l; w_handlers := hs; w_out := w_out w |}.
      cbn [fst snd]. rewrite fold_log_handlers. cbn [w_level w_handlers w_out]. auto.
  - destruct (Nat.eqb r 0).
    + eexists {| w_level := l; w_handlers := _; w_out := w_out w |}.
      cbn [fst snd]. rewrite fold_log_handlers. cbn [w_level w_handlers w_out]. auto.
    + eexists {| w_level := l; w_handlers := _; w_out := w_out w |}.
      cbn [w_level w_handlers w_out fst snd]. auto.
Qed.

Lemma since_add h v o : since_cleared h v -> o <> OClear -> since_cleared (h ++ [o]) (v ++ [o]).
Proof.
  intros H Ho. inversion H as [x Hn|g x Hn E]; subst.
  - constructor. intro Hi. apply in_app_or in Hi as [Hi|[Hi|[]]]; [now apply Hn|now apply Ho].
  - rewrite <- app_assoc. cbn [app]. constructor.
    intro Hi. apply in_app_or in Hi as [Hi|[Hi|[]]]; [now apply Hn|now apply Ho].
Qed.

Lemma started_lines h v k s r l f c n : since_cleared h v ->
  snd (start k s r true l f c (after h)) = Ok tt /\
  let o := OStart k s r true l f c in
  let loud := log_allowed k r && ((Z.ltb 0 l && Z.leb l 20) || Z.ltb l 0)%Z in
  lines (after (h ++ [o])) (ToFile n) =
    lines (after h) (ToFile n) ++
    (if loud then flat_map (fun m => copies 20 (file_levels (v ++ [o]) n) (format (L "model") 20 m))
                    (banner s) else []) /\
  lines (after (h ++ [o])) ToConsole =
    lines (after h) ToConsole ++
    (if loud then flat_map (fun m => copies 20 (console_levels (v ++ [o])) (format (L "model") 20 m))
                    (banner s) else []).
Proof.
  intro Hv. destruct (start_out k s r true l f c (after h)) as [w1 [Hs [Ho [Hl [Hh Hf]]]]].
  split; [exact Hs|]. cbv zeta.
  set (o := OStart k s r true l f c) in *.
  assert (w_handlers (after (h ++ [o])) = handlers_of (v ++ [o])) as Ha.
  { apply handlers_after. apply since_add; [exact Hv|discriminate]. }
  assert (after (h ++ [o]) = fst (start k s r true l f c (after h))) as Hc by apply after_snoc.
  rewrite <- Hc in Hh, Hf.
  assert (w_handlers w1 <> []) as Hne.
  { rewrite Hh, Ha. intro E. apply handlers_nil in E. rewrite made_app in E.
    apply app_eq_nil in E as [_ E]. discriminate. }
  assert (enabled 20 w1 = ((Z.ltb 0 l && Z.leb l 20) || Z.ltb l 0)%Z) as He.
  { unfold enabled. rewrite Hl. cbn [Z.leb negb andb]. 
    destruct (Z.eqb_spec l 0) as [-> |Hz]; [reflexivity|].
    destruct (Z.ltb_spec 0 l), (Z.ltb_spec l 0), (Z.leb_spec l 20); cbn; try lia; reflexivity. }
  assert (forall q, lines w1 q = lines (after h) q) as Hq by (intro q; unfold lines; now rewrite Ho).
  assert (forall q, lines (after (h ++ [o])) q = lines (after h) q ++
    (if log_allowed k r && ((Z.ltb 0 l && Z.leb l 20) || Z.ltb l 0)%Z then
     flat_map (fun m => copies 20 (map h_level (filter (fun h => same_sink (h_sink h) q) (handlers_of (v ++ [o]))))
                          (format (L "model") 20 m)) (banner s)
     else [])) as Hall.
  { intro q. rewrite Hf at 1. cbn [andb]. rewrite <- Ha, <- Hh. destruct (log_allowed k r).
    - rewrite (fold_lines (banner s) w1 q Hne), He, Hq. reflexivity.
    - cbn [andb]. rewrite app_nil_r. apply Hq. }
  split.
  - rewrite (Hall (ToFile n)), levels_file. reflexivity.
  - rewrite (Hall ToConsole), levels_console. reflexivity.
Qed.

Lemma not_opened h k s r l f c : 
  snd (start k s r false l f c (after h)) = Err IOError /\
  forall q, lines (after (h ++ [OStart k s r false l f c])) q = lines (after h) q.
Proof. split; [reflexivity|]. intro q. rewrite after_snoc. reflexivity. Qed.

(** Nothing else writes. *)
Lemma quiet h o q : match o with OSetLevel _ _ | OClear => True | _ => False end ->
  lines (after (h ++ [o])) q = lines (after h) q.
Proof.
  intro H. rewrite after_snoc. destruct o as [| ty l| |]; try contradiction; [|reflexivity].
  cbn. unfold set_logger_level, lines. now destruct (set_first ty l _) as [[old hs]|].
Qed.

(** Several models alike. *)
Lemma last_nils {A} (l : list A) (g : A -> list Z) d : (forall x, In x l -> g x = []) -> last (flat_map g l) d = d.
Proof.
  intro H. replace (flat_map g l) with (@nil Z); [reflexivity|]. induction l as [|a l IH]; [reflexivity|].
  cbn. rewrite (H a (or_introl eq_refl)). apply IH. intros x Hx. apply H. now right.
Qed.
Lemma first_level_calm ty v d : (forall x, In x v -> changed_by ty x = []) -> first_level ty v d = d.
Proof.
  unfold first_level. induction v as [|o v IH]; [reflexivity|]. intro H. cbn [changes].
  destruct (made_by o); [apply IH; intros x Hx; apply H; now right|]. now apply last_nils.
Qed.

Lemma made_repeat k s r l f c n :
  made (repeat (OStart k s r true l f c) n) = repeat (log_file k s r, f, c) n.
Proof. induction n as [|n IH]; [reflexivity|]. cbn. f_equal. exact IH. Qed.

Lemma repeat_calm k s r l f c n ty : (k = Micro -> r = 0) ->
  forall x, In x (repeat (OStart k s r true l f c) n) -> changed_by ty x = [].
Proof.
  intros Hk x Hx. apply repeat_spec in Hx as ->. destruct k; try reflexivity. now rewrite (Hk eq_refl).
Qed.

Lemma repeat_file k s r l f c n : (k = Micro -> r = 0) ->
  file_levels (repeat (OStart k s r true l f c) n) (log_file k s r) = repeat f n.
Proof.
  intro Hk. unfold file_levels. rewrite made_repeat. destruct n as [|n]; [reflexivity|].
  cbn [repeat]. change (OStart k s r true l f c :: repeat (OStart k s r true l f c) n)
    with (repeat (OStart k s r true l f c) (S n)).
  rewrite first_level_calm by (apply repeat_calm; exact Hk).
  cbn [filter fst]. rewrite str_eqb_refl. cbn [map fst snd]. f_equal.
  induction n as [|n IH]; [reflexivity|]. cbn [repeat filter fst]. rewrite str_eqb_refl.
  cbn [map fst snd]. now rewrite IH.
Qed.
Lemma repeat_console k s r l f c n : (k = Micro -> r = 0) ->
  console_levels (repeat (OStart k s r true l f c) n) = repeat c n.
Proof.
  intro Hk. unfold console_levels. rewrite made_repeat. destruct n as [|n]; [reflexivity|].
  cbn [repeat]. change (OStart k s r true l f c :: repeat (OStart k s r true l f c) n)
    with (repeat (OStart k s r true l f c) (S n)).
  rewrite first_level_calm by (apply repeat_calm; exact Hk). f_equal.
  induction n as [|n IH]; [reflexivity|]. cbn [repeat map snd]. now rewrite IH.
Qed.

Lemma repeat_other_file k s r l f c n name : name <> log_file k s r ->
  file_levels (repeat (OStart k s r true l f c) n) name = [].
Proof.
  intro Hn. unfold file_levels. rewrite made_repeat. destruct n as [|n]; [reflexivity|].
  cbn [repeat]. cbn [filter fst]. rewrite str_eqb_no by congruence.
  induction n as [|n IH]; [reflexivity|]. cbn [repeat filter fst]. rewrite str_eqb_no by congruence. exact IH.
Qed.

Lemma copies_repeat level l n text : copies level (repeat l n) text =
  if Z.leb l level then repeat text n else [].
Proof.
  unfold copies. induction n as [|n IH]; [now destruct (Z.leb l level)|]. cbn [repeat filter].
  destruct (Z.leb l level); [cbn [map]; now rewrite IH|exact IH].
Qed.

Lemma repeat_since k s r l f c n :
  since_cleared (repeat (OStart k s r true l f c) n) (repeat (OStart k s r true l f c) n).
Proof. constructor. intro H. apply repeat_spec in H. discriminate. Qed.

Lemma repeat_snoc {A} (x : A) n : repeat x (S n) = repeat x n ++ [x].
Proof. induction n as [|n IH]; [reflexivity|]. cbn [repeat app]. now rewrite <- IH. Qed.

Lemma repeat_threshold k s r l f c n :
  threshold (repeat (OStart k s r true l f c) (S n)) (if Z.eqb l 0 then 30 else l).
Proof. rewrite repeat_snoc. apply th_start. Qed.

Lemma models_alike k s r l f c n name level msg :
  (k = Micro -> r = 0) -> (0 < l)%Z -> (l <= level)%Z ->
  let h := repeat (OStart k s r true l f c) (S n) in
  lines (after (h ++ [OLog name level msg])) (ToFile (log_file k s r)) =
    lines (after h) (ToFile (log_file k s r)) ++
    (if Z.leb f level then repeat (format name level msg) (S n) else []) /\
  lines (after (h ++ [OLog name level msg])) ToConsole =
    lines (after h) ToConsole ++
    (if Z.leb c level then repeat (format name level msg) (S n) else []).
Proof.
  intros Hk H0 Hl h.
  pose proof (repeat_threshold k s r l f c n) as Ht.
  assert (Z.eqb l 0 = false) as Ez by (apply Z.eqb_neq; lia). rewrite Ez in Ht.
  split.
  - rewrite (log_file_lines h h l); [|apply repeat_since|exact Ht|lia|lia].
    unfold h. rewrite repeat_file by exact Hk. now rewrite copies_repeat.
  - rewrite (log_console_lines h h l); [|apply repeat_since|exact Ht|lia|lia|].
    + unfold h. rewrite repeat_console by exact Hk. now rewrite copies_repeat.
    + unfold h. rewrite made_repeat. discriminate.
Qed.

Lemma log_file_inj k k' s r r' : log_file k s r = log_file k' s r' -> s <> 1 -> k <> Kmc -> k' <> Kmc -> r = r'.
Proof.
  intros H Hs Hk Hk'.
  assert (forall k r, k <> Kmc -> log_file k s r = L "./log/out_" ++ str_of_Z (Z.of_nat r) ++ L ".log") as He.
  { intros x y Hx. apply Nat.eqb_neq in Hs. unfold log_file. rewrite Hs. now destruct x. }
  rewrite !He in H by assumption. apply app_inv_head in H. apply app_inv_tail in H.
  apply Fmt_Proofs.str_of_Z_inj in H. now apply Nat2Z.inj.
Qed.

Lemma flat_map_lines (g : str -> list str) ms texts :
  Forall2 (line_of (L "model") 20) ms texts ->
  flat_map (fun m => g (format (L "model") 20 m)) ms = flat_map g texts.
Proof.
  induction 1 as [|m x ms xs Hm _ IH]; [reflexivity|].
  apply line_format in Hm. subst x. cbn [flat_map]. f_equal. exact IH.
Qed.
