From Coq Require Import String Ascii List ZArith Bool Arith Lia.
Import ListNotations.
From Verif Require Import PyBase PyBaseFacts PyBase_Sound PyData_Model PyData_Spec PyData_Proofs KPlug_Text.
From Verif Require Import PyData_Sound Restart_Model Restart_Spec.
From Verif Require Attr_Checks.
Local Open Scope list_scope.

Lemma is_start_spec w : is_start w = true <-> start_line w.
Proof. apply Attr_Checks.str_prefix_spec. Qed.
Lemma is_start_false w : is_start w = false <-> ~ start_line w.
Proof. rewrite <- is_start_spec. destruct (is_start w); split; congruence. Qed.

Lemma read_lines_w w s : ~ In nl w -> read_lines (w ++ nl :: s) = (w ++ [nl]) :: read_lines s.
Proof.
  induction w as [|c w IH]; cbn [app read_lines]; intro H.
  - now rewrite Ascii.eqb_refl.
  - destruct (Ascii.eqb_spec c nl) as [->|N]; [destruct H; now left|].
    rewrite IH; [reflexivity|]. intro X. apply H. now right.
Qed.
Lemma read_lines_last w : w <> [] -> ~ In nl w -> read_lines w = [w].
Proof.
  induction w as [|c w IH]; cbn [read_lines]; intros H0 H; [congruence|].
  destruct (Ascii.eqb_spec c nl) as [->|N]; [destruct H; now left|].
  destruct w as [|c' w]; [reflexivity|]. rewrite IH; [reflexivity|discriminate|].
  intro X. apply H. now right.
Qed.

Lemma read_lines_complete l s : lines_of l s -> read_lines s = l.
Proof.
  induction 1.
  - reflexivity.
  - now apply read_lines_last.
  - rewrite read_lines_w by assumption. now rewrite IHlines_of.
Qed.

Lemma lines_cons c l s : c <> nl -> lines_of l s ->
  lines_of (match l with [] => [[c]] | w :: ws => (c :: w) :: ws end) (c :: s).
Proof.
  intros N H. destruct H.
  - apply lo_last; [discriminate|]. intros [E|[]]. congruence.
  - apply lo_last; [discriminate|]. intros [E|E]; [congruence|contradiction].
  - change (lines_of (((c :: w) ++ [nl]) :: l) ((c :: w) ++ nl :: s)). apply lo_more; [|assumption].
    intros [E|E]; [congruence|contradiction].
Qed.

Lemma read_lines_sound s : lines_of (read_lines s) s.
Proof.
  induction s as [|c s IH]; cbn [read_lines]; [constructor|].
  destruct (Ascii.eqb_spec c nl) as [->|N].
  - exact (lo_more [] _ s (fun X => X) IH).
  - now apply lines_cons.
Qed.

Lemma read_lines_iff l s : read_lines s = l <-> lines_of l s.
Proof. split; [intros <-; apply read_lines_sound|apply read_lines_complete]. Qed.

Lemma lines_concat l s : lines_of l s -> concat l = s.
Proof.
  induction 1; cbn [concat]; [reflexivity|apply app_nil_r|]. rewrite IHlines_of, <- app_assoc. reflexivity.
Qed.

Lemma last_time_iff traj v : last_time traj = Ok v <-> recorded traj v.
Proof.
  unfold last_time, recorded. destruct (exec_file traj) as [g|e]; cbn [bind].
  2: { split; [discriminate|intros (g & l & H & _); discriminate]. }
  destruct (dget g (L "times")) as [[[s|s|l|l]|d]|] eqn:E.
  3,4: rewrite (proj1 (llast_iff l) v); split;
    [intros [a ->]; exists g, a; rewrite E; auto
    |intros (g' & a & H & [X|X]); injection H as <-; rewrite E in X; try discriminate; injection X as ->; eauto].
  all: split; [discriminate|intros (g' & a & H & [X|X]); injection H as <-; congruence].
Qed.

Lemma format_iff show v t : format_value show v = Ok t <-> shows show v t.
Proof.
  unfold shows. destruct v; cbn [format_value]; split.
  - intro H. injection H as <-. left. eauto.
  - intros [(x & H & ->)|H]; [injection H as ->; reflexivity|discriminate].
  - intro H. injection H as <-. now right.
  - intros [(x & H & _)|H]; [discriminate|injection H as ->; reflexivity].
  - discriminate.
  - intros [(x & H & _)|H]; discriminate.
  - discriminate.
  - intros [(x & H & _)|H]; discriminate.
Qed.

Lemma exists_start l : existsb is_start l = true <-> Exists start_line l.
Proof.
  rewrite existsb_exists, Exists_exists. split; intros (w & H & S); exists w; split; auto; now apply is_start_spec.
Qed.

Lemma left_map t l l' : Forall2 (left t) l l' <-> l' = map (change_line t) l.
Proof.
  split.
  - induction 1 as [|w w' l l' H _ IH]; [reflexivity|]. cbn [map]. rewrite IH. f_equal.
    unfold change_line. destruct H as [[H ->]|[H ->]].
    + apply is_start_spec in H. now rewrite H.
    + apply is_start_false in H. now rewrite H.
  - intros ->. induction l as [|w l IH]; cbn [map]; constructor; [|exact IH].
    unfold left, change_line. destruct (is_start w) eqn:E.
    + left. split; [now apply is_start_spec|reflexivity].
    + right. split; [now apply is_start_false|reflexivity].
Qed.

Lemma restart_iff show traj old new : change_start_time show traj old = Ok new <->
  exists v l, recorded traj v /\ lines_of l old /\
    ((Exists start_line l /\ exists t l', shows show v t /\ Forall2 (left t) l l' /\ new = concat l') \/
     (~ Exists start_line l /\ new = old ++ L "start_time = 0.0" ++ [nl])).
Proof.
  unfold change_start_time. split.
  - intro H. destruct (last_time traj) as [v|] eqn:EV; [|discriminate]. cbn [bind] in H.
    apply last_time_iff in EV. exists v, (read_lines old). split; [assumption|].
    split; [apply read_lines_sound|]. cbv zeta in H.
    destruct (existsb is_start (read_lines old)) eqn:E.
    + left. split; [now apply exists_start|].
      destruct (format_value show v) as [t|] eqn:ET; [|discriminate]. cbn [bind] in H. injection H as <-.
      exists t, (map (change_line t) (read_lines old)). split; [now apply format_iff|].
      split; [now apply left_map|]. unfold change_lines. now rewrite E.
    + right. split; [rewrite <- exists_start; congruence|]. injection H as <-.
      unfold change_lines. rewrite E, concat_app. cbn [concat]. rewrite app_nil_r. f_equal.
      apply lines_concat, read_lines_sound.
  - intros (v & l & HV & HL & H). apply last_time_iff in HV. rewrite HV. cbn [bind]. cbv zeta.
    apply read_lines_iff in HL. rewrite HL. destruct (existsb is_start l) eqn:E.
    + destruct H as [(_ & t & l' & HT & HF & ->)|[H _]].
      * apply format_iff in HT. rewrite HT. cbn [bind]. unfold change_lines. rewrite E.
        apply left_map in HF. now rewrite HF.
      * destruct H. now apply exists_start.
    + destruct H as [[H _]|[_ ->]].
      * apply exists_start in H. congruence.
      * unfold change_lines. rewrite E, concat_app. cbn [concat]. rewrite app_nil_r. do 2 f_equal.
        apply lines_concat. now apply read_lines_iff.
Qed.

(** ** When the result is the intended one *)
Lemma lines_ends l s w : lines_of l s -> In w l -> In nl w -> exists x, w = x ++ [nl] /\ ~ In nl x.
Proof.
  induction 1 as [|w' H0 H1|w' l s H1 H IH]; intros HI HN.
  - destruct HI.
  - destruct HI as [<-|[]]. contradiction.
  - destruct HI as [<-|HI]; [eauto|auto].
Qed.

Definition lacks (w : str) : nat := if is_start w && has_char nl w then 1 else 0.

Lemma start_split r x : L "start_time" ++ r = x ++ [nl] -> exists r', r = r' ++ [nl].
Proof.
  intro E. destruct (exists_last (l := r)) as (r' & c & ->).
  - intros ->. rewrite app_nil_r in E. apply (f_equal (@rev ascii)) in E. rewrite rev_app_distr in E.
    discriminate.
  - rewrite app_assoc in E. apply app_inj_tail in E as [_ ->]. eauto.
Qed.

Lemma in_prefix w : In nl (L "start_time" ++ w) -> In nl w.
Proof.
  intro H. apply in_app_or in H as [H|H]; [|assumption].
  cbn in H. repeat (destruct H as [H|H]; [discriminate|]). destruct H.
Qed.

Lemma renewed_length t w w' x : (In nl w -> exists y, w = y ++ [nl] /\ ~ In nl y) ->
  left t w w' -> renewed t w x -> length x = (length w' + lacks w)%nat.
Proof.
  unfold lacks. intros HE [[HS ->]|[HS ->]] HR.
  - pose proof HS as HS'. apply is_start_spec in HS'. rewrite HS'. cbn [andb].
    destruct HR as [[N _]|[(r & -> & ->)|(r & -> & N & ->)]].
    + contradiction.
    + assert (has_char nl (L "start_time" ++ r ++ [nl]) = true) as ->
        by (apply has_char_In; rewrite !in_app_iff; right; right; now left).
      rewrite !app_length. cbn [length]. lia.
    + destruct (has_char nl (L "start_time" ++ r)) eqn:E; [|lia].
      apply has_char_In in E. now apply in_prefix in E.
  - pose proof HS as HS'. apply is_start_false in HS'. rewrite HS'. cbn [andb].
    destruct HR as [[_ ->]|[(r & -> & ->)|(r & -> & N & ->)]]; [lia| |]; destruct HS; unfold start_line; eauto.
Qed.

Lemma total t l : (forall w, In w l -> In nl w -> exists y, w = y ++ [nl] /\ ~ In nl y) ->
  forall l' x, Forall2 (left t) l l' -> Forall2 (renewed t) l x ->
  length (concat x) = (length (concat l') + list_sum (map lacks l))%nat.
Proof.
  intros HE l' x HL. revert x. induction HL as [|w w' l l' H HL IH]; intros x HR; inversion HR; subst.
  - reflexivity.
  - change (list_sum (map lacks (w :: l))) with (lacks w + list_sum (map lacks l))%nat.
    cbn [concat]. rewrite !app_length.
    erewrite IH; [|intros; apply HE; [now right|assumption]|eassumption].
    erewrite renewed_length; [|intro; apply HE; [now left|assumption]|eassumption|eassumption].
    lia.
Qed.

Lemma lacks_none l : list_sum (map lacks l) = 0%nat -> forall w, In w l -> start_line w -> ~ In nl w.
Proof.
  induction l as [|w l IH]; intros H v HI HS HN; [destruct HI|].
  change (lacks w + list_sum (map lacks l) = 0)%nat in H.
  destruct HI as [<-|HI].
  - unfold lacks in H at 1. apply is_start_spec in HS. apply has_char_In in HN. rewrite HS, HN in H.
    cbn [andb] in H. lia.
  - apply IH with v; auto. lia.
Qed.

Lemma left_intended t l l' : Forall2 (left t) l l' ->
  (forall w, In w l -> start_line w -> ~ In nl w) -> Forall2 (renewed t) l l'.
Proof.
  induction 1 as [|w w' l l' H _ IH]; intro HN; constructor.
  - destruct H as [[HS ->]|[HS ->]]; [|now left].
    right; right. pose proof (HN w (or_introl eq_refl) HS) as N. destruct HS as [r ->].
    exists r. split; [reflexivity|]. split; [|reflexivity]. intro X. apply N. apply in_or_app. now right.
  - apply IH. intros v HI. apply HN. now right.
Qed.

Lemma intended_iff show traj old new v t l : change_start_time show traj old = Ok new ->
  recorded traj v -> shows show v t -> lines_of l old -> Exists start_line l ->
  (intended t old new <-> forall w, In w l -> start_line w -> ~ In nl w).
Proof.
  intros H HV HT HL HX. apply restart_iff in H as (v' & l0 & HV' & HL' & H).
  apply last_time_iff in HV, HV'. assert (v' = v) as -> by congruence.
  apply read_lines_iff in HL'. pose proof HL as HL2. apply read_lines_iff in HL2.
  assert (l0 = l) as -> by congruence. clear HL' HL2 HV HV'.
  destruct H as [(_ & t' & l' & HT' & HF & ->)|[N _]]; [|contradiction].
  apply format_iff in HT, HT'. assert (t' = t) as -> by congruence.
  split.
  - intros (m & m' & HM & HR & E).
    apply read_lines_iff in HM. pose proof HL as HL2. apply read_lines_iff in HL2.
    assert (m = l) as -> by congruence.
    apply lacks_none. pose proof (total t l (fun w => lines_ends l old w HL) _ _ HF HR) as X.
    rewrite E in X. lia.
  - intro HN. exists l, l'. split; [assumption|]. split; [|reflexivity]. now apply left_intended.
Qed.

(** Only the last line can be without its end. *)
Lemma unterminated_last l s w : lines_of l s -> In w l -> ~ In nl w -> exists a, l = a ++ [w] /\ ~ In w a.
Proof.
  induction 1 as [|w' H0 H1|w' l s H1 H IH]; intros HI HN.
  - destruct HI.
  - destruct HI as [<-|[]]. exists []. auto.
  - destruct HI as [<-|HI].
    + destruct HN. apply in_or_app. right. now left.
    + destruct (IH HI HN) as (a & -> & NA). exists ((w' ++ [nl]) :: a). split; [reflexivity|].
      intros [E|X]; [|contradiction]. apply HN. rewrite <- E. apply in_or_app. right. now left.
Qed.

(** ** The continued run *)
Lemma end_nl {A} (x : A) s s0 y : x :: s = s0 ++ [y] -> x <> y -> exists s1, s = s1 ++ [y].
Proof.
  intros E N. destruct s0 as [|z s0]; cbn in E; injection E; intros; subst; [congruence|eauto].
Qed.

Lemma end_app {A} (a : list A) s s0 y : a ++ s = s0 ++ [y] -> ~ In y a -> exists s1, s = s1 ++ [y].
Proof.
  intros E N. destruct s as [|x s] using rev_ind.
  - rewrite app_nil_r in E. destruct N. rewrite E. apply in_or_app. right. now left.
  - rewrite app_assoc in E. apply app_inj_tail in E as [_ ->]. eauto.
Qed.

Lemma word_no_nl s : forallb is_word s = true -> ~ In nl s.
Proof. intros H X. rewrite forallb_forall in H. apply H in X. discriminate. Qed.

Lemma spell_no_nl t : dtok_ok t -> ~ In nl (dspell t).
Proof.
  destruct t; cbn [dtok_ok dspell]; try contradiction; intro H.
  - unfold name_text in H. apply andb_true_iff in H as [H _]. destruct s as [|c s]; [discriminate|].
    apply andb_true_iff in H as [H1 H2]. intros [->|X]; [discriminate|]. now apply word_no_nl in X.
  - unfold number_text in H. destruct (nrun NStart s) eqn:E; [|discriminate]. apply nrun_chars in E.
    intro X. rewrite forallb_forall in E. apply E in X. discriminate.
  - destruct H as (_ & _ & H). rewrite !in_app_iff. intros [[X|[]]|[X|[X|[]]]]; try discriminate. contradiction.
  - intros [->|[]]. cbn in H. repeat (destruct H as [H|H]; [discriminate|]). destruct H.
  - intros [->|[]]. cbn in H. repeat (destruct H as [H|H]; [discriminate|]). destruct H.
  - intros [X|[]]; discriminate.
  - intros [X|[]]; discriminate.
  - intros [X|[]]; discriminate.
  - intros [X|[]]; discriminate.
Qed.

Lemma reads_end b ts : d_reads b ts [] -> ts = [].
Proof.
  inversion 1; subst; [reflexivity|].
  exfalso. destruct t; cbn in H0, H1; try discriminate; try contradiction.
  - rewrite app_nil_iff in H0 || apply app_eq_nil in H0 as [-> _]. discriminate.
  - apply app_eq_nil in H0 as [-> _]. discriminate.
Qed.

Lemma reads_app b ts s : d_reads b ts s -> forall s0 us r, s = s0 ++ [nl] -> d_reads true us r ->
  d_reads b (ts ++ us) (s ++ r).
Proof.
  induction 1; intros s0 us r E R.
  - destruct s0; discriminate.
  - destruct (end_nl _ _ _ _ E ltac:(discriminate)) as [s1 ->].
    cbn [app]. apply dr_indent. now apply (IHd_reads s1).
  - destruct (end_nl _ _ _ _ E ltac:(discriminate)) as [s1 ->].
    cbn [app]. apply dr_blank. now apply (IHd_reads s1).
  - cbn [app]. apply dr_nl. destruct s as [|c s] using rev_ind.
    + apply reads_end in H. subst ts. exact R.
    + change (nl :: s ++ [c]) with ((nl :: s) ++ [c]) in E. apply app_inj_tail in E as [_ ->].
      now apply (IHd_reads s).
  - change ("#"%char :: c ++ s) with (("#"%char :: c) ++ s) in E.
    destruct (end_app _ _ _ _ E) as [s1 E1].
    { intros [X|X]; [discriminate|contradiction]. }
    rewrite <- app_comm_cons, <- app_assoc. apply dr_comment; [assumption| |now apply (IHd_reads s1)].
    right. destruct H0 as [->|[q ->]]; [destruct s1; discriminate|]. cbn [app]. eauto.
  - destruct (end_app _ _ _ _ E (spell_no_nl t H)) as [s1 ->].
    rewrite <- app_assoc. cbn [app]. apply dr_tok; [assumption| |now apply (IHd_reads s1)].
    destruct s1 as [|c s1]; exact H0.
Qed.

Lemma joined_no_end n ts us : d_joined n ts us -> forall a, ts = a ++ [DNl] -> n = O \/ False -> False.
Proof.
  intros H. enough (forall a, ts = a ++ [DNl] -> False) by eauto.
  induction H; intros a E; try (destruct a; discriminate).
  - destruct (end_nl _ _ _ _ E ltac:(discriminate)) as [a' ->]. now apply (IHd_joined a').
  - destruct ts as [|x ts] using rev_ind; [inversion H0|].
    change (t :: ts ++ [x]) with ((t :: ts) ++ [x]) in E. apply app_inj_tail in E as [_ ->].
    now apply (IHd_joined ts).
  - destruct (end_nl _ _ _ _ E ltac:(discriminate)) as [a' ->]. now apply (IHd_joined a').
  - destruct (end_nl _ _ _ _ E ltac:(discriminate)) as [a' ->]. now apply (IHd_joined a').
  - destruct (end_nl _ _ _ _ E) as [a' ->]; [intros ->; contradiction|]. now apply (IHd_joined a').
Qed.

Lemma file_app ts l : d_file ts l -> forall a, ts = a ++ [DNl] ->
  exists l0, l = l0 ++ [SPass] /\ forall r m, d_file r m -> d_file (ts ++ r) (l0 ++ m).
Proof.
  induction 1; intros a E.
  - destruct (joined_no_end _ _ _ H _ E); auto.
  - destruct r as [|x r _] using rev_ind.
    + exists [s]. split.
      * inversion H1; subst; [|destruct ts0; discriminate]. inversion H2; subst.
        inversion H3; subst; [reflexivity|]. destruct tp; discriminate.
      * intros r m R. rewrite <- app_assoc. cbn [app]. eapply df_more; eassumption.
    + change (ts ++ DNl :: r ++ [x]) with (ts ++ (DNl :: r) ++ [x]) in E. rewrite app_assoc in E.
      apply app_inj_tail in E as [_ ->]. destruct (IHd_file r eq_refl) as (l0 & -> & X).
      exists (s :: l0). split; [reflexivity|]. intros q m R. rewrite <- app_assoc.
      cbn [app]. eapply df_more; [eassumption|assumption|]. now apply X.
Qed.

Lemma reads_ends b ts s : d_reads b ts s -> forall s0, s = s0 ++ [nl] -> exists a, ts = a ++ [DNl].
Proof.
  induction 1; intros s0 E.
  - destruct s0; discriminate.
  - destruct (end_nl _ _ _ _ E ltac:(discriminate)) as [s1 ->]. destruct (IHd_reads s1 eq_refl) as [a ->].
    now exists (DIndent :: a).
  - destruct (end_nl _ _ _ _ E ltac:(discriminate)) as [s1 ->]. now apply (IHd_reads s1).
  - destruct s as [|c s _] using rev_ind.
    + apply reads_end in H. subst ts. now exists [].
    + change (nl :: s ++ [c]) with ((nl :: s) ++ [c]) in E. apply app_inj_tail in E as [_ ->].
      destruct (IHd_reads s eq_refl) as [a ->]. now exists (DNl :: a).
  - change ("#"%char :: c ++ s) with (("#"%char :: c) ++ s) in E.
    destruct (end_app _ _ _ _ E) as [s1 E1].
    { intros [X|X]; [discriminate|contradiction]. }
    now apply (IHd_reads s1).
  - destruct (end_app _ _ _ _ E (spell_no_nl t H)) as [s1 ->].
    destruct (IHd_reads s1 eq_refl) as [a ->]. now exists (t :: a).
Qed.

Lemma all_do_app a b g g' : all_do (a ++ b) g g' <-> exists g1, all_do a g g1 /\ all_do b g1 g'.
Proof.
  revert g. induction a as [|s a IH]; intro g; cbn [app].
  - split; [intro; exists g; split; [constructor|assumption]|intros (g1 & H & X); inversion H; now subst].
  - split.
    + intro H. inversion H; subst. apply IH in H5 as (g2 & A & B). exists g2. split; [econstructor; eassumption|assumption].
    + intros (g1 & H & X). inversion H; subst. econstructor; [eassumption|]. apply IH. eauto.
Qed.

(** One more setting at the end of a text of whole lines. *)
Lemma exec_append a g n t : exec_file (a ++ [nl]) = Ok g -> name_text n = true -> number_text t = true ->
  exec_file ((a ++ [nl]) ++ n ++ L " = " ++ t) = Ok (dset g n (OVal (VNum t))).
Proof.
  intros H Hn Ht. apply exec_file_iff in H as (ts & l & R & F & D).
  destruct (reads_ends _ _ _ R a eq_refl) as [a' E].
  destruct (file_app _ _ F _ E) as (l0 & -> & X). apply all_do_app in D as (g1 & D0 & D1).
  assert (g1 = g) as ->.
  { inversion D1 as [|? ? ? ? ? HD HR]; subst. inversion HR; subst. symmetry. exact HD. }
  subst ts.
  apply exec_file_iff. exists ((a' ++ [DNl]) ++ [DName n; DEq; DNum t]), (l0 ++ [SAssign n (OVal (VNum t))]).
  split; [|split].
  - eapply reads_app; [exact R|reflexivity|].
    change (n ++ L " = " ++ t) with (dspell (DName n) ++ " "%char :: dspell DEq ++ " "%char :: t).
    apply dr_tok; [exact Hn|cbn; split; [reflexivity|discriminate]|]. apply dr_blank.
    apply dr_tok; [exact I|exact I|]. apply dr_blank.
    rewrite <- (app_nil_r t) at 2. change (t ++ []) with (dspell (DNum t) ++ []).
    apply dr_tok; [exact Ht|exact I|constructor].
  - apply X. apply df_last with [DName n; DEq; DNum t].
    + repeat (apply dj_word; [exact I|]). constructor.
    + apply dl_assign. constructor.
  - apply all_do_app. exists g. split; [assumption|]. econstructor; [reflexivity|constructor].
Qed.

Lemma lines_app a l s : lines_of l s -> lines_of (read_lines (a ++ [nl]) ++ l) ((a ++ [nl]) ++ s).
Proof.
  intro H. assert (forall k x, lines_of k x -> forall x0, x = x0 ++ [nl] -> lines_of (k ++ l) (x ++ s)) as X.
  { induction 1; intros x0 E.
    - destruct x0; discriminate.
    - destruct H1. rewrite E. apply in_or_app. right. now left.
    - rewrite <- app_assoc. cbn [app]. apply lo_more; [assumption|].
      destruct s0 as [|c s0 _] using rev_ind.
      + inversion H1; subst; [exact H|congruence|destruct w0; discriminate].
      + change (w ++ nl :: s0 ++ [c]) with (w ++ (nl :: s0) ++ [c]) in E. rewrite app_assoc in E.
        apply app_inj_tail in E as [_ ->]. now apply (IHlines_of s0). }
  apply (X _ _ (read_lines_sound _) a eq_refl).
Qed.

Lemma left_id t l : ~ Exists start_line l -> Forall2 (left t) l l.
Proof.
  induction l as [|w l IH]; constructor.
  - right. split; [|reflexivity]. intro X. apply H. now left.
  - apply IH. intro X. apply H. now right.
Qed.

Lemma continues show traj a r s g : recorded traj (VNum s) -> number_text (show s) = true ->
  exec_file (a ++ [nl]) = Ok g ->
  (forall l, lines_of l (a ++ [nl]) -> ~ Exists start_line l) -> ~ In nl r ->
  exists new, change_start_time show traj ((a ++ [nl]) ++ L "start_time" ++ r) = Ok new /\
    exec_file new = Ok (dset g (L "start_time") (OVal (VNum (show s)))).
Proof.
  intros HV Hs HG HN Hr. exists ((a ++ [nl]) ++ L "start_time" ++ L " = " ++ show s). split.
  - apply restart_iff. exists (VNum s), (read_lines (a ++ [nl]) ++ [L "start_time" ++ r]).
    split; [assumption|]. split.
    { apply lines_app. apply lo_last; [discriminate|]. intro X. now apply in_prefix in X. }
    left. split.
    { apply Exists_app. right. left. now exists r. }
    exists (show s), (read_lines (a ++ [nl]) ++ [L "start_time" ++ L " = " ++ show s]).
    split; [left; eauto|]. split.
    + apply Forall2_app.
      * apply left_id. apply HN, read_lines_sound.
      * constructor; [|constructor]. left. split; [now exists r|reflexivity].
    + rewrite concat_app. cbn [concat]. rewrite app_nil_r. f_equal.
      symmetry. apply lines_concat, read_lines_sound.
  - apply exec_append; [assumption|reflexivity|assumption].
Qed.

(** ** A start time before other settings *)
Lemma map_keep t l : ~ Exists start_line l -> map (change_line t) l = l.
Proof. intro H. symmetry. apply left_map, left_id, H. Qed.

Lemma change_first show traj s r b : recorded traj (VNum s) -> ~ In nl r ->
  (forall l, lines_of l b -> ~ Exists start_line l) ->
  change_start_time show traj (L "start_time" ++ r ++ nl :: b) = Ok (L "start_time = " ++ show s ++ b).
Proof.
  intros HV Hr Hb. apply restart_iff. exists (VNum s), (((L "start_time" ++ r) ++ [nl]) :: read_lines b).
  split; [assumption|]. split.
  { rewrite app_assoc. apply lo_more; [|apply read_lines_sound]. intro X. now apply in_prefix in X. }
  left. split; [left; exists (r ++ [nl]); now rewrite <- app_assoc|].
  exists (show s), ((L "start_time = " ++ show s) :: read_lines b). split; [left; eauto|]. split.
  - constructor; [left; split; [exists (r ++ [nl]); now rewrite <- app_assoc|reflexivity]|].
    apply left_id, Hb, read_lines_sound.
  - cbn [concat]. rewrite (lines_concat _ _ (read_lines_sound b)). now rewrite <- app_assoc.
Qed.

Lemma twice show traj traj2 s s2 r w b : recorded traj (VNum s) -> recorded traj2 (VNum s2) ->
  ~ In nl r -> ~ In nl w -> ~ In nl (show s) -> ~ start_line (w ++ [nl]) ->
  (forall l, lines_of l b -> ~ Exists start_line l) ->
  (do new <- change_start_time show traj (L "start_time" ++ r ++ nl :: w ++ nl :: b);
   change_start_time show traj2 new) = Ok (L "start_time = " ++ show s2 ++ b).
Proof.
  intros HV HV2 Hr Hw Hs Hn Hb. rewrite change_first with (s := s); [|assumption|assumption|].
  2: { intros l HL HX. apply read_lines_iff in HL. rewrite read_lines_w in HL by assumption. subst l.
       inversion HX; subst; [contradiction|]. now apply (Hb _ (read_lines_sound b)). }
  cbn [bind]. change (L "start_time = " ++ show s ++ w ++ nl :: b) with
    (L "start_time" ++ L " = " ++ show s ++ w ++ nl :: b).
  replace (L " = " ++ show s ++ w ++ nl :: b) with ((L " = " ++ show s ++ w) ++ nl :: b)
    by now rewrite <- !app_assoc.
  apply change_first; [assumption| |assumption].
  rewrite !in_app_iff. intros [X|[X|X]]; [|contradiction|contradiction].
  cbn in X. repeat (destruct X as [X|X]; [discriminate|]). destruct X.
Qed.

Lemma no_times show traj old g : exec_file traj = Ok g ->
  dget g (L "times") = Some (OVal (VList [])) \/ dget g (L "times") = Some (OVal (VTuple [])) ->
  change_start_time show traj old = Err IndexError.
Proof.
  intros HG H. unfold change_start_time, last_time. rewrite HG. cbn [bind].
  destruct H as [-> | ->]; reflexivity.
Qed.
Lemma no_times_name show traj old g : exec_file traj = Ok g -> dget g (L "times") = None ->
  change_start_time show traj old = Err KeyError.
Proof. intros HG H. unfold change_start_time, last_time. rewrite HG. cbn [bind]. now rewrite H. Qed.
Lemma times_number show traj old g n : exec_file traj = Ok g -> dget g (L "times") = Some (OVal (VNum n)) ->
  change_start_time show traj old = Err TypeError.
Proof. intros HG H. unfold change_start_time, last_time. rewrite HG. cbn [bind]. now rewrite H. Qed.
Lemma unreadable show traj old e : exec_file traj = Err e -> change_start_time show traj old = Err e.
Proof. intro H. unfold change_start_time, last_time. now rewrite H. Qed.
