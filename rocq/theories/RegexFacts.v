(** Lemmas about the pattern matcher. *)
From Coq Require Import String Ascii List Bool Arith Lia.
Import ListNotations.
From Verif Require Import PyBase PyBaseFacts Regex.

Lemma consumed_app a r : consumed (a ++ r) r = a.
Proof.
  unfold consumed. rewrite app_length.
  replace (length a + length r - length r) with (length a) by lia.
  rewrite firstn_app, Nat.sub_diag, firstn_all. simpl. apply app_nil_r.
Qed.

Lemma star_rests_In p s r :
  In r (star_rests p s) <-> exists a, s = a ++ r /\ forallb p a = true.
Proof.
  revert r; induction s as [|x t IH]; intros r; simpl.
  - split.
    + intros [<-|[]]. exists []. auto.
    + intros (a & H & _). destruct a; simpl in H; [left; now rewrite H|discriminate].
  - destruct (p x) eqn:E.
    + rewrite in_app_iff, IH. simpl. split.
      * intros [(a & -> & Ha)|[<-|[]]].
        -- exists (x :: a). simpl. now rewrite E.
        -- exists []. auto.
      * intros (a & H & Ha). destruct a as [|y a]; simpl in H.
        -- right. left. auto.
        -- injection H as <- ->. simpl in Ha. rewrite E in Ha. left. eauto.
    + simpl. split.
      * intros [<-|[]]. exists []. auto.
      * intros (a & H & Ha). destruct a as [|y a]; simpl in H; auto.
        injection H as <- ->. simpl in Ha. rewrite E in Ha. discriminate.
Qed.

(** All rests but the last come from consuming something. *)
Lemma star_rests_split p s :
  exists l, star_rests p s = l ++ [s] /\
    forall r, In r l -> exists a, a <> [] /\ s = a ++ r /\ forallb p a = true.
Proof.
  destruct s as [|x t]; simpl.
  - exists []. split; auto. intros r [].
  - destruct (p x) eqn:E.
    + exists (star_rests p t). split; auto. intros r Hr.
      apply star_rests_In in Hr as (a & -> & Ha). exists (x :: a).
      simpl. rewrite E. repeat split; auto. discriminate.
    + exists []. split; auto. intros r [].
Qed.

Lemma star_rests_prefix p A B :
  forallb p A = true -> exists l, star_rests p (A ++ B) = star_rests p B ++ l.
Proof.
  induction A as [|x A IH]; simpl; intro H.
  - exists []. now rewrite app_nil_r.
  - apply andb_true_iff in H as [H1 H2]. rewrite H1.
    destruct (IH H2) as [l ->]. exists (l ++ [x :: A ++ B]). now rewrite app_assoc.
Qed.

Lemma flat_map_nil {A B} (f : A -> list B) l : (forall x, In x l -> f x = []) -> flat_map f l = [].
Proof.
  induction l as [|x l IH]; simpl; intro H; auto.
  rewrite (H x) by auto. simpl. apply IH. auto.
Qed.

(** The greedy choice: among the ways to match [p*] on [A ++ B], the first one for
    which the continuation succeeds is the one leaving exactly [B], if the
    continuation fails on everything shorter. *)
Lemma star_first {C} p (k : str -> list C) A B :
  forallb p A = true ->
  (forall a r, B = a ++ r -> a <> [] -> forallb p a = true -> k r = []) ->
  exists ys, flat_map k (star_rests p (A ++ B)) = k B ++ ys.
Proof.
  intros HA Hk. destruct (star_rests_prefix p A B HA) as [l ->].
  destruct (star_rests_split p B) as (l' & -> & Hl').
  rewrite !flat_map_app. simpl. rewrite app_nil_r.
  rewrite (flat_map_nil k l').
  - simpl. eauto.
  - intros r Hr. destruct (Hl' r Hr) as (a & Ha & HB & Hp). eauto.
Qed.

(** [p*] over a text that stops at a non-[p] character has the whole [p]-prefix as
    first choice. *)
Definition stops (p : ascii -> bool) (s : str) : Prop :=
  match s with [] => True | c :: _ => p c = false end.

Lemma star_rests_stop p A B :
  forallb p A = true -> stops p B ->
  exists l, star_rests p (A ++ B) = B :: l.
Proof.
  intros HA HB. destruct (star_rests_prefix p A B HA) as [l ->].
  destruct B as [|x t]; simpl in *.
  - eauto.
  - rewrite HB. simpl. eauto.
Qed.

Lemma rmatch_group_star n p r c s :
  rmatch (RSeq (RGroup n (RStar p)) r) c s
  = flat_map (fun rest => rmatch r ((n, consumed s rest) :: c) rest) (star_rests p s).
Proof.
  simpl. rewrite map_map. simpl.
  induction (star_rests p s) as [|x l IH]; simpl; auto. now rewrite IH.
Qed.

(** Denotation: [den r s rest] says [r] can match a prefix of [s] leaving [rest]. *)
Inductive den : re -> str -> str -> Prop :=
| den_chr p x t : p x = true -> den (RChr p) (x :: t) t
| den_star p a t : forallb p a = true -> den (RStar p) (a ++ t) t
| den_plus p x a t : forallb p (x :: a) = true -> den (RPlus p) (x :: a ++ t) t
| den_seq r1 r2 s t u : den r1 s t -> den r2 t u -> den (RSeq r1 r2) s u
| den_altl r1 r2 s t : den r1 s t -> den (RAlt r1 r2) s t
| den_altr r1 r2 s t : den r2 s t -> den (RAlt r1 r2) s t
| den_eps s : den REps s s
| den_group n r s t : den r s t -> den (RGroup n r) s t.

Lemma rmatch_den r : forall c s c' t, In (c', t) (rmatch r c s) -> den r s t.
Proof.
  induction r as [p|p|p|r1 IH1 r2 IH2|r1 IH1 r2 IH2| |n r IH]; intros c s c' t H; simpl in H.
  - destruct s as [|x s]; [destruct H|]. destruct (p x) eqn:E; [|destruct H].
    destruct H as [H|[]]. injection H as <- <-. now constructor.
  - apply in_map_iff in H as (r & Hr & Hin). injection Hr as <- <-.
    apply star_rests_In in Hin as (a & -> & Ha). now constructor.
  - apply in_map_iff in H as (r & Hr & Hin). injection Hr as <- <-.
    destruct s as [|x s]; [destruct Hin|]. simpl in Hin.
    destruct (p x) eqn:E; [|destruct Hin].
    apply star_rests_In in Hin as (a & -> & Ha). constructor. simpl. now rewrite E.
  - apply in_flat_map in H as ([c1 t1] & H1 & H2). econstructor; eauto.
  - apply in_app_iff in H as [H|H].
    + apply den_altl. eauto.
    + apply den_altr. eauto.
  - destruct H as [H|[]]. injection H as <- <-. constructor.
  - apply in_map_iff in H as ([c1 t1] & H1 & H2). injection H1 as <- <-.
    constructor. simpl. eauto.
Qed.

Lemma den_rmatch r s t : den r s t -> forall c, exists c', In (c', t) (rmatch r c s).
Proof.
  induction 1 as [p x t H|p a t H|p x a t H|r1 r2 s t u H1 IH1 H2 IH2
                 |r1 r2 s t H IH|r1 r2 s t H IH|s|n r s t H IH]; intros c; simpl.
  - rewrite H. exists c. now left.
  - exists c. apply in_map_iff. exists t. split; auto. apply star_rests_In. eauto.
  - simpl in H. apply andb_true_iff in H as [H1 H2]. rewrite H1.
    exists c. apply in_map_iff. exists t. split; auto. apply star_rests_In. eauto.
  - destruct (IH1 c) as [c1 I1]. destruct (IH2 c1) as [c2 I2]. exists c2.
    apply in_flat_map. exists (c1, t). auto.
  - destruct (IH c) as [c1 I1]. exists c1. apply in_app_iff. auto.
  - destruct (IH c) as [c1 I1]. exists c1. apply in_app_iff. auto.
  - exists c. now left.
  - destruct (IH c) as [c1 I1]. eexists. apply in_map_iff. exists (c1, t). simpl. eauto.
Qed.

Lemma rmatch_nil_iff r c s : rmatch r c s = [] <-> forall t, ~ den r s t.
Proof.
  split.
  - intros H t D. destruct (den_rmatch _ _ _ D c) as [c' I]. rewrite H in I. destruct I.
  - intro H. destruct (rmatch r c s) as [|[c' t] l] eqn:E; auto.
    exfalso. apply (H t). apply (rmatch_den r c s c' t). rewrite E. now left.
Qed.

Lemma den_suffix r s t : den r s t -> exists a, s = a ++ t.
Proof.
  induction 1 as [p x t H|p a t H|p x a t H|r1 r2 s t u H1 IH1 H2 IH2
                 |r1 r2 s t H IH|r1 r2 s t H IH|s|n r s t H IH]; auto.
  - now exists [x].
  - now exists a.
  - now exists (x :: a).
  - destruct IH1 as [a ->], IH2 as [b ->]. exists (a ++ b). now rewrite app_assoc.
  - now exists [].
Qed.

(** search *)
Lemma search_from_first r b s c rest l :
  rmatch r [] s = (c, rest) :: l ->
  search_from r b s = Some {| m_before := rev b; m_caps := c; m_rest := rest |}.
Proof. destruct s; simpl; intros ->; reflexivity. Qed.

Lemma search_first r s c rest l :
  rmatch r [] s = (c, rest) :: l ->
  search r s = Some {| m_before := []; m_caps := c; m_rest := rest |}.
Proof. intro H. unfold search. rewrite (search_from_first _ _ _ _ _ _ H). reflexivity. Qed.

Lemma search_from_skip r b x s :
  rmatch r [] (x :: s) = [] -> search_from r b (x :: s) = search_from r (x :: b) s.
Proof. simpl. intros ->. reflexivity. Qed.

Lemma search_from_None r b s :
  search_from r b s = None <-> forall a t u, s = a ++ t -> ~ den r t u.
Proof.
  revert b; induction s as [|x s IH]; intros b.
  - simpl. destruct (rmatch r [] []) as [|[c t] l] eqn:E.
    + split; auto. intros _ a t u H. destruct a; [|discriminate]. simpl in H. subst t.
      now apply rmatch_nil_iff with (c := []).
    + split; [discriminate|]. intro H. exfalso. apply (H [] [] t eq_refl).
      apply (rmatch_den r [] [] c t). rewrite E. now left.
  - simpl. destruct (rmatch r [] (x :: s)) as [|[c t] l] eqn:E.
    + rewrite IH. split.
      * intros H a t u Ha. destruct a as [|y a]; simpl in Ha.
        -- subst t. now apply rmatch_nil_iff with (c := []).
        -- injection Ha as <- ->. eauto.
      * intros H a t u ->. apply (H (x :: a)). reflexivity.
    + split; [discriminate|]. intro H. exfalso. apply (H [] (x :: s) t eq_refl).
      apply (rmatch_den r [] (x :: s) c t). rewrite E. now left.
Qed.

Lemma search_None r s : search r s = None <-> forall a t u, s = a ++ t -> ~ den r t u.
Proof. apply search_from_None. Qed.

Lemma search_from_Some r b s m :
  search_from r b s = Some m ->
  exists a t l, s = a ++ t /\ m_before m = rev b ++ a /\
    rmatch r [] t = (m_caps m, m_rest m) :: l /\
    (forall a1 t1 u, s = a1 ++ t1 -> length a1 < length a -> ~ den r t1 u).
Proof.
  revert b; induction s as [|x s IH]; intros b; simpl.
  - destruct (rmatch r [] []) as [|[c t] l] eqn:E; [discriminate|].
    intro H; injection H as <-. exists [], [], l. simpl. rewrite app_nil_r.
    repeat split; auto. intros a1 t1 u _ H; lia.
  - destruct (rmatch r [] (x :: s)) as [|[c t] l] eqn:E.
    + intro H. apply IH in H as (a & t & l & Hs & Hb & Hm & Hlt).
      exists (x :: a), t, l. subst s. simpl in *. rewrite <- app_assoc in Hb.
      repeat split; auto.
      intros a1 t1 u H1 H2. destruct a1 as [|y a1]; simpl in *.
      * subst t1. now apply rmatch_nil_iff with (c := []).
      * injection H1 as <- H1. eapply Hlt; eauto. lia.
    + intro H; injection H as <-. exists [], (x :: s), l. simpl. rewrite app_nil_r.
      repeat split; auto. intros a1 t1 u _ H; lia.
Qed.
