(** Proofs about the directories of an MPI run. *)
From Coq Require Import List Bool Arith Lia.
Import ListNotations.
From Verif Require Import PyBase MpiDir_Model.
Local Open Scope list_scope.
Local Open Scope nat_scope.

Lemma map_repeat' {A B} (f : A -> B) x n : map f (repeat x n) = repeat (f x) n.
Proof. induction n as [|n IH]; [reflexivity|]. cbn. now rewrite IH. Qed.

Definition ranks (x : state) : list rank := let '(d, m, ws) := x in m :: ws.
Definition failed (s : rank) : Prop := exists e, snd s = Failed e.

(** Executions end. *)
Definition weight (p : place) : nat :=
  match p with Bar1 => 7 | Decide => 6 | MkLog => 5 | Open => 4 | Check => 3 | Bar2 => 2 | MkData => 1
  | Done | Failed _ => 0 end.
Definition rweight (s : rank) : nat := 8 * fst s + weight (snd s).
Definition sweight (x : state) : nat := list_sum (map rweight (ranks x)).

(** A rank that is not done has something left to do. *)
Definition sane (s : rank) : Prop := match snd s with Done => True | Failed _ => True | _ => fst s <> 0 end.
Definition all_sane (x : state) : Prop := Forall sane (ranks x).

Lemma ready_weight c : rweight (ready c) = match c with 0 => 0 | _ => 8 * c + 7 end.
Proof. now destruct c. Qed.
Lemma ready_sane c : sane (ready c).
Proof. destruct c; cbn; [exact I|discriminate]. Qed.

Lemma move_weight master d s d' s' : sane s -> move master d s = Some (d', s') -> rweight s' < rweight s.
Proof.
  destruct s as [c p]. unfold sane, move. cbn [fst snd]. intros Hs H.
  destruct p; try discriminate; destruct c as [|c]; try contradiction; cbn [pred] in H;
    try (destruct (log_dir d)); try (destruct (data_dir d)); destruct master; cbn in H;
    injection H as _ <-; rewrite ?ready_weight; unfold rweight; cbn [fst snd weight];
    try lia; destruct c; lia.
Qed.
Lemma move_sane master d s d' s' : sane s -> move master d s = Some (d', s') -> sane s'.
Proof.
  destruct s as [c p]. unfold move. intros Hs H.
  destruct p; try discriminate; try (destruct (log_dir d)); try (destruct (data_dir d));
    destruct master; cbn [negb andb] in H; injection H as _ <-; try apply ready_sane; exact Hs || exact I.
Qed.
Lemma release_weight master s : sane s -> waiting s = true -> rweight (release master s) < rweight s.
Proof.
  destruct s as [c p]. unfold sane, waiting. cbn [snd fst]. intros Hs H.
  destruct p; try discriminate; destruct c as [|c]; try contradiction; cbn [release pred];
    destruct master; rewrite ?ready_weight; unfold rweight; cbn [fst snd weight]; try lia; destruct c; lia.
Qed.
Lemma release_sane master s : sane s -> sane (release master s).
Proof.
  destruct s as [c p]. destruct p; cbn [release]; intro H; try exact H.
  destruct master; [exact H|apply ready_sane].
Qed.

Lemma step_sane x y : step x y -> all_sane x -> all_sane y.
Proof.
  unfold all_sane. intros H. destruct H as [d m ws d' m' H|d m a s b d' s' H|d m ws H]; cbn [ranks]; intro Hs.
  - inversion Hs; subst. constructor; [eapply move_sane; eassumption|assumption].
  - inversion Hs as [|x0 l0 Hm Hr]; subst. constructor; [exact Hm|].
    apply Forall_app in Hr as [Ha Hb]. inversion Hb; subst. apply Forall_app. split; [exact Ha|].
    constructor; [eapply move_sane; eassumption|assumption].
  - inversion Hs; subst. constructor; [now apply release_sane|].
    apply Forall_map. eapply Forall_impl; [|eassumption]. intros r Hr. now apply release_sane.
Qed.

Lemma list_sum_app' a b : list_sum (a ++ b) = list_sum a + list_sum b.
Proof. apply list_sum_app. Qed.
Lemma sum_cons a l : list_sum (a :: l) = a + list_sum l.
Proof. reflexivity. Qed.

Lemma step_weight x y : step x y -> all_sane x -> sweight y < sweight x.
Proof.
  unfold all_sane, sweight. intros H. destruct H as [d m ws d' m' H|d m a s b d' s' H|d m ws H]; cbn [ranks]; intro Hs.
  - inversion Hs; subst. cbn [map]. rewrite !sum_cons. pose proof (move_weight _ _ _ _ _ H2 H). lia.
  - inversion Hs as [|x0 l0 Hm Hr]; subst. apply Forall_app in Hr as [Ha Hb]. inversion Hb; subst.
    cbn [map]. rewrite !sum_cons, !map_app, !list_sum_app'. cbn [map]. rewrite !sum_cons.
    pose proof (move_weight _ _ _ _ _ H2 H). lia.
  - inversion Hs as [|x0 l0 Hm Hr]; subst. cbn [forallb] in H. apply andb_prop in H as [H1 H2].
    cbn [map]. rewrite !sum_cons. pose proof (release_weight true m Hm H1).
    assert (list_sum (map rweight (map (release false) ws)) <= list_sum (map rweight ws)) as Hle.
    { clear -Hr H2. induction ws as [|w ws IH]; [reflexivity|]. cbn [forallb] in H2.
      apply andb_prop in H2 as [Hw H2]. inversion Hr; subst. cbn [map]. rewrite !sum_cons.
      pose proof (release_weight false w H1 Hw). specialize (IH H2 H3). lia. }
    lia.
Qed.

Lemma init_sane d n k : all_sane (init d n k).
Proof.
  unfold all_sane, init. cbn. constructor; [apply ready_sane|]. apply Forall_forall.
  intros r Hr. apply repeat_spec in Hr as ->. apply ready_sane.
Qed.

Lemma steps_sane n x y : steps n x y -> all_sane x -> all_sane y.
Proof. induction 1 as [|n x y z H _ IH]; [auto|]. intro Hs. apply IH. eapply step_sane; eassumption. Qed.

Lemma steps_bound n x y : steps n x y -> all_sane x -> n + sweight y <= sweight x.
Proof.
  induction 1 as [|n x y z H _ IH]; [lia|]. intro Hs.
  pose proof (step_weight _ _ H Hs). specialize (IH (step_sane _ _ H Hs)). lia.
Qed.

Lemma init_weight d n k : sweight (init d n k) <= (n + 1) * (8 * k + 7).
Proof.
  unfold sweight, init. cbn [ranks map]. rewrite map_repeat'.
  assert (rweight (ready k) <= 8 * k + 7) as H by (rewrite ready_weight; destruct k; lia).
  set (w := rweight (ready k)) in *. clearbody w.
  assert (list_sum (repeat w n) = n * w) as E.
  { induction n as [|n IH]; [reflexivity|]. cbn [repeat list_sum fold_right].
    change (fold_right Nat.add 0 (repeat w n)) with (list_sum (repeat w n)). rewrite IH. lia. }
  change (list_sum (w :: repeat w n)) with (w + list_sum (repeat w n)). rewrite E.
  nia.
Qed.

(** With ./log in place. *)
Inductive inv : state -> Prop :=
| inv_ready d m ws c : log_dir d = true -> Forall (eq (ready c)) (m :: ws) -> inv (d, m, ws)
| inv_first d m ws c : log_dir d = true -> data_dir d = false -> c <> 0 ->
    Forall (fun r => fst r = c /\ In (snd r) [Decide; Open; Check; Bar2]) (m :: ws) -> inv (d, m, ws)
| inv_mkdir d ws c : log_dir d = true -> data_dir d = false -> Forall (eq (ready c)) ws ->
    inv (d, (S c, MkData), ws)
| inv_later d m ws c : log_dir d = true -> data_dir d = true ->
    Forall (fun r => r = ready c \/ (fst r = S c /\ In (snd r) [Decide; Open; Check])) (m :: ws) ->
    inv (d, m, ws).

Lemma Forall_mid {A} (P : A -> Prop) a x b : Forall P (a ++ x :: b) <-> P x /\ Forall P (a ++ b).
Proof.
  rewrite !Forall_app. split.
  - intros [Ha Hb]. inversion Hb; subst. auto.
  - intros [Hx [Ha Hb]]. auto.
Qed.

Lemma move_first master d c p d' s' : log_dir d = true -> data_dir d = false ->
  In p [Decide; Open; Check; Bar2] -> move master d (c, p) = Some (d', s') ->
  d' = d /\ fst s' = c /\ In (snd s') [Decide; Open; Check; Bar2].
Proof.
  intros Hl Hd Hp H. cbn in Hp. destruct Hp as [<- |[<- |[<- |[<- |[]]]]]; cbn in H; try discriminate;
    rewrite ?Hl, ?Hd in H; cbn in H; injection H as <- <-; cbn; intuition auto.
Qed.
Lemma move_later master d c s d' s' : log_dir d = true -> data_dir d = true ->
  (s = ready c \/ (fst s = S c /\ In (snd s) [Decide; Open; Check])) ->
  move master d s = Some (d', s') ->
  d' = d /\ (s' = ready c \/ (fst s' = S c /\ In (snd s') [Decide; Open; Check])).
Proof.
  intros Hl Hd Hs H. destruct Hs as [-> |[Hf Hp]]; [destruct c; discriminate|].
  destruct s as [k p]. cbn [fst snd] in *. subst k. cbn in Hp.
  destruct Hp as [<- |[<- |[<- |[]]]]; cbn in H; rewrite ?Hl, ?Hd in H; cbn in H; injection H as <- <-; cbn; intuition auto.
Qed.
Lemma waiting_first r c : fst r = c -> In (snd r) [Decide; Open; Check; Bar2] -> waiting r = true -> r = (c, Bar2).
Proof.
  destruct r as [k p]. cbn. intros -> [<- |[<- |[<- |[<- |[]]]]] H; try discriminate. reflexivity.
Qed.

Lemma inv_step x y : inv x -> step x y -> inv y.
Proof.
  intros Hi Hs. destruct Hi as [d m ws c Hl Hall|d m ws c Hl Hd Hc Hall|d ws c Hl Hd Hall|d m ws c Hl Hd Hall].
  - inversion Hs as [d0 m0 ws0 d' m' Hm|d0 m0 a s b d' s' Hm|d0 m0 ws0 Hw]; subst.
    + inversion Hall; subst. destruct c; discriminate.
    + inversion Hall as [|x0 l0 Hx Hr]; subst. apply Forall_mid in Hr as [<- _]. destruct c; discriminate.
    + inversion Hall as [|x0 l0 Hx Hr]; subst. cbn [forallb] in Hw. apply andb_prop in Hw as [Hw1 Hw2].
      destruct c as [|c]; [discriminate|].
      assert (map (release false) ws = map (fun _ => (S c, Decide)) ws) as E.
      { apply map_ext_in. intros r Hr'. rewrite Forall_forall in Hr. rewrite <- (Hr r Hr'). reflexivity. }
      destruct (data_dir d) eqn:Hd.
      * apply inv_later with c; [exact Hl|exact Hd|]. constructor; [right; cbn; auto|].
        rewrite E. apply Forall_map. apply Forall_forall. intros r _. right. cbn. auto.
      * apply inv_first with (S c); [exact Hl|exact Hd|discriminate|]. constructor; [cbn; auto|].
        rewrite E. apply Forall_map. apply Forall_forall. intros r _. cbn. auto.
  - inversion Hs as [d0 m0 ws0 d' m' Hm|d0 m0 a s b d' s' Hm|d0 m0 ws0 Hw]; subst.
    + inversion Hall as [|x0 l0 [Hf Hp] Hr]; subst. destruct m as [k p]. cbn [fst snd] in *.
      destruct (move_first _ _ _ _ _ _ Hl Hd Hp Hm) as [-> Hm']. 
      apply inv_first with k; [exact Hl|exact Hd|exact Hc|]. constructor; [exact Hm'|exact Hr].
    + inversion Hall as [|x0 l0 Hx Hr]; subst. apply Forall_mid in Hr as [[Hf Hp] Hr].
      destruct s as [k p]. cbn [fst snd] in *. subst k.
      destruct (move_first _ _ _ _ _ _ Hl Hd Hp Hm) as [-> Hm'].
      apply inv_first with c; [exact Hl|exact Hd|exact Hc|]. constructor; [exact Hx|]. apply Forall_mid. auto.
    + inversion Hall as [|x0 l0 [Hf Hp] Hr]; subst. cbn [forallb] in Hw. apply andb_prop in Hw as [Hw1 Hw2].
      rewrite (waiting_first m (fst m) eq_refl Hp Hw1). cbn [release].
      destruct (fst m) as [|c]; [now elim Hc|].
      apply inv_mkdir; [exact Hl|exact Hd|]. apply Forall_map.
      rewrite forallb_forall in Hw2. rewrite Forall_forall in Hr. apply Forall_forall.
      intros r Hr'. destruct (Hr r Hr') as [Hf' Hp']. rewrite (waiting_first r (S c) Hf' Hp' (Hw2 r Hr')).
      reflexivity.
  - inversion Hs as [d0 m0 ws0 d' m' Hm|d0 m0 a s b d' s' Hm|d0 m0 ws0 Hw]; subst.
    + cbn in Hm. rewrite Hd in Hm. injection Hm as <- <-.
      apply inv_later with c; [exact Hl|reflexivity|]. constructor; [now left|].
      eapply Forall_impl; [|exact Hall]. intros r <-. now left.
    + apply Forall_mid in Hall as [<- _]. destruct c; discriminate.
    + discriminate.
  - inversion Hs as [d0 m0 ws0 d' m' Hm|d0 m0 a s b d' s' Hm|d0 m0 ws0 Hw]; subst.
    + inversion Hall as [|x0 l0 Hx Hr]; subst. destruct (move_later _ _ _ _ _ _ Hl Hd Hx Hm) as [-> Hm'].
      apply inv_later with c; [exact Hl|exact Hd|]. now constructor.
    + inversion Hall as [|x0 l0 Hx Hr]; subst. apply Forall_mid in Hr as [Hsx Hr].
      destruct (move_later _ _ _ _ _ _ Hl Hd Hsx Hm) as [-> Hm'].
      apply inv_later with c; [exact Hl|exact Hd|]. constructor; [exact Hx|]. apply Forall_mid. auto.
    + assert (Forall (eq (ready c)) (m :: ws)) as He.
      { apply Forall_forall. intros r Hr. rewrite Forall_forall in Hall. rewrite forallb_forall in Hw.
        specialize (Hw r Hr). destruct (Hall r Hr) as [-> |[_ Hp]]; [reflexivity|].
        destruct r as [k p]. cbn in Hp, Hw. unfold waiting in Hw. cbn in Hw.
        destruct Hp as [<- |[<- |[<- |[]]]]; discriminate. }
      destruct c as [|c].
      { inversion He; subst. cbn in Hw. discriminate. }
      apply inv_later with c; [exact Hl|exact Hd|]. inversion He as [|x0 l0 Hx Hr]; subst.
      constructor; [right; cbn; auto|]. apply Forall_map. eapply Forall_impl; [|exact Hr].
      intros r <-. right. cbn. auto.
Qed.

Lemma inv_init d n k : log_dir d = true -> inv (init d n k).
Proof.
  intro Hl. apply inv_ready with k; [exact Hl|]. constructor; [reflexivity|]. apply Forall_forall.
  intros r Hr. now apply repeat_spec in Hr.
Qed.
Lemma inv_steps n x y : steps n x y -> inv x -> inv y.
Proof. induction 1 as [|n x y z H _ IH]; [auto|]. intro Hi. apply IH. eapply inv_step; eassumption. Qed.

Lemma inv_not_failed x : inv x -> Forall (fun r => ~ failed r) (ranks x).
Proof.
  assert (forall c, ~ failed (ready c)) as Hready by (intros [|c] [e He]; discriminate).
  assert (forall r l, (forall e, ~ In (Failed e) l) -> In (snd r) l -> ~ failed r) as Hin
    by (intros r l Hl Hr [e He]; rewrite He in Hr; exact (Hl e Hr)).
  intros [d m ws c Hl Hall|d m ws c Hl Hd Hc Hall|d ws c Hl Hd Hall|d m ws c Hl Hd Hall]; cbn [ranks].
  - eapply Forall_impl; [|exact Hall]. intros r <-. apply Hready.
  - eapply Forall_impl; [|exact Hall]. cbv beta. intros r [_ Hr]. eapply Hin; [|exact Hr].
    intros e [H|[H|[H|[H|[]]]]]; discriminate.
  - constructor; [intros [e He]; discriminate|]. eapply Forall_impl; [|exact Hall]. intros r <-. apply Hready.
  - eapply Forall_impl; [|exact Hall]. cbv beta. intros r [-> |[_ Hr]]; [apply Hready|]. eapply Hin; [|exact Hr].
    intros e [H|[H|[H|[]]]]; discriminate.
Qed.

(** Somebody who can move. *)
Lemma mover d m ws r : In r (m :: ws) -> (exists y, move (match r with (c, MkData) => true | _ => false end) d r = Some y) ->
  (forall b, exists y, move b d r = Some y) -> exists y, step (d, m, ws) y.
Proof.
  intros Hr _ Hm. destruct Hr as [<- |Hr].
  - destruct (Hm true) as [[d' m'] E]. eexists. apply step_master. exact E.
  - apply in_split in Hr as [a [b ->]]. destruct (Hm false) as [[d' s'] E]. eexists. apply step_worker. exact E.
Qed.
Lemma mover' d m ws r : In r (m :: ws) -> (forall b, exists y, move b d r = Some y) -> exists y, step (d, m, ws) y.
Proof. intros Hr Hm. eapply mover; [exact Hr|apply Hm|exact Hm]. Qed.

Lemma find_not {A} (f : A -> bool) l : forallb f l = true \/ exists x, In x l /\ f x = false.
Proof.
  induction l as [|a l [IH|[x [Hx Hf]]]]; [now left| |right; exists x; split; [now right|exact Hf]].
  destruct (f a) eqn:E; [left; cbn; now rewrite E|right; exists a; split; [now left|exact E]].
Qed.

Definition finished (x : state) : Prop := Forall (eq (0, Done)) (ranks x).

Lemma inv_progress x : inv x -> finished x \/ exists y, step x y.
Proof.
  intros [d m ws c Hl Hall|d m ws c Hl Hd Hc Hall|d ws c Hl Hd Hall|d m ws c Hl Hd Hall].
  - destruct c as [|c]; [left; exact Hall|]. right. eexists. apply step_barrier.
    apply forallb_forall. intros r Hr. rewrite Forall_forall in Hall. now rewrite <- (Hall r Hr).
  - right. destruct (find_not waiting (m :: ws)) as [H|[r [Hr Hw]]]; [eexists; now apply step_barrier|].
    apply mover' with r; [exact Hr|]. intro b. rewrite Forall_forall in Hall. destruct (Hall r Hr) as [_ Hp].
    destruct r as [k p]. cbn [snd] in Hp. unfold waiting in Hw. cbn [snd] in Hw. cbn in Hp.
    destruct Hp as [<- |[<- |[<- |[<- |[]]]]]; try discriminate; eexists; reflexivity.
  - right. eexists. apply step_master. cbn. rewrite Hd. reflexivity.
  - destruct (find_not (fun r => match snd r with Decide | Open | Check => false | _ => true end) (m :: ws))
      as [H|[r [Hr Hw]]].
    + assert (Forall (eq (ready c)) (m :: ws)) as He.
      { apply Forall_forall. intros r Hr. rewrite Forall_forall in Hall. rewrite forallb_forall in H.
        specialize (H r Hr). destruct (Hall r Hr) as [-> |[_ Hp]]; [reflexivity|].
        destruct Hp as [Hp|[Hp|[Hp|[]]]]; rewrite <- Hp in H; discriminate. }
      destruct c as [|c]; [left; exact He|]. right. eexists. apply step_barrier.
      apply forallb_forall. intros r Hr. rewrite Forall_forall in He. now rewrite <- (He r Hr).
    + right. apply mover' with r; [exact Hr|]. intro b. destruct r as [k p]. cbn [snd] in Hw.
      destruct p; try discriminate; eexists; reflexivity.
Qed.

(** What is there at the end. *)
Lemma move_dirs master d s d' s' : move master d s = Some (d', s') ->
  (log_dir d = true -> log_dir d' = true) /\ (data_dir d = true -> data_dir d' = true).
Proof.
  destruct s as [c p]. destruct p; cbn; try discriminate;
    try (intro H; injection H as <- <-; auto; fail).
  - destruct (log_dir d) eqn:E; intro H; injection H as <- <-; cbn; auto; split; congruence.
  - destruct (data_dir d) eqn:E; intro H; injection H as <- <-; cbn; auto; split; congruence.
Qed.

(** A rank that has left its first construction behind saw ./data, or somebody makes it. *)
Definition past (k : nat) (x : state) : Prop :=
  let '(d, m, ws) := x in
  log_dir d = true /\ (data_dir d = true \/ (snd m = MkData /\ fst m = k) \/ Forall (fun r => fst r = k) (m :: ws)).

Lemma past_step k x y : k <> 0 -> inv x -> past k x -> step x y -> past k y.
Proof.
  intros Hk Hi Hp Hs. destruct x as [[d m] ws].
  destruct Hp as [Hl [Hp|[[Hp Hf]|Hp]]].
  - inversion Hs as [d0 m0 ws0 d' m' Hm|d0 m0 a s b d' s' Hm|d0 m0 ws0 Hw]; subst; cbn.
    + destruct (move_dirs _ _ _ _ _ Hm) as [H1 H2]. split; [auto|left; auto].
    + destruct (move_dirs _ _ _ _ _ Hm) as [H1 H2]. split; [auto|left; auto].
    + split; [auto|left; auto].
  - destruct m as [c p]. cbn [snd fst] in Hp, Hf. subst p c.
    inversion Hs as [d0 m0 ws0 d' m' Hm|d0 m0 a s b d' s' Hm|d0 m0 ws0 Hw]; subst; cbn.
    + cbn in Hm. destruct (data_dir d) eqn:Hd; injection Hm as <- <-; cbn; auto.
    + inversion Hi as [d1 m1 ws1 c Hl1 Hall|d1 m1 ws1 c Hl1 Hd Hc Hall|d1 ws1 c Hl1 Hd Hall|d1 m1 ws1 c Hl1 Hd Hall]; subst.
      * inversion Hall as [|x0 l0 Hx Hr]; subst. destruct c; discriminate.
      * inversion Hall as [|x0 l0 [_ Hx] Hr]; subst. cbn in Hx. destruct Hx as [H|[H|[H|[H|[]]]]]; discriminate.
      * apply Forall_mid in Hall as [<- _]. destruct c; discriminate.
      * destruct (move_dirs _ _ _ _ _ Hm) as [H1 H2]. split; [auto|left; auto].
    + cbn in Hw. discriminate.
  - destruct (data_dir d) eqn:Hd.
    { inversion Hs as [d0 m0 ws0 d' m' Hm|d0 m0 a s b d' s' Hm|d0 m0 ws0 Hw]; subst; cbn.
      - destruct (move_dirs _ _ _ _ _ Hm) as [H1 H2]. split; [auto|left; auto].
      - destruct (move_dirs _ _ _ _ _ Hm) as [H1 H2]. split; [auto|left; auto].
      - split; [auto|left; auto]. }
    inversion Hs as [d0 m0 ws0 d' m' Hm|d0 m0 a s b d' s' Hm|d0 m0 ws0 Hw]; subst; cbn.
    + destruct m as [c p]. inversion Hp as [|x0 l0 Hx Hr]. cbn in Hx. subst.
      destruct (move_dirs _ _ _ _ _ Hm) as [H1 H2]. split; [auto|].
      destruct p; cbn in Hm; try discriminate; rewrite ?Hd, ?Hl in Hm; cbn in Hm; injection Hm as <- <-; cbn;
        auto 6.
    + inversion Hp as [|x0 l0 Hx Hr]; subst. apply Forall_mid in Hr as [Hsx Hr].
      destruct s as [c p]. cbn in Hsx. subst c. destruct (move_dirs _ _ _ _ _ Hm) as [H1 H2]. split; [auto|].
      destruct p; cbn in Hm; try discriminate; rewrite ?Hd, ?Hl in Hm; cbn in Hm; injection Hm as <- <-; cbn; auto;
        right; right; (constructor; [reflexivity|apply Forall_mid; auto]).
    + split; [exact Hl|]. right. cbn [forallb] in Hw. apply andb_prop in Hw as [Hw1 Hw2].
      inversion Hp as [|x0 l0 Hx Hr]; subst.
      inversion Hi as [d1 m1 ws1 c Hl1 Hall|d1 m1 ws1 c Hl1 Hd1 Hc Hall|d1 ws1 c Hl1 Hd1 Hall|d1 m1 ws1 c Hl1 Hd1 Hall]; subst.
      * right. inversion Hall as [|x0 l0 Hy Hz]; subst. destruct c as [|c]; [discriminate|].
        cbn. constructor; [reflexivity|]. apply Forall_map. eapply Forall_impl; [|exact Hz]. intros r <-. reflexivity.
      * left. inversion Hall as [|x0 l0 [Hf Hy] Hz]; subst.
        rewrite (waiting_first m (fst m) eq_refl Hy Hw1). cbn. auto.
      * discriminate.
      * congruence.
Qed.

Lemma completes d n k y j : log_dir d = true -> steps j (init d n k) y ->
  j <= (n + 1) * (8 * k + 7) /\ Forall (fun r => ~ failed r) (ranks y) /\
  (finished y \/ exists z, step y z) /\
  (finished y -> k <> 0 -> data_dir (fst (fst y)) = true).
Proof.
  intros Hl Hs. pose proof (inv_steps _ _ _ Hs (inv_init d n k Hl)) as Hi. split; [|split; [|split]].
  - pose proof (steps_bound _ _ _ Hs (init_sane d n k)). pose proof (init_weight d n k). lia.
  - now apply inv_not_failed.
  - now apply inv_progress.
  - intros Hf Hk.
    assert (past k y) as Hp.
    { assert (past k (init d n k)) as H0.
      { unfold past, init. split; [exact Hl|]. right. right. destruct k as [|k]; [now elim Hk|].
        constructor; [reflexivity|]. apply Forall_forall. intros r Hr. apply repeat_spec in Hr as ->. reflexivity. }
      pose proof (inv_init d n k Hl) as Hi0. clear Hf Hi. revert Hi0 H0.
      induction Hs as [|j x y z H _ IH]; [auto|]. intros Hi0 H0. apply IH.
      - eapply inv_step; eassumption.
      - eapply past_step; eassumption. }
    destruct y as [[d' m] ws]. cbn. destruct Hp as [_ [Hp|[[Hp _]|Hp]]]; [exact Hp| |].
    + inversion Hf; subst. discriminate.
    + inversion Hf; subst. inversion Hp; subst. now elim Hk.
Qed.

(** Rank 0 never fails, whatever is there at the beginning. *)
Definition master_ok (x : state) : Prop :=
  let '(d, m, ws) := x in
  match snd m with
  | MkLog => log_dir d = false
  | Open => log_dir d = true
  | Bar2 | MkData => data_dir d = false
  | Failed _ => False
  | _ => True
  end.
Lemma worker_dirs d s d' s' : move false d s = Some (d', s') -> snd s <> MkLog -> snd s <> MkData -> d' = d.
Proof.
  destruct s as [c p]. destruct p; cbn; try discriminate; intros H H1 H2; try (injection H as <- <-; reflexivity);
    [now elim H1|now elim H2].
Qed.
Definition workers_ok (x : state) : Prop :=
  let '(d, m, ws) := x in Forall (fun r => snd r <> MkLog /\ snd r <> MkData /\
    forall e, snd r = Failed e -> e = IOError) ws.
Lemma ready_places c : snd (ready c) = Done \/ snd (ready c) = Bar1.
Proof. destruct c; cbn; auto. Qed.
Lemma both_step x y : step x y -> master_ok x -> workers_ok x -> master_ok y /\ workers_ok y.
Proof.
  intros Hs Hm Hw. inversion Hs as [d m ws d' m' H|d m a s b d' s' H|d m ws H]; subst.
  - split; [|exact Hw]. destruct m as [c p]. unfold master_ok in *. cbn [snd] in Hm.
    destruct p; cbn in H; try discriminate; rewrite ?Hm in H; cbn in H.
    + destruct (log_dir d) eqn:E; cbn in H; injection H as <- <-; exact E.
    + injection H as <- <-. reflexivity.
    + injection H as <- <-. exact I.
    + destruct (data_dir d) eqn:E; injection H as <- <-; [|exact E].
      destruct (ready_places (pred c)) as [-> | ->]; exact I.
    + injection H as <- <-. destruct (ready_places (pred c)) as [-> | ->]; exact I.
  - unfold workers_ok in *. apply Forall_mid in Hw as [[H1 [H2 H3]] Hr].
    rewrite (worker_dirs _ _ _ _ H H1 H2) in *. split; [exact Hm|]. apply Forall_mid. split; [|exact Hr].
    destruct s as [c p]. cbn [snd] in *.
    destruct p; cbn in H; try discriminate; try (now elim H1); try (now elim H2).
    + rewrite andb_false_r in H. injection H as _ <-. cbn. repeat split; discriminate.
    + destruct (log_dir d); injection H as _ <-; cbn; repeat split; try discriminate.
      intros e He. congruence.
    + destruct (data_dir d); injection H as _ <-.
      * destruct (ready_places (pred c)) as [-> | ->]; repeat split; discriminate.
      * cbn. repeat split; discriminate.
  - split.
    + unfold master_ok in *. destruct m as [c p]. cbn [snd] in *.
      destruct p; cbn in *; try discriminate; auto.
    + unfold workers_ok in *. apply Forall_map. cbn [forallb] in H. apply andb_prop in H as [_ H].
      rewrite forallb_forall in H. rewrite Forall_forall in *. intros r Hr.
      specialize (H r Hr). destruct r as [c p]. destruct p; try discriminate; cbn.
      * repeat split; discriminate.
      * destruct (ready_places (pred c)) as [-> | ->]; repeat split; discriminate.
Qed.
Lemma master_never_fails d n k y j : steps j (init d n k) y ->
  (let '(_, m, ws) := y in ~ failed m /\ forall r e, In r ws -> snd r = Failed e -> e = IOError).
Proof.
  assert (master_ok (init d n k)) as Hm.
  { cbn. destruct (ready_places k) as [-> | ->]; exact I. }
  assert (workers_ok (init d n k)) as Hw.
  { cbn. apply Forall_forall. intros r Hr. apply repeat_spec in Hr as ->.
    destruct (ready_places k) as [-> | ->]; repeat split; discriminate. }
  intro Hs. revert Hm Hw. induction Hs as [|j x y z H _ IH].
  - intros Hm Hw. destruct x as [[dd m] ws]. split.
    + intros [e He]. unfold master_ok in Hm. now rewrite He in Hm.
    + intros r e Hr He. unfold workers_ok in Hw. rewrite Forall_forall in Hw. now apply (Hw r Hr).
  - intros Hm Hw. destruct (both_step _ _ H Hm Hw) as [Hm' Hw']. exact (IH Hm' Hw').
Qed.

(** Without ./log some rank can fail. *)
Lemma race dd n k : exists y, steps 3 (init {| log_dir := false; data_dir := dd |} (S n) (S k)) y /\
  Exists (fun r => snd r = Failed IOError) (ranks y).
Proof.
  pose (d := {| log_dir := false; data_dir := dd |}).
  exists (d, (S k, Decide), (S k, Failed IOError) :: repeat (S k, Decide) n). split.
  - eapply steps_more with (d, (S k, Decide), [] ++ (S k, Decide) :: repeat (S k, Decide) n).
    { cbn [app]. unfold init. cbn [ready repeat].
      replace ((S k, Decide) :: repeat (S k, Decide) n)
        with (map (release false) ((S k, Bar1) :: repeat (S k, Bar1) n)) by (cbn; now rewrite map_repeat').
      apply (step_barrier d (S k, Bar1)). apply forallb_forall. intros r [<- |[<- |Hr]]; [reflexivity|reflexivity|].
      apply repeat_spec in Hr as ->. reflexivity. }
    eapply steps_more.
    { eapply step_worker. reflexivity. }
    eapply steps_more.
    { eapply step_worker. reflexivity. }
    apply steps_none.
  - cbn. right. left. reflexivity.
Qed.

(** After a failure nobody gets past the next barrier. *)
Definition at_most_one (r r' : rank) : Prop :=
  fst r' = fst r \/ (fst r = S (fst r') /\ forall b d, move b d r' = None).
Lemma ready_stuck c b d : move b d (ready c) = None.
Proof. now destruct c. Qed.
Lemma move_one r s b d d' s' : at_most_one r s -> move b d s = Some (d', s') -> at_most_one r s'.
Proof.
  intros [Hr|[_ Hr]] H; [|rewrite Hr in H; discriminate].
  destruct s as [c p]. cbn [fst] in Hr. subst c. unfold at_most_one.
  assert (forall c, fst (ready c) = c) as Hf by now intros [|c].
  destruct p; cbn in H; try discriminate.
  - injection H as _ <-. now left.
  - destruct (log_dir d); injection H as _ <-; now left.
  - injection H as _ <-. now left.
  - destruct (data_dir d); injection H as _ <-; [|now left]. rewrite Hf.
    destruct (fst r) as [|c]; [now left|]. right. split; [reflexivity|]. intros. apply ready_stuck.
  - destruct (data_dir d); injection H as _ <-; [now left|]. rewrite Hf.
    destruct (fst r) as [|c]; [now left|]. right. split; [reflexivity|]. intros. apply ready_stuck.
Qed.
Lemma Forall2_mid {A B} (R : A -> B -> Prop) l a y b y' :
  Forall2 R l (a ++ y :: b) -> (forall x, R x y -> R x y') -> Forall2 R l (a ++ y' :: b).
Proof.
  intros H Hy. apply Forall2_app_inv_r in H as [l1 [l2 [H1 [H2 ->]]]].
  inversion H2; subst. apply Forall2_app; [exact H1|]. constructor; auto.
Qed.
Lemma failed_step l x y : Exists failed (ranks x) -> Forall2 at_most_one l (ranks x) -> step x y ->
  Exists failed (ranks y) /\ Forall2 at_most_one l (ranks y).
Proof.
  intros Hf Hl Hs. assert (forall s b d q, failed s -> move b d s = Some q -> False) as Hno.
  { intros [c p] b d q [e He]. cbn in He. subst p. discriminate. }
  inversion Hs as [d m ws d' m' H|d m a s b d' s' H|d m ws H]; subst; cbn [ranks] in *.
  - inversion Hf as [m0 l0 Hm|m0 l0 Hm]; subst; [elim (Hno _ _ _ _ Hm H)|]. split; [now right|].
    inversion Hl; subst. constructor; [eapply move_one; eassumption|assumption].
  - split.
    + inversion Hf as [m0 l0 Hm|m0 l0 Hm]; subst; [now left|]. right.
      apply Exists_app in Hm as [Hm|Hm]; apply Exists_app; [now left|].
      inversion Hm; subst; [elim (Hno _ _ _ _ H1 H)|]. right. now right.
    + inversion Hl; subst. constructor; [assumption|]. eapply Forall2_mid; [eassumption|].
      intros r Hr. eapply move_one; eassumption.
  - exfalso. apply Exists_exists in Hf as [r [Hr [e He]]]. rewrite forallb_forall in H.
    specialize (H r Hr). unfold waiting in H. rewrite He in H. discriminate.
Qed.
Lemma after_failure j x y : Exists failed (ranks x) -> steps j x y ->
  Exists failed (ranks y) /\ Forall2 (fun r r' => fst r <= S (fst r')) (ranks x) (ranks y).
Proof.
  intros Hf Hs.
  assert (forall l, Forall2 at_most_one l (ranks x) ->
    Exists failed (ranks y) /\ Forall2 at_most_one l (ranks y)) as H.
  { revert Hf. induction Hs as [|j x y z H _ IH]; [auto|]. intros Hf l Hl.
    destruct (failed_step l x y Hf Hl H) as [Hf' Hl']. exact (IH Hf' l Hl'). }
  destruct (H (ranks x)) as [H1 H2].
  { induction (ranks x) as [|r l IH]; constructor; [now left|].
    clear. induction l as [|r l IH]; constructor; [now left|exact IH]. }
  split; [exact H1|]. clear -H2. induction H2 as [|r r' l l' Hr _ IH]; constructor; [|exact IH].
  destruct Hr as [Hr|[Hr _]]; lia.
Qed.
