(** The data archive. *)
From Coq Require Import String Ascii List Arith NArith Bool Lia.
From Verif Require Import PyBase PyBaseFacts Archive_Model Archive_Spec.
Import ListNotations.
Local Open Scope list_scope.
Local Open Scope nat_scope.

Lemma dec_inj x y : dec x = dec y -> x = y.
Proof. intros E. apply (f_equal int_of) in E. rewrite !int_of_dec in E. lia. Qed.

Lemma data_file_inj size r r' : size <> 1 -> data_file size r = data_file size r' -> r = r'.
Proof.
  intros H. unfold data_file. destruct (Nat.eqb_spec size 1); [contradiction|]. intros E.
  apply app_inv_head in E. apply app_inv_tail in E. apply dec_inj in E. lia.
Qed.

Section P.
  Context {V B : Type}.
  Variable dump : dict V -> list B * option exn.
  Variable selected : nat -> str -> bool.
  Variable path : nat -> str.
  Variable opens : str -> bool.
  Notation runm := (run dump selected path opens).
  Notation stepm := (step dump selected path opens).

  Definition final (s : state V B) (ops : list (op V)) : state V B := snd (runm s ops).

  Lemma final_app s a b : final s (a ++ b) = final (final s a) b.
  Proof.
    revert s. induction a as [|x a IH]; intros s; [reflexivity|]. unfold final in *. cbn [app run].
    destruct (stepm s x) as [r s1]. specialize (IH s1). destruct (runm s1 (a ++ b)), (runm s1 a).
    cbn in *. exact IH.
  Qed.

  Lemma final_cons s x l : final s (x :: l) = final (snd (stepm s x)) l.
  Proof.
    unfold final. cbn [run]. destruct (stepm s x) as [r s1]. cbn [snd]. now destruct (runm s1 l).
  Qed.

  Lemma dset_nonempty (d : dict V) k v : dset d k v <> [].
  Proof. destruct d as [|[k' v'] d]; cbn; [discriminate|]. now destruct (str_eqb k k'). Qed.

  Lemma final_snoc s a x : final s (a ++ [x]) = snd (stepm (final s a) x).
  Proof. now rewrite final_app, final_cons. Qed.

  (** One call. *)
  Lemma archive_dict s t name v u :
    dicts (snd (stepm s (Archive t name v))) u =
    if (u =? t) && selected t name then dset (dicts s t) name v else dicts s u.
  Proof.
    cbn [step]. unfold archive. destruct (selected t name); [|now rewrite andb_false_r].
    rewrite andb_true_r. pose proof (dset_nonempty (dicts s t) name v).
    destruct (dset (dicts s t) name v) eqn:E; [congruence|]. rewrite <- E.
    destruct (opens (path t)); [destruct (dump _)|]; reflexivity.
  Qed.

  Lemma archive_file s t name v p :
    disk (snd (stepm s (Archive t name v))) p =
    if selected t name && opens p && str_eqb p (path t)
    then Some (fst (dump (dset (dicts s t) name v))) else disk s p.
  Proof.
    cbn [step]. unfold archive. destruct (selected t name); [|reflexivity].
    pose proof (dset_nonempty (dicts s t) name v).
    destruct (dset (dicts s t) name v) eqn:E; [congruence|]. rewrite <- E. cbn [andb].
    destruct (str_eqb_spec p (path t)) as [->|N].
    - rewrite andb_true_r. destruct (opens (path t)); [|reflexivity].
      destruct (dump _) eqn:ED; cbn. now rewrite str_eqb_refl.
    - rewrite andb_false_r. destruct (opens (path t)); [|reflexivity].
      destruct (dump _). cbn. apply str_eqb_neq in N. now rewrite N.
  Qed.

  Lemma archive_result s t name v :
    fst (stepm s (Archive t name v)) =
    if selected t name then
      if opens (path t) then
        match snd (dump (dset (dicts s t) name v)) with None => Ok tt | Some e => Err e end
      else Err IOError
    else Ok tt.
  Proof.
    cbn [step]. unfold archive. destruct (selected t name); [|reflexivity].
    pose proof (dset_nonempty (dicts s t) name v).
    destruct (dset (dicts s t) name v) eqn:E; [congruence|]. rewrite <- E.
    destruct (opens (path t)); [|reflexivity]. now destruct (dump _).
  Qed.

  (** The dictionary of a tool holds exactly the latest values. *)
  Lemma latest_snoc (ops : list (op V)) x t name v :
    latest selected (ops ++ [x]) t name v <->
    (x = Archive t name v /\ selected t name = true) \/
    (x <> Restart /\ (forall v', x <> Archive t name v') /\ latest selected ops t name v).
  Proof.
    unfold latest. split.
    - intros (S & a & b & E & NR & NA). destruct b as [|y b] using rev_ind.
      + apply app_inj_tail in E as [_ ->]. left. auto.
      + clear IHb. rewrite app_comm_cons, app_assoc in E. apply app_inj_tail in E as [-> ->]. right.
        split; [intros ->; apply NR, in_or_app; right; now left|].
        split; [intros v' ->; apply (NA v'), in_or_app; right; now left|].
        split; auto. exists a, b. split; auto. split.
        * intros I. apply NR, in_or_app; now left.
        * intros v' I. apply (NA v'), in_or_app; now left.
    - intros [(-> & S)|(N1 & N2 & S & a & b & -> & NR & NA)].
      + split; auto. exists ops, []. auto.
      + split; auto. exists a, (b ++ [x]). rewrite <- app_assoc. split; [reflexivity|]. split.
        * intros I. apply in_app_or in I as [I|[I|[]]]; [auto|congruence].
        * intros v' I. apply in_app_or in I as [I|[I|[]]]; [eapply NA; eauto|eapply N2; eauto].
  Qed.

  Lemma dicts_latest s ops : (forall t, dicts s t = []) -> forall t,
    NoDup (keys (dicts (final s ops) t)) /\
    forall name v, dget (dicts (final s ops) t) name = Some v <-> latest selected ops t name v.
  Proof.
    intros E0. induction ops as [|x ops IH] using rev_ind; intros t.
    - unfold final. cbn [run snd]. rewrite E0. split; [constructor|]. intros name v. cbn. split; [discriminate|].
      intros (_ & a & b & E & _). now destruct a.
    - destruct (IH t) as [N G]. rewrite final_app, final_cons. cbn [final run snd].
      destruct x as [u n w|].
      + change (snd (runm (snd (stepm (final s ops) (Archive u n w))) [])) with (snd (stepm (final s ops) (Archive u n w))).
        rewrite archive_dict. destruct (Nat.eqb_spec t u) as [->|D]; cbn [andb].
        * destruct (selected u n) eqn:S.
          -- split; [now apply NoDup_dset|]. intros name v. rewrite dget_dset, latest_snoc.
             destruct (str_eqb_spec name n) as [->|Dn].
             ++ split.
                ** intros E. injection E as ->. left. auto.
                ** intros [[E _]|(_ & F & _)]; [congruence|]. exfalso. apply (F w). reflexivity.
             ++ rewrite G. split.
                ** intros H. right. split; [discriminate|]. split; [congruence|exact H].
                ** intros [[E _]|(_ & _ & H)]; [congruence|exact H].
          -- split; [exact N|]. intros name v. rewrite G, latest_snoc. split.
             ++ intros H. right. split; [discriminate|]. split; [|exact H].
                intros v' E. injection E as -> ->. destruct H as [S' _]. congruence.
             ++ intros [[E S']|(_ & _ & H)]; [|exact H]. injection E as -> ->. congruence.
        * split; [exact N|]. intros name v. rewrite G, latest_snoc. split.
          -- intros H. right. split; [discriminate|]. split; [congruence|exact H].
          -- intros [[E _]|(_ & _ & H)]; [congruence|exact H].
      + cbn. split; [constructor|]. intros name v. rewrite latest_snoc. split; [discriminate|].
        intros [[E _]|(E & _)]; congruence.
  Qed.

  Lemma file_kept s ops p : (forall x, In x ops -> ~ writes selected path opens p x) ->
    disk (final s ops) p = disk s p.
  Proof.
    revert s. induction ops as [|x ops IH]; intros s H; [reflexivity|]. rewrite final_cons, IH.
    - destruct x as [t n v|]; [|reflexivity]. rewrite archive_file.
      destruct (selected t n) eqn:S; [|reflexivity]. destruct (opens p) eqn:O; [|reflexivity].
      destruct (str_eqb_spec p (path t)) as [->|D]; [|reflexivity]. exfalso.
      apply (H (Archive t n v)); [now left|]. cbn. auto.
    - intros y I. apply H. now right.
  Qed.

  (** The file after any history: the dictionary of the tool that wrote it last. *)
  Theorem file_exact s : (forall t, dicts s t = []) -> forall a t name v b,
    selected t name = true -> opens (path t) = true ->
    (forall x, In x b -> ~ writes selected path opens (path t) x) ->
    exists d, disk (final s (a ++ Archive t name v :: b)) (path t) = Some (fst (dump d)) /\
      NoDup (map fst d) /\
      (forall n x, dget d n = Some x <-> latest selected (a ++ [Archive t name v]) t n x) /\
      fst (stepm (final s a) (Archive t name v)) = match snd (dump d) with None => Ok tt | Some e => Err e end.
  Proof.
    intros E0 a t name v b S O K.
    exists (dset (dicts (final s a) t) name v). split; [|split; [|split]].
    - rewrite final_app, final_cons, file_kept by auto.
      rewrite archive_file, S, O, str_eqb_refl. reflexivity.
    - apply (NoDup_dset _ name v). apply dicts_latest; auto.
    - intros n x. destruct (dicts_latest s (a ++ [Archive t name v]) E0 t) as [_ G]. rewrite <- G.
      rewrite final_snoc, archive_dict, S, Nat.eqb_refl. reflexivity.
    - rewrite archive_result, S, O. reflexivity.
  Qed.

  (** Read back, when only one tool writes the file. *)
  Lemma file_of_tool s t ops : (forall u, dicts s u = []) -> opens (path t) = true ->
    (forall u n v, In (Archive u n v) ops -> u <> t -> selected u n = true -> path u <> path t) ->
    dicts (final s ops) t <> [] ->
    disk (final s ops) (path t) = Some (fst (dump (dicts (final s ops) t))).
  Proof.
    intros E0 O. induction ops as [|x ops IH] using rev_ind; intros One N.
    - exfalso. apply N. apply E0.
    - assert (One' : forall u n v, In (Archive u n v) ops -> u <> t -> selected u n = true -> path u <> path t).
      { intros u n v I. apply (One u n v), in_or_app. now left. }
      rewrite final_app, final_cons in *.
      change (final (snd (stepm (final s ops) x)) []) with (snd (stepm (final s ops) x)) in *.
      destruct x as [u n v|]; [|exfalso; now apply N].
      rewrite archive_dict in *. rewrite archive_file.
      destruct (Nat.eqb_spec t u) as [<-|D]; cbn [andb] in *.
      + destruct (selected t n); [|auto]. rewrite O, str_eqb_refl. reflexivity.
      + destruct (selected u n) eqn:S; [|auto]. rewrite O.
        assert (path u <> path t) by (eapply One; eauto; apply in_or_app; right; now left).
        destruct (str_eqb_spec (path t) (path u)); [congruence|]. auto.
  Qed.

  Theorem read_latest s load t ops : (forall u, dicts s u = []) -> faithful dump load ->
    (forall d, snd (dump d) = None) -> opens (path t) = true ->
    (forall u n v, In (Archive u n v) ops -> u <> t -> selected u n = true -> path u <> path t) ->
    (exists n v, latest selected ops t n v) ->
    exists bytes d, disk (final s ops) (path t) = Some bytes /\ load bytes = Ok d /\
      forall n x, dget d n = Some x <-> latest selected ops t n x.
  Proof.
    intros E0 F A O One (n & v & Lt).
    destruct (dicts_latest s ops E0 t) as [_ G]. apply G in Lt.
    exists (fst (dump (dicts (final s ops) t))), (dicts (final s ops) t). split; [|split].
    - apply file_of_tool; auto. intros E. rewrite E in Lt. discriminate.
    - apply F, A.
    - apply G.
  Qed.

  (** A process that dies when the file has just been opened leaves it empty. *)
  Theorem crash_empties s t name v : selected t name = true -> opens (path t) = true ->
    disk (crash dump selected path opens s t name v 0) (path t) = Some [].
  Proof. intros S O. unfold crash. rewrite S, O. cbn. now rewrite str_eqb_refl. Qed.

  (** What cannot be pickled stays in the dictionary. *)
  Theorem stuck s t bad : (forall d e, In (e, bad) d -> exists x, snd (dump d) = Some x) ->
    opens (path t) = true ->
    forall ops n, dget (dicts s t) n = Some bad ->
    (forall v, ~ In (Archive t n v) ops) -> ~ In Restart ops ->
    forall m u k v r, nth_error ops m = Some (Archive u k v) -> u = t -> selected t k = true ->
    nth_error (fst (runm s ops)) m = Some r -> exists e, r = Err e.
  Proof.
    intros Bad O ops. revert s. induction ops as [|x ops IH]; intros s n G NA NR m u k v r Em -> S R;
      [destruct m; discriminate|].
    cbn [run] in R. destruct (stepm s x) as [r1 s1] eqn:ES. destruct (runm s1 ops) as [rs s2] eqn:ER.
    destruct m as [|m]; cbn in Em, R.
    - injection Em as ->. injection R as <-. pose proof (archive_result s t k v) as AR. rewrite ES, S, O in AR.
      cbn in AR. destruct (Bad (dset (dicts s t) k v) n) as [e E].
      { apply dget_In. rewrite dget_dset. destruct (str_eqb_spec n k) as [->|]; [|exact G].
        exfalso. apply (NA v). now left. }
      rewrite E in AR. eauto.
    - apply (IH s1 n) with (m := m) (u := t) (k := k) (v := v); auto.
      + assert (Es : s1 = snd (stepm s x)) by now rewrite ES. rewrite Es.
        destruct x as [u' n' v'|]; [|exfalso; apply NR; now left].
        rewrite archive_dict. destruct (Nat.eqb_spec t u') as [<-|]; cbn [andb]; [|exact G].
        destruct (selected t n'); [|exact G]. rewrite dget_dset.
        destruct (str_eqb_spec n n') as [->|]; [|exact G]. exfalso. apply (NA v'). now left.
      + intros v' I. apply (NA v'). now right.
      + intros I. apply NR. now right.
      + now rewrite ER.
  Qed.
  Lemma crash_exact s t name v k :
    let s' := crash dump selected path opens s t name v k in
    (forall u, dicts s' u = []) /\
    (forall p, (p <> path t \/ selected t name = false \/ opens (path t) = false) -> disk s' p = disk s p) /\
    (selected t name = true -> opens (path t) = true ->
     exists whole rest, disk s' (path t) = Some whole /\ length whole <= k /\
       disk (snd (step dump selected path opens s (Archive t name v))) (path t) = Some (whole ++ rest) /\
       (length whole < k -> rest = [])).
  Proof.
    cbn zeta. unfold crash. split; [|split].
    - intro u. destruct (selected t name && opens (path t)); reflexivity.
    - intros p H. destruct (selected t name) eqn:E1; destruct (opens (path t)) eqn:E2; cbn [andb]; try reflexivity.
      destruct H as [H|[H|H]]; [|discriminate|discriminate]. cbn. destruct (str_eqb_spec p (path t)); [congruence|reflexivity].
    - intros E1 E2. rewrite E1, E2. cbn [andb]. set (l := fst (dump (dset (dicts s t) name v))).
      exists (firstn k l), (skipn k l). split; [|split; [|split]].
      + cbn. rewrite str_eqb_refl. reflexivity.
      + rewrite firstn_length. lia.
      + rewrite firstn_skipn, archive_file, E1, E2, str_eqb_refl. reflexivity.
      + rewrite firstn_length. intro H. apply skipn_all2. lia.
  Qed.
End P.
