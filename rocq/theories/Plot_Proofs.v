(** Proofs about the pictures of the energy profiles. *)
From Coq Require Import String Ascii List ZArith Reals Bool Arith Lia Lra.
Import ListNotations.
From Verif Require Import PyBase PyBaseFacts PyReal Plot_Model Plot_Spec.
From Verif Require Fmt_Proofs.
Local Open Scope list_scope.
Local Open Scope nat_scope.

Lemma cut_at (c : ascii) p q x y : ~ In c p -> ~ In c q -> p ++ c :: x = q ++ c :: y -> p = q.
Proof.
  revert q. induction p as [|a p IH]; intros [|b q] Hp Hq E.
  - reflexivity.
  - injection E as <- _. elim Hq. now left.
  - injection E as -> _. elim Hp. now left.
  - injection E as <- E. f_equal. apply IH; [intro H; apply Hp; now right|intro H; apply Hq; now right|exact E].
Qed.

Lemma nat_digits i : forallb is_digit (str_of_Z (Z.of_nat i)) = true.
Proof. destruct i; cbn [Z.of_nat str_of_Z]; apply dec_digits. Qed.

Lemma no_bar i : ~ In "_"%char (str_of_Z (Z.of_nat i)).
Proof.
  intro H. pose proof (nat_digits i) as D. rewrite forallb_forall in D. specialize (D _ H). discriminate.
Qed.

Lemma file_index i j a b : file_of i a = file_of j b -> i = j.
Proof.
  intro H. unfold file_of in H. apply app_inv_head in H.
  change (L "_" ++ a ++ L ".png") with ("_"%char :: (a ++ L ".png")) in H.
  change (L "_" ++ b ++ L ".png") with ("_"%char :: (b ++ L ".png")) in H.
  apply cut_at in H; [|apply no_bar|apply no_bar]. apply Fmt_Proofs.str_of_Z_inj in H. lia.
Qed.
Lemma file_rxn i a b : file_of i a = file_of i b -> a = b.
Proof. unfold file_of. intro H. do 3 apply app_inv_head in H. now apply app_inv_tail in H. Qed.

Lemma states_iff Ga dG l : states_of Ga dG l <-> l = states Ga dG.
Proof.
  unfold states, Rltb. destruct (Rlt_dec (Rabs Ga) (/ 100000)) as [H|H]; split.
  - intro S. destruct S; [reflexivity|lra].
  - intros ->. now constructor.
  - intro S. destruct S; [lra|reflexivity].
  - intros ->. constructor. lra.
Qed.

Lemma zip3_nth {A B C} (a : list A) (b : list B) (c : list C) i x y z :
  nth_error (zip3 a b c) i = Some (x, y, z) <->
  nth_error a i = Some x /\ nth_error b i = Some y /\ nth_error c i = Some z.
Proof.
  revert b c i. induction a as [|x0 a IH]; intros [|y0 b] [|z0 c] [|i]; cbn; try (split; [discriminate|intros [? [? ?]]; discriminate]).
  - split; [intro H; injection H as -> -> ->; auto|intros [H1 [H2 H3]]; congruence].
  - apply IH.
Qed.
Lemma zip3_length {A B C} (a : list A) (b : list B) (c : list C) :
  length (zip3 a b c) = min (length a) (min (length b) (length c)).
Proof.
  revert b c. induction a as [|x a IH]; intros [|y b] [|z c]; cbn; try reflexivity; now rewrite IH.
Qed.

Section Plot.
Context {value picture : Type}.
Variable draw : list R -> str -> dict value -> res picture.
Variable savable : str -> bool.
Notation plot_loop := (plot_loop draw savable).
Notation album := (@album picture).

Lemma image_file i rxn : image_name i rxn = file_of i rxn.
Proof. reflexivity. Qed.

Lemma loop_spec kwargs (Hk : dmem kwargs (L "rxn_equation") = false) l : forall idx (a a' : album) r,
  plot_loop kwargs idx l a = (a', r) ->
  exists n, n <= length l /\
  (forall i rxn Ga dG, i < n -> nth_error l i = Some (rxn, Ga, dG) ->
    exists pic, draw (states Ga dG) rxn kwargs = Ok pic /\ savable (file_of (idx + i) rxn) = true /\
      dget a' (file_of (idx + i) rxn) = Some pic) /\
  (forall name, (forall i rxn Ga dG, i < n -> nth_error l i = Some (rxn, Ga, dG) -> name <> file_of (idx + i) rxn) ->
    dget a' name = dget a name) /\
  match r with
  | Ok _ => n = length l
  | Err e => exists rxn Ga dG, nth_error l n = Some (rxn, Ga, dG) /\
      (draw (states Ga dG) rxn kwargs = Err e \/
       (e = IOError /\ (exists pic, draw (states Ga dG) rxn kwargs = Ok pic) /\ savable (file_of (idx + n) rxn) = false))
  end.
Proof.
  induction l as [|[[rxn Ga] dG] l IH]; intros idx a a' r H; cbn [Plot_Model.plot_loop] in H.
  - injection H as <- <-. exists 0. split; [reflexivity|]. split; [intros; lia|]. split; [reflexivity|reflexivity].
  - rewrite Hk in H. destruct (draw (states Ga dG) rxn kwargs) as [pic|e] eqn:Ed.
    2: { injection H as <- <-. exists 0. split; [lia|]. split; [intros; lia|]. split; [reflexivity|].
         exists rxn, Ga, dG. split; [reflexivity|]. now left. }
    rewrite image_file in H. destruct (savable (file_of idx rxn)) eqn:Es.
    2: { injection H as <- <-. exists 0. split; [lia|]. split; [intros; lia|]. split; [reflexivity|].
         exists rxn, Ga, dG. split; [reflexivity|]. right. rewrite Nat.add_0_r. eauto. }
    destruct (IH _ _ _ _ H) as [n [Hn [H1 [H2 H3]]]]. exists (S n). split; [cbn; lia|]. split; [|split].
    + intros [|i] rx ga dg Hi Hx; cbn in Hx.
      * injection Hx as <- <- <-. rewrite Nat.add_0_r. exists pic. split; [exact Ed|]. split; [exact Es|].
        rewrite H2; [|intros j rx' ga' dg' _ _ E; apply file_index in E; lia].
        rewrite dget_dset, str_eqb_refl. reflexivity.
      * replace (idx + S i) with (S idx + i) by lia. apply H1 with (Ga := ga) (dG := dg); [lia|exact Hx].
    + intros name Hname. rewrite H2.
      * rewrite dget_dset. destruct (str_eqb name (file_of idx rxn)) eqn:E; [|reflexivity].
        apply str_eqb_eq in E. exfalso. apply (Hname 0 rxn Ga dG); [lia|reflexivity|].
        now rewrite Nat.add_0_r.
      * intros i rx ga dg Hi Hx E. apply (Hname (S i) rx ga dg); [lia|exact Hx|].
        replace (idx + S i) with (S idx + i) by lia. exact E.
    + destruct r as [u|e]; [cbn; lia|]. destruct H3 as [rx [ga [dg [Hx Hd]]]].
      exists rx, ga, dg. split; [exact Hx|]. replace (idx + S n) with (S idx + n) by lia. exact Hd.
Qed.

Lemma plot_spec kwargs rxns energies gaf dg dir (a : album) :
  dmem kwargs (L "rxn_equation") = false ->
  dget energies (L "Gaf") = Some gaf -> dget energies (L "dG") = Some dg ->
  exists n a' r, plot_all draw savable kwargs rxns energies dir a = (true, a', r) /\
  n <= min (length rxns) (min (length gaf) (length dg)) /\
  (forall i rxn Ga dG, i < n -> reaction rxns gaf dg i rxn Ga dG ->
    exists st pic, states_of Ga dG st /\ draw st rxn kwargs = Ok pic /\ dget a' (file_of i rxn) = Some pic) /\
  (forall name, (forall i rxn, i < n -> nth_error rxns i = Some rxn -> name <> file_of i rxn) ->
    dget a' name = dget a name) /\
  match r with
  | Ok _ => n = min (length rxns) (min (length gaf) (length dg))
  | Err e => exists rxn Ga dG st, reaction rxns gaf dg n rxn Ga dG /\ states_of Ga dG st /\
      (draw st rxn kwargs = Err e \/
       (e = IOError /\ (exists pic, draw st rxn kwargs = Ok pic) /\ savable (file_of n rxn) = false))
  end.
Proof.
  intros Hk Hg Hd. unfold plot_all, dindex. rewrite Hg, Hd.
  destruct (plot_loop kwargs 0 (zip3 rxns gaf dg) a) as [a' r] eqn:E.
  destruct (loop_spec kwargs Hk _ _ _ _ _ E) as [n [Hn [H1 [H2 H3]]]]. rewrite zip3_length in Hn.
  exists n, a', r. split; [reflexivity|]. split; [exact Hn|]. split; [|split].
  - intros i rxn Ga dG Hi Hr. apply zip3_nth in Hr. destruct (H1 i rxn Ga dG Hi Hr) as [pic [Hp [_ Hq]]].
    exists (states Ga dG), pic. split; [now apply states_iff|]. now split.
  - intros name Hname. apply H2. intros i rxn Ga dG Hi Hx. apply Hname; [exact Hi|].
    apply zip3_nth in Hx. now destruct Hx.
  - destruct r as [u|e]; [now rewrite zip3_length in H3|]. destruct H3 as [rxn [Ga [dG [Hx Hd']]]].
    exists rxn, Ga, dG, (states Ga dG). split; [now apply zip3_nth|]. split; [now apply states_iff|]. exact Hd'.
Qed.

Lemma plot_missing kwargs rxns energies dir (a : album) :
  dget energies (L "Gaf") = None \/ dget energies (L "dG") = None ->
  plot_all draw savable kwargs rxns energies dir a = (true, a, Err KeyError).
Proof.
  unfold plot_all, dindex. intros [H|H]; rewrite H; [|destruct (dget energies (L "Gaf"))]; reflexivity.
Qed.

Lemma plot_twice kwargs rxns energies gaf dg dir (a : album) :
  dget energies (L "Gaf") = Some gaf -> dget energies (L "dG") = Some dg ->
  dmem kwargs (L "rxn_equation") = true -> rxns <> [] -> gaf <> [] -> dg <> [] ->
  plot_all draw savable kwargs rxns energies dir a = (true, a, Err TypeError).
Proof.
  intros Hg Hd Hk H1 H2 H3. unfold plot_all, dindex. rewrite Hg, Hd.
  destruct rxns, gaf, dg; try contradiction. cbn [zip3 Plot_Model.plot_loop]. now rewrite Hk.
Qed.
End Plot.
