(** Proofs about written reactions, species tables and gas lists. *)
From Coq Require Import String Ascii List ZArith Bool Arith Lia Permutation.
Import ListNotations.
From Verif Require Import PyBase PyBaseFacts Regex RegexFacts Rxn_Model Rxn_Spec Rxn_Proofs Rxn_Count.

(** ** Blanks *)
Lemma strip_decompose s :
  exists p q, s = p ++ strip s ++ q /\ forallb is_space p = true /\ forallb is_space q = true.
Proof.
  destruct (lstrip_suffix s) as (p & Hp & Hb).
  destruct (lstrip_suffix (rev (lstrip s))) as (q & Hq & Hbq).
  exists p, (rev q). unfold strip. split.
  - rewrite Hp at 1. f_equal. rewrite <- (rev_involutive (lstrip s)) at 1.
    rewrite Hq at 1. now rewrite rev_app_distr.
  - split; auto. now rewrite forallb_rev.
Qed.

Lemma strip_pad a s b :
  forallb is_space a = true -> forallb is_space b = true -> strip (a ++ s ++ b) = strip s.
Proof.
  intros Ha Hb. destruct (strip_decompose s) as (p & q & Hs & Hp & Hq).
  rewrite Hs at 1.
  replace (a ++ (p ++ strip s ++ q) ++ b) with ((a ++ p) ++ strip s ++ (q ++ b))
    by (rewrite <- !app_assoc; reflexivity).
  apply strip_padded; auto using strip_stripped; rewrite forallb_app; now rewrite ?Ha, ?Hb, ?Hp, ?Hq.
Qed.

Lemma strip_blank_r s : strip (s ++ L " ") = strip s.
Proof. exact (strip_pad [] s (L " ") eq_refl eq_refl). Qed.
Lemma strip_blank_l s : strip (L " " ++ s) = strip s.
Proof. rewrite <- (app_nil_r s) at 1. exact (strip_pad (L " ") s [] eq_refl eq_refl). Qed.
Lemma strip_blank_lr s : strip (L " " ++ s ++ L " ") = strip s.
Proof. exact (strip_pad (L " ") s (L " ") eq_refl eq_refl). Qed.

Lemma state_split_pad p t ts :
  forallb is_space p = true -> ~ In "+"%char p ->
  Forall (fun w => ~ In "+"%char w) (t :: ts) ->
  state_split (p ++ join (L " + ") (t :: ts)) = map strip (t :: ts).
Proof.
  revert p t; induction ts as [|t2 ts IH]; intros p t Hp Hn H; inversion H as [|? ? Ht Hts]; subst.
  - cbn [join map]. unfold state_split. rewrite split_on_none.
    + cbn [map]. f_equal. rewrite <- (app_nil_r t) at 1. now apply strip_pad.
    + rewrite in_app_iff. tauto.
  - change (join (L " + ") (t :: t2 :: ts)) with (t ++ L " + " ++ join (L " + ") (t2 :: ts)).
    replace (p ++ t ++ L " + " ++ join (L " + ") (t2 :: ts))
      with ((p ++ t ++ L " ") ++ "+"%char :: (L " " ++ join (L " + ") (t2 :: ts)))
      by (rewrite <- !app_assoc; reflexivity).
    unfold state_split. rewrite split_on_app.
    + cbn [map]. f_equal; [now apply strip_pad|].
      change (map strip (split_on "+" (L " " ++ join (L " + ") (t2 :: ts))))
        with (state_split (L " " ++ join (L " + ") (t2 :: ts))).
      rewrite IH; auto. intros [E|[]]; discriminate.
    + rewrite !in_app_iff. intros [G|[G|[E|[]]]]; auto. discriminate.
Qed.

Lemma state_split_write ts :
  ts <> [] -> Forall (fun w => ~ In "+"%char w) ts -> state_split (write_state ts) = map strip ts.
Proof.
  destruct ts as [|t ts]; [congruence|]. intros _ H. apply (state_split_pad [] t ts); auto.
Qed.

Lemma state_split_strip st : state_split (strip st) = state_split st.
Proof.
  destruct (strip_decompose st) as (p & q & Hs & Hp & Hq).
  rewrite Hs at 2. clear Hs.
  assert (Hnp : forall b, forallb is_space b = true -> ~ In "+"%char b).
  { intros b Hb Hin. rewrite forallb_forall in Hb. apply Hb in Hin. discriminate. }
  unfold state_split.
  (* blanks at either end disappear with the strip of the first and last piece *)
  assert (G : forall s a, forallb is_space a = true ->
    map strip (split_on "+" (a ++ s)) = map strip (split_on "+" s)).
  { intros s a Ha. induction a as [|c a IH]; auto. cbn [forallb] in Ha.
    apply andb_true_iff in Ha as [Hc Ha]. specialize (IH Ha). cbn [app split_on].
    destruct (Ascii.eqb_spec c "+") as [->|]; [discriminate|].
    destruct (split_on "+" (a ++ s)) as [|w ws] eqn:E; [now apply split_on_nonnil in E|].
    rewrite <- IH. cbn [map]. f_equal.
    rewrite <- (app_nil_r w) at 1. apply (strip_pad [c] w []); cbn; rewrite ?Hc; auto. }
  assert (G2 : forall s b, forallb is_space b = true ->
    map strip (split_on "+" (s ++ b)) = map strip (split_on "+" s)).
  { intros s b Hb. induction s as [|c s IH].
    - cbn [app]. rewrite split_on_none by auto. cbn [map split_on]. f_equal.
      rewrite <- (app_nil_r b). apply (strip_pad b [] []); auto.
    - cbn [app split_on]. destruct (Ascii.eqb c "+").
      + cbn [map]. now rewrite IH.
      + destruct (split_on "+" (s ++ b)) as [|w ws] eqn:E; [now apply split_on_nonnil in E|].
        destruct (split_on "+" s) as [|w2 ws2] eqn:E2; [now apply split_on_nonnil in E2|].
        destruct ws2 as [|w3 ws2].
        * assert (Hs : s = w2) by (rewrite <- (join_split_on "+" s), E2; reflexivity).
          subst w2. assert (Hn : ~ In "+"%char s).
          { pose proof (split_on_no_sep "+" s) as F. rewrite E2 in F. now inversion F. }
          rewrite split_on_none in E by (rewrite in_app_iff; intros [?|?]; [auto|now apply (Hnp b)]).
          injection E as <- <-. cbn [map]. f_equal.
          apply (strip_pad [] (c :: s) b); auto.
        * (* the first piece is the same *)
          assert (Hw : w = w2).
          { clear IH. assert (Hs : s = w2 ++ "+"%char :: join (L "+") (w3 :: ws2)).
            { rewrite <- (join_split_on "+" s), E2. reflexivity. }
            pose proof (split_on_no_sep "+" s) as F. rewrite E2 in F. inversion F as [|? ? Hn _]; subst.
            rewrite <- app_assoc in E. cbn [app] in E. rewrite split_on_app in E by auto.
            congruence. }
          subst w2. cbn [map] in *. injection IH as IH. now rewrite IH. }
  rewrite G, G2; auto.
Qed.

Lemma write_rxn_tolist sts :
  two_or_three sts -> Forall no_angle sts -> Forall nonblank sts ->
  rxn_tolist (write_rxn sts) = Ok (map strip sts).
Proof.
  assert (NB : forall s, nonblank s -> s <> []).
  { intros s H ->. apply H. reflexivity. }
  intros Hl HA HB. destruct sts as [|a [|b [|c [|? ?]]]]; destruct Hl as [Hl|Hl]; try discriminate; clear Hl.
  - inversion HA as [|? ? A1 HA2]; inversion HA2 as [|? ? A2 _]; subst.
    inversion HB as [|? ? B1 HB2]; inversion HB2 as [|? ? B2 _]; subst.
    cbn [write_rxn].
    replace (a ++ L " -> " ++ b) with ((a ++ L " ") ++ arrow_text Single ++ (L " " ++ b))
      by (rewrite <- app_assoc; reflexivity).
    rewrite tolist2 by auto using no_angle_app, no_angle_blank.
    rewrite nonempty_states_all by (repeat constructor; destruct a; discriminate).
    cbn [map]. now rewrite (strip_blank_r a), (strip_blank_l b).
  - inversion HA as [|? ? A1 HA2]; inversion HA2 as [|? ? A2 HA3]; inversion HA3 as [|? ? A3 _]; subst.
    inversion HB as [|? ? B1 HB2]; inversion HB2 as [|? ? B2 HB3]; inversion HB3 as [|? ? B3 _]; subst.
    cbn [write_rxn].
    replace (a ++ L " <-> " ++ b ++ L " -> " ++ c)
      with ((a ++ L " ") ++ arrow_text Double ++ (L " " ++ b ++ L " ")
            ++ arrow_text Single ++ (L " " ++ c))
      by (rewrite <- !app_assoc; reflexivity).
    rewrite tolist3 by auto 6 using no_angle_app, no_angle_blank.
    rewrite nonempty_states_all by (repeat constructor; destruct a; discriminate).
    cbn [map]. now rewrite (strip_blank_r a), (strip_blank_lr b), (strip_blank_l c).
Qed.

(** C03 in the two shapes. *)
Lemma tolist2_nonblank a ar b :
  no_angle a -> no_angle b -> nonblank a -> nonblank b ->
  rxn_tolist (a ++ arrow_text ar ++ b) = Ok [strip a; strip b].
Proof.
  intros A B NA NB. rewrite tolist2 by auto. rewrite nonempty_states_all; auto.
  repeat constructor; intros ->; [apply NA|apply NB]; reflexivity.
Qed.
Lemma tolist3_nonblank a ar b ar2 c :
  no_angle a -> no_angle b -> no_angle c -> nonblank a -> nonblank b -> nonblank c ->
  rxn_tolist (a ++ arrow_text ar ++ b ++ arrow_text ar2 ++ c) = Ok [strip a; strip b; strip c].
Proof.
  intros A B C NA NB NC. rewrite tolist3 by auto. rewrite nonempty_states_all; auto.
  repeat constructor; intros ->; [apply NA|apply NB|apply NC]; reflexivity.
Qed.

(** No arrow: AttributeError, and only then. *)
Lemma tolist_error e er :
  rxn_tolist e = Err er -> er = AttributeError /\ forall a b, e <> a ++ L "->" ++ b.
Proof.
  unfold rxn_tolist. destruct (search states_regex e) eqn:E; [discriminate|].
  intro H; injection H as <-. split; auto. intros a b ->.
  apply (proj1 (search_None _ _) E a (L "->" ++ b) b eq_refl).
  unfold states_regex. eapply den_seq; [constructor; apply (den_star not_angle []); reflexivity|].
  eapply den_seq.
  { unfold arrow_regex, ROpt. eapply den_seq; [apply den_altr; constructor|].
    eapply den_seq; apply den_chr; reflexivity. }
  eapply den_seq; [apply den_altr; constructor|].
  constructor. apply (den_star not_angle []). reflexivity.
Qed.

Lemma revert_text e :
  match rxn_tolist e with
  | Ok sts => two_or_three sts -> rxn_revert e = Ok (write_rxn (rev sts))
  | Err er => rxn_revert e = Err er
  end.
Proof.
  unfold rxn_revert, two_or_three. destruct (rxn_tolist e) as [sts|]; cbn [bind]; auto.
  rewrite <- (rev_length sts). intro H.
  destruct (rev sts) as [|a [|b [|c [|? ?]]]]; cbn in H; try lia; reflexivity.
Qed.

Lemma revert_two_or_three e e' sts :
  rxn_revert e = Ok e' -> rxn_tolist e = Ok sts -> two_or_three sts.
Proof.
  unfold rxn_revert, two_or_three. intros H E. rewrite E in H. cbn [bind] in H.
  rewrite <- (rev_length sts). destruct (rev sts) as [|a [|b [|c [|? ?]]]]; try discriminate; cbn; lia.
Qed.

Lemma revert_full e sts :
  rxn_tolist e = Ok sts -> two_or_three sts ->
  rxn_revert e = Ok (write_rxn (rev sts)) /\
  rxn_tolist (write_rxn (rev sts)) = Ok (rev sts) /\
  rxn_revert (write_rxn (rev sts)) = Ok (write_rxn sts) /\
  rxn_tolist (write_rxn sts) = Ok sts.
Proof.
  intros E Hl. pose proof (revert_text e) as R. rewrite E in R. specialize (R Hl).
  destruct (revert_states e sts E Hl) as (e2 & H2 & H3).
  assert (e2 = write_rxn (rev sts)) by congruence. subst e2.
  assert (Hl2 : two_or_three (rev sts)) by (unfold two_or_three; now rewrite rev_length).
  pose proof (revert_text (write_rxn (rev sts))) as R2. rewrite H3 in R2. specialize (R2 Hl2).
  rewrite rev_involutive in R2. repeat split; auto.
  destruct (revert_states _ _ H3 Hl2) as (e3 & H4 & H5). rewrite rev_involutive in H5.
  congruence.
Qed.

(** ** Permuting the formulas of the states *)
Lemma word_state_ok ts :
  ts <> [] -> Forall formula_word ts -> no_angle (write_state ts) /\ nonblank (write_state ts).
Proof.
  intros Hn H. split.
  - induction H as [|t ts [_ [Ht _]] H IH]; [congruence|].
    destruct ts as [|t2 ts]; [exact Ht|].
    change (write_state (t :: t2 :: ts)) with (t ++ L " + " ++ write_state (t2 :: ts)).
    apply no_angle_app; auto. apply no_angle_app; [|apply IH; discriminate].
    split; intros [E|[E|[E|[]]]]; discriminate.
  - destruct H as [|t ts [Ht _] H]; [congruence|]. unfold nonblank in *.
    intro E. apply Ht. clear Hn H.
    destruct ts as [|t2 ts]; [exact E|].
    change (write_state (t :: t2 :: ts)) with (t ++ L " + " ++ write_state (t2 :: ts)) in E.
    exfalso. destruct (strip_decompose (t ++ L " + " ++ write_state (t2 :: ts))) as (p & q & Hs & Hp & Hq).
    rewrite E in Hs. cbn [app] in Hs.
    assert (Hin : In "+"%char (p ++ q)).
    { rewrite <- Hs. rewrite !in_app_iff. right. left. cbn. auto. }
    assert (Hb : forallb is_space (p ++ q) = true) by (rewrite forallb_app, Hp, Hq; auto).
    rewrite forallb_forall in Hb. apply Hb in Hin. discriminate.
Qed.

Lemma check_perm tss1 tss2 :
  two_or_three tss1 ->
  Forall (fun ts => ts <> [] /\ Forall formula_word ts) tss1 ->
  Forall2 (@Permutation str) tss1 tss2 ->
  (rxn_check_conservation (write_rxn (map write_state tss1)) = Ok true <->
   rxn_check_conservation (write_rxn (map write_state tss2)) = Ok true).
Proof.
  assert (Dir : forall tss1 tss2, two_or_three tss1 ->
    Forall (fun ts => ts <> [] /\ Forall formula_word ts) tss1 ->
    Forall2 (@Permutation str) tss1 tss2 ->
    two_or_three tss2 /\ Forall (fun ts => ts <> [] /\ Forall formula_word ts) tss2 /\
    (rxn_check_conservation (write_rxn (map write_state tss1)) = Ok true ->
     rxn_check_conservation (write_rxn (map write_state tss2)) = Ok true)).
  { clear tss1 tss2. intros tss1 tss2 Hl HF P.
    assert (Hl2 : two_or_three tss2).
    { unfold two_or_three in *. now rewrite <- (Forall2_length _ _ _ P). }
    assert (HF2 : Forall (fun ts => ts <> [] /\ Forall formula_word ts) tss2).
    { clear Hl Hl2. induction P as [|a b l1 l2 Hab P IH]; auto.
      inversion HF as [|? ? [Hn Hw] HF']; subst. constructor; auto. split.
      - intros ->. apply Permutation_sym, Permutation_nil in Hab. congruence.
      - rewrite Forall_forall in *. intros x Hx. apply Hw.
        now apply (Permutation_in x (Permutation_sym Hab)). }
    repeat split; auto.
    assert (T : forall tss, two_or_three tss ->
      Forall (fun ts => ts <> [] /\ Forall formula_word ts) tss ->
      rxn_tolist (write_rxn (map write_state tss)) = Ok (map strip (map write_state tss))).
    { intros tss Hlen HFF. apply write_rxn_tolist.
      - unfold two_or_three in *. now rewrite map_length.
      - rewrite Forall_map. eapply Forall_impl; [|exact HFF]. intros ts [H1 H2].
        now apply word_state_ok.
      - rewrite Forall_map. eapply Forall_impl; [|exact HFF]. intros ts [H1 H2].
        now apply word_state_ok. }
    eapply check_perm_states; [now apply T|now apply T| |].
    - rewrite !map_length. destruct Hl; lia.
    - clear Hl Hl2 T. induction P as [|a b l1 l2 Hab P IH]; cbn [map]; [constructor|].
      inversion HF as [|? ? [Hn Hw] HF']; subst. inversion HF2 as [|? ? [Hn2 Hw2] HF2']; subst.
      constructor; auto.
      rewrite !state_split_strip, !state_split_write; auto.
      + now apply Permutation_map.
      + eapply Forall_impl; [|exact Hw2]. now intros t (_ & _ & ?).
      + eapply Forall_impl; [|exact Hw]. now intros t (_ & _ & ?). }
  intros Hl HF P. destruct (Dir _ _ Hl HF P) as (Hl2 & HF2 & D1). split; auto.
  apply Dir; auto. clear -P. induction P; constructor; auto. now apply Permutation_sym.
Qed.

(** ** Species table *)
Lemma fold_dset_last (fs : list formula) d name :
  dget (fold_left (fun d f => dset d (f_species_site f) (f_stoich f)) fs d) name
  = match find (fun f => str_eqb (f_species_site f) name) (rev fs) with
    | Some f => Some (f_stoich f)
    | None => dget d name
    end.
Proof.
  revert d; induction fs as [|f fs IH]; intro d; cbn [fold_left rev]; auto.
  rewrite IH. clear IH.
  assert (F : forall l, find (fun f0 => str_eqb (f_species_site f0) name) (l ++ [f])
     = match find (fun f0 => str_eqb (f_species_site f0) name) l with
       | Some g => Some g
       | None => if str_eqb (f_species_site f) name then Some f else None end).
  { induction l as [|x l IHl]; cbn [find app]; auto.
    destruct (str_eqb (f_species_site x) name); auto. }
  rewrite F. destruct (find _ (rev fs)) as [g|]; auto. rewrite dget_dset.
  rewrite (str_eqb_sym name). destruct (str_eqb (f_species_site f) name); auto.
Qed.

Lemma species_table_total fs name :
  NoDup (map f_species_site fs) -> In name (map f_species_site fs) ->
  dget (fold_left (fun d f => dset d (f_species_site f) (f_stoich f)) fs []) name
  = Some (total_of_species name fs).
Proof.
  rewrite fold_dset_last. intros N Hin.
  assert (E : forall l, NoDup (map f_species_site l) -> In name (map f_species_site l) ->
    exists f, find (fun f0 => str_eqb (f_species_site f0) name) l = Some f /\
              f_stoich f = total_of_species name l).
  { clear. unfold total_of_species. induction l as [|x l IH]; cbn [map find sum_Z]; intros N H; [destruct H|].
    inversion N as [|? ? Hn N']; subst. destruct (str_eqb_spec (f_species_site x) name) as [E|E].
    - exists x. split; auto.
      assert (Z0 : sum_Z (map (fun f => if str_eqb (f_species_site f) name then f_stoich f else 0%Z) l) = 0%Z).
      { subst name. clear -Hn. induction l as [|y l IH]; auto. cbn [map sum_Z].
        cbn [map In] in Hn. destruct (str_eqb_spec (f_species_site y) (f_species_site x)); [exfalso; auto|].
        rewrite IH; auto. }
      rewrite Z0. lia.
    - destruct H as [H|H]; [congruence|]. destruct (IH N' H) as (f & H1 & H2). exists f.
      split; auto. }
  destruct (E (rev fs)) as (f & -> & ->).
  - rewrite map_rev. eapply Permutation_NoDup; [apply Permutation_rev|exact N].
  - rewrite map_rev. now apply -> in_rev.
  - f_equal. unfold total_of_species. apply sum_Z_perm, Permutation_map, Permutation_sym, Permutation_rev.
Qed.


Lemma species_table_keys fs name :
  In name (keys (fold_left (fun d f => dset d (f_species_site f) (f_stoich f)) fs [])) <->
  In name (map f_species_site fs).
Proof.
  assert (G : forall d, In name (keys (fold_left (fun d f => dset d (f_species_site f) (f_stoich f)) fs d)) <->
     In name (keys d) \/ In name (map f_species_site fs)).
  { induction fs as [|f fs IH]; intro d; cbn [fold_left map In]; [tauto|].
    rewrite IH, keys_dset_In. intuition congruence. }
  rewrite G. cbn. tauto.
Qed.

(** ** Gas lists *)
Lemma is_gas_iff f : is_gas f = true <-> f_site f = L "g".
Proof.
  unfold is_gas, formula_type. destruct (str_eqb_spec (f_site f) (L "g")) as [->|E].
  - tauto.
  - destruct (str_eqb (f_site f) (L "l")); [split; [discriminate|tauto]|].
    destruct (has_char "*" (f_species_site f)); split; try discriminate; tauto.
Qed.

Lemma gases_revert e e' :
  rxn_revert e = Ok e' -> forall fls, rxn_formula_list e = Ok fls ->
  rxn_adsorption_gases e' = rxn_desorption_gases e /\
  rxn_desorption_gases e' = rxn_adsorption_gases e.
Proof.
  intros Hr fls F. pose proof (revert_formula_list e e' fls Hr F) as F'.
  unfold rxn_adsorption_gases, rxn_desorption_gases. rewrite F, F'. cbn [bind].
  now rewrite lfirst_rev, llast_rev.
Qed.

(** ** Forms used in the property file *)
Lemma formula_reject s : ~ has_site_marker s -> parse_formula s = Err ChemFormulaError.
Proof.
  intro H. destruct (parse_formula s) as [f|e] eqn:E.
  - exfalso. apply H, formula_accept. eauto.
  - now rewrite (formula_error s e E).
Qed.

Lemma tolist_total e :
  (exists sts, rxn_tolist e = Ok sts) \/
  (rxn_tolist e = Err AttributeError /\ forall a b, e <> a ++ L "->" ++ b).
Proof.
  destruct (rxn_tolist e) as [sts|er] eqn:E; eauto.
  right. apply tolist_error in E as [-> H]. auto.
Qed.

Lemma tolist_four_states : exists a b c d,
  Forall no_angle [a; b; c; d] /\ Forall nonblank [a; b; c; d] /\
  rxn_tolist (a ++ L "->" ++ b ++ L "->" ++ c ++ L "->" ++ d) = Ok [a; b; c ++ L "-"].
Proof.
  exists (L "A_s"), (L "B_s"), (L "C_s"), (L "D_s"). split; [|split].
  - repeat constructor; cbn; intuition discriminate.
  - repeat constructor; discriminate.
  - reflexivity.
Qed.

Lemma revert_other_length e sts :
  rxn_tolist e = Ok sts -> ~ two_or_three sts -> rxn_revert e = Err UnboundLocalError.
Proof.
  unfold rxn_revert, two_or_three. intros -> H. cbn [bind]. rewrite <- (rev_length sts) in H.
  destruct (rev sts) as [|a [|b [|c [|? ?]]]]; cbn in H; try reflexivity; exfalso; auto.
Qed.

Lemma check_exact e fls :
  rxn_formula_list e = Ok fls -> fls <> [] ->
  (conserved fls -> rxn_check_conservation e = Ok true) /\
  (~ conserved fls -> rxn_check_conservation e = Err ValueError).
Proof.
  intros F N. destruct (check_parsed e fls F N) as [[A B]|[A B]]; split; auto; intro C; contradiction.
Qed.

Lemma check_sound e sts :
  rxn_tolist e = Ok sts -> 2 <= length sts -> rxn_check_conservation e = Ok true ->
  exists fls, rxn_formula_list e = Ok fls /\ forall a b, In a fls -> In b fls -> balanced a b.
Proof.
  intros E Hl H. apply (check_ok e sts E Hl) in H as (fls & F & A). exists fls. split; auto.
  intros a b Ha Hb. now apply A.
Qed.

Lemma check_outcomes e :
  rxn_check_conservation e = Ok true \/
  rxn_check_conservation e = Err ValueError \/
  rxn_check_conservation e = Err ChemFormulaError \/
  (rxn_check_conservation e = Err AttributeError /\ rxn_tolist e = Err AttributeError) \/
  (rxn_check_conservation e = Err IndexError /\ rxn_tolist e = Ok []).
Proof.
  destruct (rxn_check_conservation e) as [b|er] eqn:E.
  - left. now rewrite (check_result e b E).
  - right. apply check_error in E as [->|[->|[[-> H]|[-> H]]]]; auto.
Qed.

Lemma state_conserve_exact st1 st2 fs1 fs2 :
  state_formulas st1 = Ok fs1 -> state_formulas st2 = Ok fs2 ->
  (balanced fs1 fs2 /\ same_mentions fs1 fs2 /\ state_conserve st1 st2 = Ok true) \/
  (~ (balanced fs1 fs2 /\ same_mentions fs1 fs2) /\ state_conserve st1 st2 = Err ValueError).
Proof.
  intros H1 H2. destruct (state_conserve_parsed _ _ _ _ H1 H2) as [[[A B] C]|[A C]]; auto.
Qed.

Lemma check_one_sided : exists e st,
  rxn_tolist e = Ok [st] /\ rxn_check_conservation e = Ok true /\
  state_formulas st = Err ChemFormulaError.
Proof. exists (L "CO + O ->"), (L "CO + O"). repeat split. Qed.

Lemma state_elements_totals st fs :
  state_formulas st = Ok fs ->
  exists d, state_elements st = Ok d /\ NoDup (map fst d) /\
    (forall x, mentions_atom x fs -> dget d [x] = Some (total_atoms x fs)) /\
    (forall k, In k (map fst d) -> exists x, k = [x] /\ mentions_atom x fs).
Proof.
  intro H. unfold state_elements. rewrite H. cbn [bind].
  destruct (elements_of_formulas_props fs) as (N & K & V).
  eexists. split; [reflexivity|]. split; [exact N|]. split.
  - intros x Hx. rewrite <- V. apply dget_val, K. eauto.
  - intros k Hk. now apply K.
Qed.

Lemma formula_elements_totals f :
  NoDup (map fst (formula_elements f)) /\
  (forall x, species_mentions x (f_species f) ->
     dget (formula_elements f) [x] = Some (f_stoich f * atoms_in_species x (f_species f))%Z) /\
  (forall k, In k (map fst (formula_elements f)) -> exists x, k = [x] /\ species_mentions x (f_species f)).
Proof.
  destruct (formula_elements_props f) as (N & K & V). split; [exact N|]. split.
  - intros x Hx. rewrite <- V. apply dget_val, K. eauto.
  - intros k Hk. now apply K.
Qed.

Lemma state_sites_totals st fs :
  state_formulas st = Ok fs ->
  exists d, state_sites st = Ok d /\ NoDup (map fst d) /\
    (forall s, surface_site s -> mentions_site s fs -> dget d s = Some (total_sites s fs)) /\
    (forall k, In k (map fst d) -> surface_site k /\ mentions_site k fs).
Proof.
  intro H. unfold state_sites. rewrite H. cbn [bind].
  destruct (sites_of_formulas_props fs) as (N & K & V).
  eexists. split; [reflexivity|]. split; [exact N|]. split.
  - intros s Hs Hm. rewrite <- V by auto. apply dget_val, K. auto.
  - intros k Hk. now apply K.
Qed.

Lemma species_table_wrong : exists st fs d name,
  state_formulas st = Ok fs /\ state_species_site_dict st = Ok d /\
  In name (map f_species_site fs) /\ dget d name <> Some (total_of_species name fs).
Proof.
  exists (L "CO_s + 2CO_s"). do 2 eexists. exists (L "CO_s").
  split; [reflexivity|]. split; [reflexivity|]. split; [left; reflexivity|].
  vm_compute. discriminate.
Qed.

Lemma species_table_unique st fs :
  state_formulas st = Ok fs -> NoDup (map f_species_site fs) ->
  exists d, state_species_site_dict st = Ok d /\
    (forall name, In name (map fst d) <-> In name (map f_species_site fs)) /\
    (forall name, In name (map f_species_site fs) -> dget d name = Some (total_of_species name fs)).
Proof.
  intros H N. unfold state_species_site_dict. rewrite H. cbn [bind].
  eexists. split; [reflexivity|]. split.
  - intro name. apply species_table_keys.
  - intros name Hn. now apply species_table_total.
Qed.

Lemma species_table_last st l f r :
  state_formulas st = Ok (l ++ f :: r) -> ~ In (f_species_site f) (map f_species_site r) ->
  exists d, state_species_site_dict st = Ok d /\ dget d (f_species_site f) = Some (f_stoich f).
Proof.
  intros H N. unfold state_species_site_dict. rewrite H. cbn [bind].
  eexists. split; [reflexivity|]. rewrite fold_left_app. cbn [fold_left]. rewrite fold_dset_last.
  destruct (find _ (rev r)) as [g|] eqn:E.
  - apply find_some in E as [Hin E]. apply str_eqb_eq in E. exfalso. apply N. rewrite <- E.
    apply in_map. now apply in_rev.
  - rewrite dget_dset, str_eqb_refl. reflexivity.
Qed.

Lemma species_list_all st fs :
  state_formulas st = Ok fs -> state_species_site_list st = Ok (map f_species_site fs).
Proof. intro H. unfold state_species_site_list. now rewrite H. Qed.

Lemma gas_lists e fls first last :
  rxn_formula_list e = Ok fls -> lfirst fls = Ok first -> llast fls = Ok last ->
  rxn_adsorption_gases e = Ok (filter (fun f => str_eqb (f_site f) (L "g")) first) /\
  rxn_desorption_gases e = Ok (filter (fun f => str_eqb (f_site f) (L "g")) last).
Proof.
  intros F H1 H2. unfold rxn_adsorption_gases, rxn_desorption_gases. rewrite F. cbn [bind].
  rewrite H1, H2. cbn [bind].
  assert (E : forall l, filter is_gas l = filter (fun f => str_eqb (f_site f) (L "g")) l).
  { intro l. apply filter_ext. intro f. apply eq_true_iff_eq. now rewrite is_gas_iff, str_eqb_eq. }
  now rewrite !E.
Qed.

Lemma formula_type_iff f :
  (formula_type f = Gas <-> f_site f = L "g") /\
  (formula_type f = Liquid <-> f_site f = L "l") /\
  (formula_type f = Site <-> surface_site (f_site f) /\ In ("*"%char) (f_species_site f)) /\
  (formula_type f = Adsorbate <-> surface_site (f_site f) /\ ~ In ("*"%char) (f_species_site f)).
Proof.
  unfold formula_type, surface_site.
  destruct (str_eqb_spec (f_site f) (L "g")) as [->|E1].
  - repeat split; try discriminate; try tauto; intros; tauto.
  - destruct (str_eqb_spec (f_site f) (L "l")) as [->|E2].
    + repeat split; try discriminate; try tauto; intros; tauto.
    + destruct (has_char "*" (f_species_site f)) eqn:E3.
      * apply has_char_In in E3. repeat split; try discriminate; try tauto; intros; tauto.
      * assert (~ In "*"%char (f_species_site f)) by (rewrite <- has_char_In; congruence).
        repeat split; try discriminate; try tauto; intros; tauto.
Qed.
