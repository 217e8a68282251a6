(** Rates by place, pairs of directions, production. *)
From Coq Require Import String Ascii List ZArith Bool Arith QArith Permutation Sorted Lia.
Import ListNotations.
From Verif Require Import PyBase PyBaseFacts PyBase_Spec PyBase_Sound Rxn_Model Collect_Model Collect_Spec Collect_Proofs Collect_Table.
From Verif Require Attr_Model Attr_Checks Attr_Spec.
Local Open Scope list_scope.

(** ** Rates by place *)
Lemma names_iff {V} (d : dict V) ns : sorted_set (map fst d) = ns <-> sorted_names d ns.
Proof. apply sorted_set_iff. Qed.

Lemma value_iff {V} (d : dict V) k v : dindex d k = Ok v <-> value_of d k v.
Proof. apply (proj1 (dindex_iff d k)). Qed.

Lemma rates_at_iff d ns idxs : forall acc s, rates_at d ns idxs acc = Ok s <->
  exists xs, Forall2 (fun i x => exists n, nth_error ns i = Some n /\ value_of d n x) idxs xs /\ s = fold_left Qplus xs acc.
Proof.
  induction idxs as [|i idxs IH]; intros acc s; cbn [rates_at].
  - split; [intro H; injection H as <-; exists []; auto|intros (xs & F & ->); inversion F; reflexivity].
  - rewrite bindok. split.
    + intros (n & A & H). apply bindok in H as (x & B & H). apply IH in H as (xs & F & ->).
      exists (x :: xs). split; [|reflexivity]. constructor; [|assumption]. exists n.
      split; [now apply at_index_iff|now apply value_iff].
    + intros (xs & F & ->). inversion F as [|? x ? xs' (n & A & B) F']; subst. exists n. split; [now apply at_index_iff|].
      apply bindok. exists x. split; [now apply value_iff|]. apply IH. eauto.
Qed.

Lemma tof_at_iff d ns idxs s : sorted_names d ns -> (tof_at idxs d = Ok s <-> sum_of_places d ns idxs s).
Proof. intro H. apply names_iff in H. unfold tof_at. rewrite H. apply rates_at_iff. Qed.

Lemma rates_at_err d ns idxs : (forall n, In n ns -> In n (map fst d)) -> forall acc e,
  rates_at d ns idxs acc = Err e <-> e = IndexError /\ exists i, In i idxs /\ (length ns <= i)%nat.
Proof.
  intro HN. induction idxs as [|i idxs IH]; intros acc e; cbn [rates_at].
  - split; [discriminate|]. intros (_ & i & [] & _).
  - unfold at_index. destruct (nth_error ns i) as [n|] eqn:E; cbn [bind].
    + pose proof (proj2 (dindex_iff d n)) as HK. destruct (dindex d n) as [x|e'] eqn:EX; cbn [bind].
      * rewrite IH. split.
        -- intros (-> & j & A & B). split; [reflexivity|]. exists j. split; [now right|assumption].
        -- intros (-> & j & [<-|A] & B); [|eauto]. apply nth_error_None in B. congruence.
      * exfalso. apply (proj2 (proj1 (HK e') eq_refl)). apply HN. eapply nth_error_In; eassumption.
    + split.
      * intro H. injection H as <-. split; [reflexivity|]. exists i. split; [now left|now apply nth_error_None].
      * intros (-> & _). reflexivity.
Qed.

Lemma tof_at_err d ns idxs e : sorted_names d ns ->
  (tof_at idxs d = Err e <-> e = IndexError /\ exists i, In i idxs /\ (length ns <= i)%nat).
Proof.
  intro H. pose proof H as HS. apply names_iff in HS. unfold tof_at. rewrite HS. apply rates_at_err.
  intros n Hn. now apply H.
Qed.

Lemma extract_tofs_iff number dirs l : extract_tofs number dirs = Ok l <->
  Forall2 (fun dr r => named number (fst dr) (fst r) /\ tof_at [0%nat; 2%nat] (snd dr) = Ok (snd r)) (with_rates dirs) l.
Proof.
  revert l. induction dirs as [|[d [[r|]|]] dirs IH]; intro l; cbn [extract_tofs with_rates]; [|rewrite bindok| |].
  - split; [intro H; injection H as <-; constructor|inversion 1; reflexivity].
  - split.
    + intros (t & A & H). apply bindok in H as (p & B & H). apply bindok in H as (rest & C & H). injection H as <-.
      constructor; [|now apply IH]. split; [now apply to_float_iff in B|assumption].
    + inversion 1 as [|? [p t] ? rest (A & B) F]; subst. cbn [fst snd] in *. exists t. split; [assumption|].
      apply bindok. exists p. split; [now apply to_float_iff|]. apply bindok. exists rest. split; [now apply IH|reflexivity].
  - apply IH.
  - apply IH.
Qed.

Lemma pick_tof_iff d s : pick_tof d = Ok s <-> exists r, d = Some r /\ tof_at [10%nat; 12%nat] r = Ok s.
Proof.
  destruct d as [r|]; cbn [pick_tof]; split.
  - eauto.
  - intros (r' & E & H). now injection E as ->.
  - discriminate.
  - intros (r' & E & _). discriminate.
Qed.
Lemma pick_tof_none : pick_tof None = Err KeyError.
Proof. reflexivity. Qed.

(** ** Directions *)
Lemma compare_tail r : forall r' x y x' y', ~ In "("%char r -> ~ In "("%char r' -> r <> r' ->
  str_compare (r ++ "("%char :: x) (r' ++ "("%char :: y) = str_compare (r ++ "("%char :: x') (r' ++ "("%char :: y').
Proof.
  induction r as [|c r IH]; intros [|c' r'] x y x' y' H H' N; [contradiction| | |].
  - cbn [app str_compare]. destruct (N.compare_spec (code "(") (code c')) as [E|E|E]; auto.
    apply code_inj in E. exfalso. apply H'. now left.
  - cbn [app str_compare]. destruct (N.compare_spec (code c) (code "(")) as [E|E|E]; auto.
    apply code_inj in E. exfalso. apply H. now left.
  - cbn [app str_compare]. destruct (N.compare_spec (code c) (code c')) as [E|E|E]; auto.
    apply code_inj in E as ->. apply IH.
    + intro X. apply H. now right.
    + intro X. apply H'. now right.
    + congruence.
Qed.

Lemma before_irrefl a : ~ before a a.
Proof. rewrite <- str_lt_before. apply str_lt_irrefl. Qed.

Lemma before_tail r r' x y x' y' : ~ In "("%char r -> ~ In "("%char r' -> r <> r' ->
  before (r ++ "("%char :: x) (r' ++ "("%char :: y) -> before (r ++ "("%char :: x') (r' ++ "("%char :: y').
Proof.
  intros H H' N. rewrite <- !str_lt_before. unfold str_lt. now rewrite (compare_tail r r' x y x' y' H H' N).
Qed.

Lemma forward_before_reverse r : before (forward r) (reverse r).
Proof.
  right. exists (r ++ L "("), "-"%char, "<"%char, (L ">)"), (L "-)"). unfold forward, reverse.
  rewrite <- !app_assoc. split; [reflexivity|]. split; [reflexivity|]. vm_compute. lia.
Qed.

Lemma forward_inj r r' : forward r = forward r' -> r = r'.
Proof. apply app_inv_tail. Qed.

Definition pairs (rs : list str) : list str := flat_map (fun r => [forward r; reverse r]) rs.

Lemma pairs_In rs n : In n (pairs rs) <-> exists r, In r rs /\ (n = forward r \/ n = reverse r).
Proof.
  unfold pairs. rewrite in_flat_map. split.
  - intros (r & A & [<-|[<-|[]]]); eauto.
  - intros (r & A & [->| ->]); exists r; (split; [assumption|]); [now left|right; now left].
Qed.

Lemma pairs_sorted rs : (forall r, In r rs -> ~ In "("%char r) ->
  StronglySorted (fun a b => before (forward a) (forward b)) rs -> StronglySorted before (pairs rs).
Proof.
  intros HP. induction 1 as [|r rs HS IH HF]; [constructor|].
  assert (~ In "("%char r) as Hr by (apply HP; now left).
  assert (forall q, In q rs -> ~ In "("%char q) as Hq by (intros; apply HP; now right).
  assert (forall n, In n (pairs rs) -> before (forward r) n /\ before (reverse r) n) as HB.
  { intros n Hn. apply pairs_In in Hn as (q & A & B). rewrite Forall_forall in HF. pose proof (HF q A) as H0.
    assert (r <> q) as N by (intros ->; exact (before_irrefl _ H0)).
    destruct B as [->| ->]; split; try exact H0; exact (before_tail r q _ _ _ _ Hr (Hq q A) N H0). }
  cbn [pairs flat_map app]. constructor; [constructor; [apply IH; assumption|]|].
  - apply Forall_forall. intros n Hn. now apply HB.
  - constructor; [apply forward_before_reverse|]. apply Forall_forall. intros n Hn. now apply HB.
Qed.

Lemma both_sorted {V} (d : dict V) rs rs' : both_directions d rs -> in_name_order rs rs' ->
  sorted_set (map fst d) = pairs rs'.
Proof.
  intros (_ & HP & HD) [HQ HS]. apply sorted_set_iff. split.
  - apply pairs_sorted; [|assumption]. intros r Hr. apply HP. apply (Permutation_in _ (Permutation_sym HQ) Hr).
  - intro n. rewrite pairs_In, HD. split; intros (r & A & B); exists r; (split; [|assumption]).
    + apply (Permutation_in _ (Permutation_sym HQ) A).
    + apply (Permutation_in _ HQ A).
Qed.

Lemma name_order_exists rs : NoDup rs -> exists rs', in_name_order rs rs'.
Proof.
  intro HN. destruct (proj1 (sorted_set_iff (map forward rs) _) eq_refl) as [HS HI].
  set (l := sorted_set (map forward rs)) in *.
  assert (exists rs', l = map forward rs') as [rs' E].
  { assert (forall n, In n l -> exists r, n = forward r) as X.
    { intros n Hn. apply HI in Hn. apply in_map_iff in Hn as (r & <- & _). eauto. }
    clear -X. induction l as [|n l IH]; [exists []; reflexivity|].
    destruct (X n (or_introl eq_refl)) as [r ->]. destruct IH as [rs' ->]; [intros; apply X; now right|].
    exists (r :: rs'). reflexivity. }
  rewrite E in *. exists rs'. split.
  - apply NoDup_Permutation; [assumption| |].
    + apply (NoDup_map_inv forward). apply StronglySorted_NoDup.
      eapply StronglySorted_iff; [|exact HS]. intros x y. apply str_lt_before.
    + intro r. split; intro Hr.
      * assert (In (forward r) (map forward rs')) as X by (apply HI; now apply in_map).
        apply in_map_iff in X as (q & EQ & A). apply forward_inj in EQ as ->. assumption.
      * assert (In (forward r) (map forward rs)) as X by (apply HI; now apply in_map).
        apply in_map_iff in X as (q & EQ & A). apply forward_inj in EQ as ->. assumption.
  - clear -HS. induction rs' as [|r rs IH]; [constructor|]. cbn [map] in HS. inversion HS as [|? ? A B]; subst.
    constructor; [auto|]. rewrite Forall_forall in *. intros q Hq. apply B. now apply in_map.
Qed.

Lemma pairs_nth rs : forall k, nth_error (pairs rs) (2 * k) = option_map forward (nth_error rs k) /\
  nth_error (pairs rs) (2 * k + 1) = option_map reverse (nth_error rs k).
Proof.
  induction rs as [|r rs IH]; intro k.
  - cbn [pairs flat_map]. destruct k; cbn [nth_error option_map].
    + split; reflexivity.
    + rewrite !(proj2 (nth_error_None _ _)) by (cbn; lia). split; reflexivity.
  - destruct k as [|k]; [split; reflexivity|].
    replace (2 * S k)%nat with (S (S (2 * k))) by lia. cbn [pairs flat_map app]. exact (IH k).
Qed.

(** With both directions of all reactions, the even places are the forward processes. *)
Lemma tof_forward d rs rs' ks s : both_directions d rs -> in_name_order rs rs' ->
  (tof_at (map (fun k => (2 * k)%nat) ks) d = Ok s <->
   exists xs, Forall2 (fun k x => exists r, nth_error rs' k = Some r /\ value_of d (forward r) x) ks xs /\
     s = fold_left Qplus xs 0%Q).
Proof.
  intros HB HO. unfold tof_at. rewrite (both_sorted d rs rs' HB HO), rates_at_iff.
  assert (forall xs, Forall2 (fun i x => exists n, nth_error (pairs rs') i = Some n /\ value_of d n x) (map (fun k => (2 * k)%nat) ks) xs <->
    Forall2 (fun k x => exists r, nth_error rs' k = Some r /\ value_of d (forward r) x) ks xs) as X.
  { induction ks as [|k ks IH]; intro xs; cbn [map].
    - split; inversion 1; constructor.
    - split; inversion 1 as [|? x ? xs' (n & A & B) F]; subst; constructor; try (now apply IH).
      + cbv beta in A. change (nth_error (pairs rs') (2 * k) = Some n) in A. rewrite (proj1 (pairs_nth rs' k)) in A. destruct (nth_error rs' k) as [r|]; [|discriminate].
        injection A as <-. eauto.
      + exists (forward n). rewrite (proj1 (pairs_nth rs' k)), A. split; [reflexivity|assumption]. }
  split; intros (xs & F & E); exists xs; (split; [now apply X|assumption]).
Qed.

Lemma evens_odds_pairs rs : evens (pairs rs) = map forward rs /\ odds (pairs rs) = map reverse rs.
Proof.
  assert (forall l, evens (pairs l) = map forward l) as HE.
  { induction l as [|r l IH]; [reflexivity|]. cbn [pairs flat_map app evens map]. f_equal. exact IH. }
  split; [apply HE|]. destruct rs as [|r rs]; [reflexivity|]. cbn [pairs flat_map app odds map]. fold (pairs rs).
  revert r. induction rs as [|q rs IH]; intro r; [reflexivity|]. cbn [pairs flat_map app evens map].
  f_equal. exact (IH q).
Qed.

Lemma evens_nth {A} (n : nat) : forall (l : list A), (length l <= n)%nat -> forall k,
  nth_error (evens l) k = nth_error l (2 * k).
Proof.
  induction n as [|n IH]; intros l HL k.
  - destruct l; [|cbn in HL; lia]. destruct k; [reflexivity|]. cbn. now destruct (k + S (k + 0))%nat.
  - destruct l as [|x [|y l]].
    + destruct k; [reflexivity|]. cbn. now destruct (k + S (k + 0))%nat.
    + destruct k as [|k]; [reflexivity|]. cbn [evens]. rewrite !(proj2 (nth_error_None _ _)) by (cbn; lia). reflexivity.
    + destruct k as [|k]; [reflexivity|]. replace (2 * S k)%nat with (S (S (2 * k))) by lia. cbn [evens nth_error].
      apply IH. cbn in HL. lia.
Qed.

Lemma mapM_values {V} (d : dict V) l vs : mapM (dindex d) l = Ok vs <-> Forall2 (value_of d) l vs.
Proof.
  rewrite mapM_ok_iff. split; apply Forall2_imp; intros x y; apply value_iff.
Qed.

Lemma bars_iff occ ns f r : sorted_names occ ns ->
  (bars occ = Ok (f, r) <-> Forall2 (value_of occ) (evens ns) f /\ Forall2 (value_of occ) (odds ns) r).
Proof.
  intro H. apply names_iff in H. unfold bars. rewrite H. split.
  - intro X. apply bindok in X as (f' & A & X). apply bindok in X as (r' & B & X). injection X as <- <-.
    split; now apply mapM_values.
  - intros [A B]. apply mapM_values in A, B. rewrite A. cbn [bind]. rewrite B. reflexivity.
Qed.

Lemma places {A} (l : list A) k : nth_error (evens l) k = nth_error l (2 * k) /\ nth_error (odds l) k = nth_error l (2 * k + 1).
Proof.
  split; [eapply evens_nth; reflexivity|]. destruct l as [|x l]; cbn [odds].
  - destruct k; [reflexivity|]. cbn. now destruct (k + S (k + 0) + 1)%nat.
  - replace (2 * k + 1)%nat with (S (2 * k)) by lia. cbn [nth_error]. eapply evens_nth; reflexivity.
Qed.

Lemma Forall2_maps {A B C} (g : A -> B) (P : B -> C -> Prop) l : forall l', Forall2 P (map g l) l' <-> Forall2 (fun a c => P (g a) c) l l'.
Proof.
  induction l as [|a l IH]; intro l'; cbn [map].
  - split; inversion 1; constructor.
  - split; inversion 1; subst; constructor; try assumption; now apply IH.
Qed.

Lemma bars_pairs occ rs rs' f r : both_directions occ rs -> in_name_order rs rs' ->
  (bars occ = Ok (f, r) <-> Forall2 (fun q x => value_of occ (forward q) x) rs' f /\
                            Forall2 (fun q x => value_of occ (reverse q) x) rs' r).
Proof.
  intros HB HO. pose proof (both_sorted occ rs rs' HB HO) as E. rewrite (bars_iff occ (pairs rs')) by now apply names_iff.
  destruct (evens_odds_pairs rs') as [-> ->]. now rewrite !Forall2_maps.
Qed.

Lemma bars_total occ : exists f r, bars occ = Ok (f, r).
Proof.
  unfold bars. set (ns := sorted_set (map fst occ)).
  assert (forall n, In n ns -> In n (map fst occ)) as HN by (intros n; apply (proj1 (names_iff occ ns) eq_refl)).
  assert (forall l, (forall n, In n l -> In n ns) -> exists vs, mapM (dindex occ) l = Ok vs) as X.
  { induction l as [|n l IH]; intro HI; [eexists; reflexivity|]. cbn [mapM].
    pose proof (proj2 (dindex_iff occ n)) as HK. destruct (dindex occ n) as [v|e] eqn:E.
    - destruct IH as [vs ->]; [intros; apply HI; now right|]. eexists; reflexivity.
    - exfalso. apply (proj2 (proj1 (HK e) eq_refl)). apply HN, HI. now left. }
  destruct (X (evens ns)) as [f ->].
  { intros n Hn. apply In_nth_error in Hn as [k E]. rewrite (proj1 (places ns k)) in E. eapply nth_error_In; eassumption. }
  cbn [bind]. destruct (X (odds ns)) as [r ->].
  { intros n Hn. apply In_nth_error in Hn as [k E]. rewrite (proj2 (places ns k)) in E. eapply nth_error_In; eassumption. }
  eexists _, _; reflexivity.
Qed.

(** ** Production *)
Lemma has_char_In c s : has_char c s = true <-> In c s.
Proof.
  unfold has_char. rewrite existsb_exists. split.
  - intros (x & A & B). apply Ascii.eqb_eq in B. now subst.
  - intro H. exists c. split; [assumption|apply Ascii.eqb_refl].
Qed.

Lemma lstrip_chars_split chars s : exists a, s = a ++ lstrip_chars chars s /\ (forall c, In c a -> In c chars) /\
  forall c u, lstrip_chars chars s = c :: u -> ~ In c chars.
Proof.
  induction s as [|x s (a & E & HA & HL)]; cbn [lstrip_chars].
  - exists []. split; [reflexivity|]. split; [intros c []|discriminate].
  - destruct (has_char x chars) eqn:EX.
    + exists (x :: a). split; [cbn; congruence|]. split; [|assumption].
      intros c [<-|H]; [now apply has_char_In|auto].
    + exists []. split; [reflexivity|]. split; [intros c []|]. intros c u H. injection H as <- <-.
      rewrite <- has_char_In. congruence.
Qed.

Lemma lstrip_chars_prefix chars a t : (forall c, In c a -> In c chars) -> (forall c u, t = c :: u -> ~ In c chars) ->
  lstrip_chars chars (a ++ t) = t.
Proof.
  intros HA HT. induction a as [|x a IH]; cbn [app].
  - destruct t as [|c t]; [reflexivity|]. cbn [lstrip_chars]. specialize (HT c t eq_refl). rewrite <- has_char_In in HT.
    now destruct (has_char c chars).
  - cbn [lstrip_chars]. rewrite (proj2 (has_char_In x chars)) by (apply HA; now left). apply IH. intros; apply HA; now right.
Qed.

Lemma lstrip_chars_all chars a : (forall c, In c a -> In c chars) -> lstrip_chars chars a = [].
Proof. intro H. rewrite <- (app_nil_r a). apply lstrip_chars_prefix; [assumption|discriminate]. Qed.

Lemma strip_chars_iff chars s t : strip_chars chars s = t <-> stripped_chars chars s t.
Proof.
  split.
  - intros <-. unfold strip_chars. destruct (lstrip_chars_split chars s) as (a & E & HA & HL).
    set (m := lstrip_chars chars s) in *. destruct (lstrip_chars_split chars (rev m)) as (b & E2 & HB & HR).
    set (w := lstrip_chars chars (rev m)) in *.
    assert (m = rev w ++ rev b) as EM by (rewrite <- (rev_involutive m), E2; apply rev_app_distr).
    exists a, (rev b). split; [now rewrite <- EM|]. split; [|split].
    + intros c Hc. apply in_app_or in Hc as [Hc|Hc]; [auto|]. apply HB. now apply in_rev.
    + intros c u H. apply (HL c (u ++ rev b)). rewrite EM, H. reflexivity.
    + intros c u H. apply (HR c (rev u)). rewrite <- (rev_involutive w), H, rev_app_distr. reflexivity.
  - intros (a & b & -> & HC & H1 & H2). unfold strip_chars.
    assert (forall c, In c a -> In c chars) as HA by (intros; apply HC; apply in_or_app; now left).
    assert (forall c, In c b -> In c chars) as HB by (intros; apply HC; apply in_or_app; now right).
    destruct t as [|c t].
    + cbn [app]. rewrite (lstrip_chars_all chars (a ++ b)) by assumption. reflexivity.
    + rewrite (lstrip_chars_prefix chars a ((c :: t) ++ b)); [|assumption|].
      2: { intros c' u H. injection H as <- _. exact (H1 c t eq_refl). }
      rewrite rev_app_distr, lstrip_chars_prefix.
      * apply rev_involutive.
      * intros x Hx. apply HB. now apply in_rev.
      * intros x u H. apply (H2 x (rev u)). rewrite <- (rev_involutive (c :: t)), H. reflexivity.
Qed.

Lemma produces_iff production rxn b : produces production rxn = Ok b <-> makes production rxn b.
Proof.
  unfold produces, makes. rewrite bindok. split.
  - intros (states & A & H). apply bindok in H as (final & B & H). injection H as <-.
    apply (proj1 (llast_iff states)) in B as [a ->]. exists a, final. split; [assumption|].
    apply Attr_Checks.substring_spec.
  - intros (states & final & A & B). exists (states ++ [final]). split; [assumption|]. apply bindok. exists final.
    split; [apply llast_app|]. f_equal.
    pose proof (Attr_Checks.substring_spec production final) as X. unfold Attr_Spec.occurs in X. rewrite <- B in X.
    destruct (Attr_Model.substring production final), b; try reflexivity; [symmetry|]; apply X; reflexivity.
Qed.

Lemma ends_forward process : Attr_Model.endswith process (L "(->)") = true <-> exists r, process = forward r.
Proof. apply Attr_Checks.endswith_spec. Qed.
Lemma ends_reverse process : Attr_Model.endswith process (L "(<-)") = true <-> exists r, process = reverse r.
Proof. apply Attr_Checks.endswith_spec. Qed.
Lemma forward_not_reverse r r' : forward r <> reverse r'.
Proof.
  unfold forward, reverse. intro H. apply (f_equal (@rev ascii)) in H. rewrite !rev_app_distr in H. discriminate H.
Qed.

Lemma process_sign_iff production process z : process_sign production process = Ok z <-> sign_of production process z.
Proof.
  unfold process_sign, sign_of.
  destruct (Attr_Model.endswith process (L "(->)")) eqn:EF.
  { apply ends_forward in EF as [r ->]. rewrite bindok. split.
    - intros (b & A & B). injection B as <-. apply produces_iff in A. left. exists r, (strip_chars (L "(->)") (forward r)).
      split; [reflexivity|]. split; [now apply strip_chars_iff|]. destruct b; [left|right]; auto.
    - intros [(r' & t & E & HS & H)|[(r' & t & E & _)|(H & _)]].
      + apply strip_chars_iff in HS as ->. destruct H as [[H ->]|[H ->]]; apply produces_iff in H; eexists; (split; [exact H|reflexivity]).
      + exfalso. exact (forward_not_reverse _ _ E).
      + exfalso. exact (H r eq_refl). }
  assert (forall r, process <> forward r) as NF.
  { intros r X. assert (Attr_Model.endswith process (L "(->)") = true) by (apply ends_forward; eauto). congruence. }
  destruct (Attr_Model.endswith process (L "(<-)")) eqn:ER.
  { apply ends_reverse in ER as [r ->]. rewrite bindok. split.
    - intros (b & A & B). injection B as <-. apply produces_iff in A. right. left. exists r, (strip_chars (L "(<-)") (reverse r)).
      split; [reflexivity|]. split; [now apply strip_chars_iff|]. destruct b; [left|right]; auto.
    - intros [(r' & t & E & _)|[(r' & t & E & HS & H)|(_ & H & _)]].
      + exfalso. exact (forward_not_reverse _ _ (eq_sym E)).
      + apply strip_chars_iff in HS as ->. destruct H as [[H ->]|[H ->]]; apply produces_iff in H; eexists; (split; [exact H|reflexivity]).
      + exfalso. exact (H r eq_refl). }
  assert (forall r, process <> reverse r) as NR.
  { intros r X. assert (Attr_Model.endswith process (L "(<-)") = true) by (apply ends_reverse; eauto). congruence. }
  split.
  - intro H. injection H as <-. right. right. auto.
  - intros [(r & t & E & _)|[(r & t & E & _)|(_ & _ & ->)]]; [now apply NF in E|now apply NR in E|reflexivity].
Qed.

(** *** Sums over indices *)
Fixpoint pick_sum (z : Z) (signs : list Z) (rates : list Q) : Q :=
  match signs, rates with
  | s :: ss, r :: rs => ((if Z.eqb s z then r else 0) + pick_sum z ss rs)%Q
  | _, _ => 0%Q
  end.

Definition in_range (z : Z) (signs : list Z) (rates : list Q) : Prop :=
  forall k, nth_error signs k = Some z -> (k < length rates)%nat.

Lemma add_at_ok rates f : (forall x y, x == y -> f x == f y) -> (forall x y, f (x + y)%Q == f x + f y) -> f 0%Q == 0 ->
  forall z signs rates0 acc, rates = rates0 ++ skipn (length rates0) rates ->
  in_range z signs (skipn (length rates0) rates) ->
  exists s, add_at rates (indices_of z signs (length rates0)) f acc = Ok s /\
    s == acc + f (pick_sum z signs (skipn (length rates0) rates)).
Proof.
  intros Hf Ha H0 z signs. induction signs as [|s signs IH]; intros rates0 acc HE HR; cbn [indices_of].
  - exists acc. split; [reflexivity|]. cbn [pick_sum]. rewrite H0. ring.
  - remember (skipn (length rates0) rates) as tl eqn:ET. destruct tl as [|x tl].
    + assert (forall k, nth_error (s :: signs) k <> Some z) as HN.
      { intros k X. apply HR in X. cbn in X. lia. }
      assert (forall ss n, (forall k, nth_error ss k <> Some z) -> indices_of z ss n = []) as HI.
      { induction ss as [|y ss IHs]; intros n H; [reflexivity|]. cbn [indices_of].
        destruct (Z.eqb_spec y z) as [->|_]; [exfalso; exact (H 0%nat eq_refl)|]. apply IHs. intro k. exact (H (S k)). }
      change (if (s =? z)%Z then length rates0 :: indices_of z signs (S (length rates0)) else indices_of z signs (S (length rates0)))
        with (indices_of z (s :: signs) (length rates0)). rewrite (HI (s :: signs) _ HN).
      exists acc. split; [reflexivity|]. cbn [pick_sum]. rewrite H0. ring.
    + assert (skipn (length (rates0 ++ [x])) rates = tl) as ET'.
      { rewrite HE, app_length, skipn_app, skipn_all2 by (cbn; lia).
        replace (length rates0 + length [x] - length rates0)%nat with 1%nat by (cbn; lia). reflexivity. }
      assert (length (rates0 ++ [x]) = S (length rates0)) as EL by (rewrite app_length; cbn; lia).
      assert (rates = (rates0 ++ [x]) ++ skipn (length (rates0 ++ [x])) rates) as HE'.
      { rewrite ET', <- app_assoc. exact HE. }
      assert (in_range z signs (skipn (length (rates0 ++ [x])) rates)) as HR'.
      { rewrite ET'. intros k Hk. assert (S k < length (x :: tl))%nat by (apply HR; exact Hk). cbn in *. lia. }
      destruct (Z.eqb_spec s z) as [->|N].
      * cbn [add_at]. assert (at_index rates (length rates0) = Ok x) as ->.
        { apply at_index_iff. rewrite HE, nth_error_app2, Nat.sub_diag by lia. reflexivity. }
        cbn [bind]. destruct (IH (rates0 ++ [x]) (acc + f x)%Q HE' HR') as (t & A & B). rewrite EL in A.
        exists t. split; [exact A|]. rewrite B, ET'. cbn [pick_sum]. rewrite Z.eqb_refl, Ha. ring.
      * destruct (IH (rates0 ++ [x]) acc HE' HR') as (t & A & B). rewrite EL in A.
        exists t. split; [exact A|]. rewrite B, ET'. cbn [pick_sum].
        destruct (Z.eqb_spec s z) as [->|_]; [contradiction|]. rewrite Ha, H0. ring.
Qed.

Lemma add_at_range rates f z signs : forall n acc s, add_at rates (indices_of z signs n) f acc = Ok s ->
  forall k, nth_error signs k = Some z -> (n + k < length rates)%nat.
Proof.
  induction signs as [|y signs IH]; intros n acc s H k Hk; [now destruct k|]. cbn [indices_of] in H.
  destruct (Z.eqb_spec y z) as [->|N].
  - cbn [add_at] in H. apply bindok in H as (x & A & H). apply at_index_iff in A.
    destruct k as [|k]; [rewrite Nat.add_0_r; apply nth_error_Some; congruence|].
    rewrite <- Nat.add_succ_comm. exact (IH _ _ _ H k Hk).
  - destruct k as [|k]; [cbn in Hk; congruence|]. rewrite <- Nat.add_succ_comm. exact (IH _ _ _ H k Hk).
Qed.

Lemma add_at_error rates f idxs : forall acc e, add_at rates idxs f acc = Err e -> e = IndexError.
Proof.
  induction idxs as [|i idxs IH]; intros acc e H; [discriminate|]. cbn [add_at] in H. unfold at_index in H.
  destruct (nth_error rates i); cbn [bind] in H; [eapply IH; eassumption|congruence].
Qed.

Lemma signed_split signs : (forall z, In z signs -> z = 1%Z \/ z = (-1)%Z \/ z = 0%Z) -> forall rates,
  signed signs rates == pick_sum 1 signs rates - pick_sum (-1) signs rates.
Proof.
  induction signs as [|s signs IH]; intros H [|x rates]; cbn [signed pick_sum]; try reflexivity.
  rewrite IH by (intros; apply H; now right).
  destruct (H s (or_introl eq_refl)) as [->|[->| ->]]; cbn [Z.eqb Pos.eqb]; unfold inject_Z; ring.
Qed.

Lemma tof_of_ok signs rates : (forall z, In z signs -> z = 1%Z \/ z = (-1)%Z \/ z = 0%Z) -> counted signs rates ->
  exists t, tof_of signs rates = Ok t /\ t == signed signs rates.
Proof.
  intros HZ HC. unfold tof_of.
  destruct (add_at_ok rates (fun x => x)) with (z := 1%Z) (signs := signs) (rates0 := @nil Q) (acc := 0%Q) as (a & EA & VA);
    [intros x y H; exact H|intros; reflexivity|reflexivity|reflexivity|intros k Hk; exact (HC k 1%Z Hk ltac:(discriminate))|].
  cbn [length] in EA. rewrite EA. cbn [bind].
  destruct (add_at_ok rates Qopp) with (z := (-1)%Z) (signs := signs) (rates0 := @nil Q) (acc := a) as (b & EB & VB);
    [intros x y H; rewrite H; reflexivity|intros; ring|reflexivity|reflexivity|intros k Hk; exact (HC k (-1)%Z Hk ltac:(discriminate))|].
  cbn [length] in EB. exists b. split; [exact EB|]. rewrite VB, VA, signed_split by assumption. cbn [length skipn]. ring.
Qed.

Lemma tof_of_counted signs rates t : (forall z, In z signs -> z = 1%Z \/ z = (-1)%Z \/ z = 0%Z) ->
  tof_of signs rates = Ok t -> counted signs rates.
Proof.
  intros HZ H. unfold tof_of in H. apply bindok in H as (a & A & B). intros k z Hk HN.
  destruct (HZ z (nth_error_In _ _ Hk)) as [->|[->| ->]]; [|
    |contradiction].
  - exact (add_at_range _ _ _ _ _ _ _ A k Hk).
  - exact (add_at_range _ _ _ _ _ _ _ B k Hk).
Qed.

Lemma tof_of_iff signs rates : (forall z, In z signs -> z = 1%Z \/ z = (-1)%Z \/ z = 0%Z) ->
  ((exists t, tof_of signs rates = Ok t) <-> counted signs rates) /\
  (forall t, tof_of signs rates = Ok t -> t == signed signs rates) /\
  (forall e, tof_of signs rates = Err e -> e = IndexError).
Proof.
  intro HZ. split; [split|split].
  - intros [t H]. eapply tof_of_counted; eassumption.
  - intro H. destruct (tof_of_ok signs rates HZ H) as (t & E & _). eauto.
  - intros t H. destruct (tof_of_ok signs rates HZ (tof_of_counted _ _ _ HZ H)) as (t' & E & V). rewrite H in E.
    injection E as <-. exact V.
  - intros e H. unfold tof_of in H. destruct (add_at rates (indices_of 1 signs 0) (fun x => x) 0%Q) eqn:E; cbn [bind] in H.
    + eapply add_at_error; eassumption.
    + injection H as <-. eapply add_at_error; eassumption.
Qed.

Lemma sign_values production process z : sign_of production process z -> z = 1%Z \/ z = (-1)%Z \/ z = 0%Z.
Proof. intros [(r & t & _ & _ & [[_ ->]|[_ ->]])|[(r & t & _ & _ & [[_ ->]|[_ ->]])|(_ & _ & ->)]]; auto. Qed.

Lemma plot_tofs_ok production processes rl ts : plot_tofs production processes rl = Ok ts ->
  exists signs, Forall2 (sign_of production) processes signs /\
    Forall2 (fun rates t => counted signs rates /\ t == signed signs rates) rl ts.
Proof.
  unfold plot_tofs. intro H. apply bindok in H as (signs & A & B). apply mapM_ok_iff in A, B. exists signs.
  assert (Forall2 (sign_of production) processes signs) as F.
  { eapply Forall2_imp; [|exact A]. intros x y. apply process_sign_iff. }
  split; [assumption|].
  assert (forall z, In z signs -> z = 1%Z \/ z = (-1)%Z \/ z = 0%Z) as HZ.
  { clear -F. induction F as [|x y l l' R F IH]; intros z Hz; [destruct Hz|]. destruct Hz as [<-|Hz]; [eapply sign_values; exact R|auto]. }
  eapply Forall2_imp; [|exact B]. intros rates t E. destruct (tof_of_iff signs rates HZ) as (X & Y & _).
  split; [apply X; exists t; exact E|exact (Y t E)].
Qed.

Lemma plot_tofs_total production processes rl signs : Forall2 (sign_of production) processes signs ->
  (forall rates, In rates rl -> counted signs rates) -> exists ts, plot_tofs production processes rl = Ok ts.
Proof.
  intros F H. unfold plot_tofs.
  assert (mapM (process_sign production) processes = Ok signs) as ->.
  { apply mapM_ok_iff. eapply Forall2_imp; [|exact F]. intros x y. apply process_sign_iff. }
  cbn [bind].
  assert (forall z, In z signs -> z = 1%Z \/ z = (-1)%Z \/ z = 0%Z) as HZ.
  { clear -F. induction F as [|x y l l' R F IH]; intros z Hz; [destruct Hz|]. destruct Hz as [<-|Hz]; [eapply sign_values; exact R|auto]. }
  induction rl as [|rates rl IH]; [eexists; reflexivity|]. cbn [mapM].
  destruct (proj2 (proj1 (tof_of_iff signs rates HZ)) (H rates (or_introl eq_refl))) as [t ->]. cbn [bind].
  destruct IH as [ts ->]; [intros; apply H; now right|]. eexists; reflexivity.
Qed.

Lemma clean_forward r : (forall c u, r = c :: u -> ~ In c (L "(->)")) -> (forall c u, r = u ++ [c] -> ~ In c (L "(->)")) ->
  stripped_chars (L "(->)") (forward r) r.
Proof. intros H1 H2. exists [], (L "(->)"). split; [reflexivity|]. split; [intros c H; exact H|auto]. Qed.
Lemma clean_reverse r : (forall c u, r = c :: u -> ~ In c (L "(<-)")) -> (forall c u, r = u ++ [c] -> ~ In c (L "(<-)")) ->
  stripped_chars (L "(<-)") (reverse r) r.
Proof. intros H1 H2. exists [], (L "(<-)"). split; [reflexivity|]. split; [intros c H; exact H|auto]. Qed.

(** Rates of a reaction that is written without these characters at its ends. *)
Lemma sign_forward production r z : (forall c u, r = c :: u -> ~ In c (L "(->)")) -> (forall c u, r = u ++ [c] -> ~ In c (L "(->)")) ->
  (process_sign production (forward r) = Ok z <-> (makes production r true /\ z = 1%Z) \/ (makes production r false /\ z = 0%Z)).
Proof.
  intros H1 H2. pose proof (clean_forward r H1 H2) as HC. rewrite process_sign_iff. split.
  - intros [(r' & t & E & HS & H)|[(r' & t & E & _)|(H & _)]].
    + apply strip_chars_iff in HS, HC. rewrite HC in HS. now subst t.
    + now apply forward_not_reverse in E.
    + exfalso. exact (H r eq_refl).
  - intro H. left. exists r, r. auto.
Qed.
Lemma sign_reverse production r z : (forall c u, r = c :: u -> ~ In c (L "(<-)")) -> (forall c u, r = u ++ [c] -> ~ In c (L "(<-)")) ->
  (process_sign production (reverse r) = Ok z <-> (makes production r true /\ z = (-1)%Z) \/ (makes production r false /\ z = 0%Z)).
Proof.
  intros H1 H2. pose proof (clean_reverse r H1 H2) as HC. rewrite process_sign_iff. split.
  - intros [(r' & t & E & _)|[(r' & t & E & HS & H)|(_ & H & _)]].
    + symmetry in E. now apply forward_not_reverse in E.
    + apply strip_chars_iff in HS, HC. rewrite HC in HS. now subst t.
    + exfalso. exact (H r eq_refl).
  - intro H. right. left. exists r, r. auto.
Qed.

Lemma extract_tofs_sums number dirs l : extract_tofs number dirs = Ok l <->
  Forall2 (fun dr r => named number (fst dr) (fst r) /\
    exists ns, sorted_names (snd dr) ns /\ sum_of_places (snd dr) ns [0%nat; 2%nat] (snd r)) (with_rates dirs) l.
Proof.
  rewrite extract_tofs_iff. split; apply Forall2_imp; intros [d r] [p t]; cbn [fst snd].
  - intros (A & B). split; [assumption|]. exists (sorted_set (map fst r)). pose proof (proj1 (names_iff r _) eq_refl) as HN.
    split; [assumption|]. now apply (tof_at_iff r _ _ _ HN).
  - intros (A & ns & HN & B). split; [assumption|]. now apply (tof_at_iff r _ _ _ HN).
Qed.
Lemma pick_tof_sums d s : pick_tof d = Ok s <->
  exists r ns, d = Some r /\ sorted_names r ns /\ sum_of_places r ns [10%nat; 12%nat] s.
Proof.
  rewrite pick_tof_iff. split.
  - intros (r & E & H). exists r, (sorted_set (map fst r)). pose proof (proj1 (names_iff r _) eq_refl) as HN.
    split; [assumption|]. split; [assumption|]. now apply (tof_at_iff r _ _ _ HN).
  - intros (r & ns & E & HN & H). exists r. split; [assumption|]. now apply (tof_at_iff r _ _ _ HN).
Qed.
