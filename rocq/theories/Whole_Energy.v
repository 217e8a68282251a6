(** Proofs about cycles and reference energies (C77). *)
From Coq Require Import String Ascii List ZArith Bool Reals Lra Lia.
Import ListNotations.
From Verif Require Import PyBase PyBaseFacts Rxn_Model Rxn_Spec Rxn_Proofs Rxn_Count Rxn_More Species_Model
  Species_Spec Species_Proofs Species_Matrix PyReal Energy_Model Energy_Spec Energy_Proofs Thermo_Model
  Rate_Model Rate_Spec Rate_Proofs MF_Model MF_Spec MF_Rate MF_More Whole_Spec.
Local Open Scope list_scope.
Local Open Scope R_scope.

Lemma energy_name_for f : name_for f (energy_name f).
Proof.
  unfold energy_name. destruct (in_dec ascii_dec "*"%char (f_species_site f)); [now apply name_site|now apply name_species].
Qed.

Definition tab (ed : dict R) (n : str) : R := match dget ed n with Some x => x | None => 0 end.

Definition state_sum (E : formula -> R) (fs : list formula) : R :=
  Rsum (map (fun f => IZR (f_stoich f) * E f) fs).

Lemma energy_is_sum ed fs e : energy_is ed fs e -> e = state_sum (fun f => tab ed (energy_name f)) fs.
Proof.
  intros (es & F & ->). unfold weigh, state_sum. induction F as [|f x fs es (n & Hn & Hd) F IH]; auto.
  cbn. rewrite IH. f_equal. f_equal. rewrite (name_for_fun _ _ _ Hn (energy_name_for f)) in Hd.
  unfold tab. now rewrite Hd.
Qed.

(** Sums over formulas, grouped by a key. *)
Lemma single_hit (E : str -> R) (w : Z) k K : NoDup K -> In k K ->
  Rsum (map (fun n => E n * IZR (if str_eqb k n then w else 0%Z)) K) = IZR w * E k.
Proof.
  intros N I. induction K as [|n K IH]; [destruct I|]. inversion N as [|? ? H1 H2]; subst. cbn [map Rsum].
  destruct I as [->|I].
  - rewrite str_eqb_refl. rewrite (Rsum_zero _ K); [ring|].
    intros n Hn. destruct (str_eqb k n) eqn:Q; [|ring]. apply str_eqb_eq in Q. subst. contradiction.
  - rewrite IH; auto. destruct (str_eqb k n) eqn:Q; [|ring]. apply str_eqb_eq in Q. subst. contradiction.
Qed.

Lemma grouped (key : formula -> str) (w : formula -> Z) (E : str -> R) K fs : NoDup K -> 
  (forall f, In f fs -> In (key f) K) ->
  Rsum (map (fun f => IZR (w f) * E (key f)) fs)
  = Rsum (map (fun k => E k * IZR (sum_Z (map (fun f => if str_eqb (key f) k then w f else 0%Z) fs))) K).
Proof.
  intros N H. induction fs as [|f fs IH].
  - cbn. symmetry. apply Rsum_zero. intros. ring.
  - cbn [map Rsum sum_Z]. rewrite IH by (intros; apply H; now right).
    rewrite <- (single_hit E (w f) (key f) K N) by (apply H; now left).
    rewrite <- Rsum_add. apply Rsum_ext. intros k _. rewrite plus_IZR. ring.
Qed.

Lemma grouped_molecules ed K fs : NoDup K -> (forall f, In f fs -> In (energy_name f) K) ->
  state_sum (fun f => tab ed (energy_name f)) fs = Rsum (map (fun k => tab ed k * IZR (molecules k fs)) K).
Proof. intros N H. unfold state_sum, molecules. now rewrite (grouped energy_name f_stoich (tab ed) K fs). Qed.

(** The reaction energy. *)
Lemma begins_ok fls first : lfirst fls = Ok first -> begins fls = first.
Proof. destruct fls; cbn; congruence. Qed.
Lemma ends_ok fls l : llast fls = Ok l -> ends fls = l.
Proof.
  unfold ends. induction fls as [|a [|b t] IH]; cbn [llast last]; try congruence. auto.
Qed.

Lemma single_energy ed e fls gaf gar dg : rxn_formula_list e = Ok fls ->
  single_relative true ed e = Ok (gaf, gar, dg) ->
  dg = state_sum (fun f => tab ed (energy_name f)) (ends fls) - state_sum (fun f => tab ed (energy_name f)) (begins fls).
Proof.
  intros Hf. apply formula_list_tolist in Hf as (sts & E & F). unfold single_relative. rewrite E. cbn [negb bind].
  intro H. destruct sts as [|s0 t]; [discriminate|]. cbn [lfirst bind] in H.
  inversion F as [|? f0 ? ft S0 F1]; subst.
  destruct (state_energy ed s0) as [x|] eqn:X; cbn [bind] in H; [|discriminate].
  apply state_energy_iff in X as (fs & Q & X). assert (fs = f0) by congruence. subst fs.
  apply energy_is_sum in X. subst x.
  destruct (llast (s0 :: t)) as [s1|] eqn:Ls; cbn [bind] in H; [|discriminate].
  destruct (state_energy ed s1) as [y|] eqn:Y; cbn [bind] in H; [|discriminate].
  assert (state_formulas s1 = Ok (ends (f0 :: ft))) as Q1.
  { clear - F Ls. remember (s0 :: t) as l. remember (f0 :: ft) as m. clear Heql Heqm s0 t f0 ft.
    induction F as [|a b l m H F IH]; [discriminate|]. inversion F; subst.
    - cbn in *. congruence.
    - cbn [llast] in Ls. unfold ends in *. cbn [last] in *. now apply IH. }
  apply state_energy_iff in Y as (fs & QQ & Y). assert (fs = ends (f0 :: ft)) by congruence. subst fs.
  apply energy_is_sum in Y. subst y.
  match type of H with (do _ <- ?a; _) = _ => destruct a as [g|] end; cbn [bind] in H; [|discriminate].
  injection H as <- <- <-. reflexivity.
Qed.

Lemma dot_dG ed es r rxns K c : relative_from_absolute true ed es = Ok r ->
  mapM rxn_formula_list es = Ok rxns -> NoDup K ->
  (forall fls f, In fls rxns -> In f (begins fls) \/ In f (ends fls) -> In (energy_name f) K) ->
  dot c (r_dG r) = Rsum (map (fun k => tab ed k * dot c (map (fun fls => IZR (produced k fls)) rxns)) K).
Proof.
  intros H M N HK. apply relative_from_absolute_ok in H as (l & H & ->). cbn [r_dG].
  apply mapM_ok_iff in H, M. revert rxns c M HK. induction H as [|e [[a b] d] es l H1 H IH]; intros rxns c M HK.
  - inversion M; subst. cbn. unfold dot. destruct c; cbn; symmetry; apply Rsum_zero; intros; ring.
  - inversion M as [|? fls ? rxns' M1 M2]; subst. destruct c as [|x c].
    { unfold dot. cbn. symmetry; apply Rsum_zero; intros; ring. }
    unfold dot in *. cbn [map combine Rsum fst snd].
    rewrite (IH rxns' c M2) by (intros g f Hg; apply (HK g f); now right).
    rewrite (single_energy ed e fls a b d M1 H1).
    rewrite (grouped_molecules ed K (ends fls) N) by (intros f Hf; apply (HK fls f); [now left|now right]).
    rewrite (grouped_molecules ed K (begins fls) N) by (intros f Hf; apply (HK fls f); [now left|now left]).
    unfold Rminus. rewrite <- (Rmult_1_l (Rsum (map (fun k => tab ed k * IZR (molecules k (begins fls))) K))), <- Ropp_mult_distr_l_reverse, <- Rsum_mul.
    rewrite <- Rsum_add, <- Rsum_mul, <- Rsum_add. apply Rsum_ext. intros k _.
    unfold produced. rewrite minus_IZR. ring.
Qed.

Lemma cycles_close ed es r rxns c : relative_from_absolute true ed es = Ok r ->
  mapM rxn_formula_list es = Ok rxns ->
  (forall name, dot c (map (fun fls => IZR (produced name fls)) rxns) = 0) -> dot c (r_dG r) = 0.
Proof.
  intros H M Z. set (K := nodup (list_eq_dec ascii_dec) (flat_map (fun fls => map energy_name (begins fls ++ ends fls)) rxns)).
  rewrite (dot_dG ed es r rxns K c H M).
  - apply Rsum_zero. intros k _. rewrite Z. ring.
  - apply NoDup_nodup.
  - intros fls f Hf Hor. apply nodup_In, in_flat_map. exists fls. split; auto. apply in_map, in_app_iff. exact Hor.
Qed.

(** Rate constants. *)
Lemma first_entry ed es r e : relative_from_absolute true ed es = Ok r -> In e es ->
  exists a b d, single_relative true ed e = Ok (a, b, d).
Proof.
  intros H I. apply relative_from_absolute_ok in H as (l & H & _). apply mapM_ok_iff in H.
  induction H as [|x [[a b] d] es l H1 H IH]; [destruct I|]. destruct I as [->|I]; eauto.
Qed.

Lemma energies_exist o ed r e : relative_from_absolute true ed (o_rxns o) = Ok r -> In e (o_rxns o) ->
  exists a b d, energies_of o r e a b d /\ single_relative true ed e = Ok (a, b, d).
Proof.
  intros H I. destruct (first_entry _ _ _ _ H I) as (a & b & d & S). exists a, b, d. split; auto.
  destruct (index_first (o_rxns o) e I) as (j & _ & [J1 J2]). exists j. split; [exact J1|]. split; [exact J2|].
  destruct (relative_from_absolute_entries _ _ _ _ H) as [_ Q]. now apply (Q j e).
Qed.

Lemma ln_tst T a : 0 < T -> ln (frequency T * exp (- a / kT T)) = ln (frequency T) - a / kT T.
Proof.
  intro HT. rewrite ln_mult, ln_exp; [unfold Rdiv; ring| |apply exp_pos].
  unfold frequency, kT, kB_eV, h_eV. apply Rdiv_lt_0_compat; [apply Rmult_lt_0_compat|]; lra.
Qed.

Lemma kT_pos T : 0 < T -> 0 < kT T.
Proof. intro. unfold kT, kB_eV. apply Rmult_lt_0_compat; lra. Qed.

Lemma ln_constants ec o ed r : 0 < o_T o -> relative_from_absolute true ed (o_rxns o) = Ok r ->
  forall own, exists kf kr, rate_constants ec o (L "TST") (Some r) own = Ok (kf, kr) /\
    length kf = length (o_rxns o) /\ length kr = length (o_rxns o) /\
    forall i d, nth_error (r_dG r) i = Some d -> exists a b, nth_error kf i = Some a /\ nth_error kr i = Some b /\
      0 < a /\ 0 < b /\ ln a - ln b = - d / kT (o_T o).
Proof.
  intros HT H own.
  destruct (rate_constants_TST ec o (Some r) own r HT eq_refl) as (kf & kr & E & L1 & L2 & V).
  { intros e He. destruct (energies_exist _ _ _ _ H He) as (a & b & d & Q & _). eauto. }
  exists kf, kr. do 3 (split; [assumption|]). intros i d Hd.
  destruct (relative_from_absolute_entries _ _ _ _ H) as [(_ & _ & L3) Q].
  assert (Hl : (i < length (o_rxns o))%nat) by (rewrite <- L3; apply nth_error_Some; congruence).
  destruct (nth_error (o_rxns o) i) as [e|] eqn:He; [|apply nth_error_None in He; lia].
  destruct (energies_exist _ _ _ _ H (nth_error_In _ _ He)) as (a & b & d' & E1 & S).
  apply (Q i e a b d' He) in S as S'. destruct S' as (_ & _ & S3). assert (d' = d) by congruence. subst d'.
  destruct (V i e a b d He E1) as [V1 V2]. do 2 eexists. split; [exact V1|]. split; [exact V2|].
  assert (0 < frequency (o_T o)).
  { unfold frequency, kT, kB_eV, h_eV. apply Rdiv_lt_0_compat; [apply Rmult_lt_0_compat|]; lra. }
  split; [apply Rmult_lt_0_compat; auto; apply exp_pos|].
  split; [apply Rmult_lt_0_compat; auto; apply exp_pos|].
  rewrite !ln_tst by auto. rewrite <- (single_consistent _ _ _ _ _ S). unfold Rdiv. ring.
Qed.

Lemma dot_scale c x y k : length x = length y ->
  (forall i b, nth_error y i = Some b -> exists a, nth_error x i = Some a /\ a = k * b) -> dot c x = k * dot c y.
Proof.
  revert x y; induction c as [|u c IH]; intros [|a x] [|b y] HL H; unfold dot in *; cbn in *; try ring; try discriminate.
  destruct (H 0%nat b eq_refl) as (a' & Ha & ->). cbn in Ha. injection Ha as ->.
  rewrite (IH x y); [ring|congruence|]. intros i b' Hb. exact (H (S i) b' Hb).
Qed.

Lemma dot_minus c x y : length x = length y ->
  dot c (map (fun p => fst p - snd p) (combine x y)) = dot c x - dot c y.
Proof.
  revert x y; induction c as [|u c IH]; intros [|a x] [|b y] HL; unfold dot in *; cbn in *; try ring; try discriminate.
  rewrite IH by congruence. ring.
Qed.

Lemma constants_close ec o own ed r rxns c : 0 < o_T o -> relative_from_absolute true ed (o_rxns o) = Ok r ->
  mapM rxn_formula_list (o_rxns o) = Ok rxns ->
  (forall name, dot c (map (fun fls => IZR (produced name fls)) rxns) = 0) ->
  exists kf kr, rate_constants ec o (L "TST") (Some r) own = Ok (kf, kr) /\
    (forall k, In k kf \/ In k kr -> 0 < k) /\ dot c (map ln kf) = dot c (map ln kr).
Proof.
  intros HT H M Z. destruct (ln_constants ec o ed r HT H own) as (kf & kr & E & L1 & L2 & V).
  destruct (relative_from_absolute_entries _ _ _ _ H) as [(_ & _ & L3) _].
  exists kf, kr. split; [exact E|]. split.
  - intros k Hk. assert (exists i, nth_error kf i = Some k \/ nth_error kr i = Some k) as [i Hi].
    { destruct Hk as [Hk|Hk]; apply In_nth_error in Hk as [i Hi]; eauto. }
    assert (Hl : (i < length (r_dG r))%nat) by (rewrite L3; destruct Hi as [Hi|Hi]; [rewrite <- L1|rewrite <- L2]; apply nth_error_Some; congruence).
    destruct (nth_error (r_dG r) i) as [d|] eqn:Hd; [|apply nth_error_None in Hd; lia].
    destruct (V i d Hd) as (a & b & Ha & Hb & P1 & P2 & _). destruct Hi; congruence.
  - assert (dot c (map ln kf) - dot c (map ln kr) = 0); [|lra].
    rewrite <- dot_minus by (rewrite !map_length; congruence).
    rewrite (dot_scale c _ (r_dG r) (- / kT (o_T o))).
    + rewrite (cycles_close ed _ r rxns c H M Z). ring.
    + rewrite map_length, combine_length, !map_length. lia.
    + intros i d Hd. destruct (V i d Hd) as (a & b & Ha & Hb & _ & _ & Q).
      exists (ln a - ln b). split; [|rewrite Q; unfold Rdiv; ring].
      assert (nth_error (combine (map ln kf) (map ln kr)) i = Some (ln a, ln b)) as N.
      { apply nth_error_combine; now apply map_nth_error. }
      now rewrite (map_nth_error _ _ _ N).
Qed.

(** Reference energies. *)
Lemma sum_swap_ref xs atom fs :
  Rsum (map (fun f => IZR (f_stoich f) * Rsum (map (fun x => atom x * IZR (atoms_in_species x (f_species f))) xs)) fs)
  = Rsum (map (fun x => atom x * IZR (total_atoms x fs)) xs).
Proof.
  induction fs as [|f fs IH].
  - cbn. symmetry. apply Rsum_zero. intros x _. unfold total_atoms. cbn. ring.
  - cbn [map Rsum]. rewrite IH, <- Rsum_mul, <- Rsum_add. apply Rsum_ext. intros x _.
    unfold total_atoms. cbn [map sum_Z]. rewrite plus_IZR, mult_IZR. ring.
Qed.

Definition surfaceb (t : str) : bool := negb (str_eqb t (L "g")) && negb (str_eqb t (L "l")).
Lemma surfaceb_iff t : surfaceb t = true <-> surface_site t.
Proof.
  unfold surfaceb, surface_site. rewrite andb_true_iff, !negb_true_iff. split; intros [A B]; split.
  - intros ->. discriminate.
  - intros ->. discriminate.
  - destruct (str_eqb t (L "g")) eqn:Q; auto. apply str_eqb_eq in Q. contradiction.
  - destruct (str_eqb t (L "l")) eqn:Q; auto. apply str_eqb_eq in Q. contradiction.
Qed.

Lemma reference_total xs atom site K fs : NoDup K -> (forall f, In f fs -> In (f_site f) K) ->
  state_sum (reference xs atom site) fs
  = Rsum (map (fun x => atom x * IZR (total_atoms x fs)) xs)
    + Rsum (map (fun t => (if surfaceb t then site t else 0) * IZR (total_sites t fs)) K).
Proof.
  intros N H. unfold state_sum, reference.
  rewrite <- sum_swap_ref.
  unfold total_sites.
  rewrite <- (grouped f_site (fun f => (f_nsite f * f_stoich f)%Z) (fun t => if surfaceb t then site t else 0) K fs N H).
  rewrite <- Rsum_add. apply Rsum_ext. intros f _. unfold surfaceb.
  destruct (str_eqb (f_site f) (L "g")); [cbn [negb andb]; ring|].
  destruct (str_eqb (f_site f) (L "l")); cbn [negb andb]; [ring|]. rewrite mult_IZR. ring.
Qed.

Lemma reference_balanced xs atom site a b : balanced a b ->
  state_sum (reference xs atom site) a = state_sum (reference xs atom site) b.
Proof.
  intros [A S]. set (K := nodup (list_eq_dec ascii_dec) (map f_site (a ++ b))).
  assert (N : NoDup K) by apply NoDup_nodup.
  assert (HK : forall f, In f (a ++ b) -> In (f_site f) K) by (intros f Hf; now apply nodup_In, in_map).
  rewrite (reference_total xs atom site K a N) by (intros f Hf; apply HK, in_app_iff; now left).
  rewrite (reference_total xs atom site K b N) by (intros f Hf; apply HK, in_app_iff; now right).
  f_equal; apply Rsum_ext.
  - intros x _. now rewrite A.
  - intros t _. destruct (surfaceb t) eqn:Q; [|ring]. rewrite S; auto. now apply surfaceb_iff.
Qed.

Lemma energy_shift (ref : formula -> R) ed ed' fs e :
  (forall f x, In f fs -> dget ed (energy_name f) = Some x -> dget ed' (energy_name f) = Some (x + ref f)) ->
  energy_is ed fs e -> energy_is ed' fs (e + state_sum ref fs).
Proof.
  intros H (es & F & ->). exists (map (fun p => snd p + ref (fst p)) (combine fs es)). split.
  - induction F as [|f x fs es (n & Hn & Hd) F IH]; [constructor|]. cbn [combine map fst snd]. constructor.
    + exists (energy_name f). split; [apply energy_name_for|]. apply H; [now left|].
      now rewrite <- (name_for_fun _ _ _ Hn (energy_name_for f)).
    + apply IH. intros; apply H; [now right|assumption].
  - unfold weigh, state_sum. clear H. induction F as [|f x fs es _ F IH]; cbn; [ring|].
    rewrite <- IH. ring.
Qed.

Lemma accepted_balanced e fls : rxn_check_conservation e = Ok true -> rxn_formula_list e = Ok fls -> fls <> [] ->
  forall a b, In a fls -> In b fls -> balanced a b.
Proof.
  intros C F N a b Ha Hb.
  destruct (check_parsed e fls F N) as [[A _]|[_ B]]; [|congruence]. exact (proj1 (A a b Ha Hb)).
Qed.

Lemma state_shift ref ed ed' st fs e : state_formulas st = Ok fs ->
  (forall f x, In f fs -> dget ed (energy_name f) = Some x -> dget ed' (energy_name f) = Some (x + ref f)) ->
  state_energy ed st = Ok e -> state_energy ed' st = Ok (e + state_sum ref fs).
Proof.
  intros F H E. apply state_energy_iff in E as (fs' & F' & E). assert (fs' = fs) by congruence. subst.
  apply state_energy_iff. exists fs. split; auto. now apply (energy_shift ref ed ed').
Qed.

Lemma Ok_eq3 (a b c a' b' c' : R) : a = a' -> b = b' -> c = c' -> Ok (a, b, c) = Ok (a', b', c').
Proof. congruence. Qed.

Lemma single_shift xs atom site ed ed' e fls t : 
  rxn_check_conservation e = Ok true -> rxn_formula_list e = Ok fls -> (2 <= length fls)%nat ->
  (forall st f x, In st fls -> In f st -> dget ed (energy_name f) = Some x ->
     dget ed' (energy_name f) = Some (x + reference xs atom site f)) ->
  single_relative true ed e = Ok t -> single_relative true ed' e = Ok t.
Proof.
  intros C F N2 H. assert (N : fls <> []) by (destruct fls; [cbn in N2; lia|discriminate]).
  pose proof (accepted_balanced e fls C F N) as B. pose proof F as F'.
  apply formula_list_tolist in F as (sts & E & F2).
  assert (exists Lam, forall st s, In st fls -> state_formulas s = Ok st ->
            forall y, state_energy ed s = Ok y -> state_energy ed' s = Ok (y + Lam)) as [Lam S].
  { destruct fls as [|a fls]; [congruence|]. exists (state_sum (reference xs atom site) a).
    intros st s Hst Hs y Hy. rewrite (reference_balanced xs atom site a st) by (apply B; [now left|assumption]).
    apply (state_shift _ ed); auto. intros f x Hf. now apply (H st). }
  assert (Hin : forall s, In s sts -> exists st, In st fls /\ state_formulas s = Ok st).
  { clear -F2. induction F2 as [|s st ss sts0 Hs F2 IH]; intros u Hu; [destruct Hu|]. destruct Hu as [<-|Hu]; [exists st; split; auto; now left|].
    destruct (IH u Hu) as (st' & ? & ?). exists st'. split; auto. now right. }
  assert (S' : forall s y, In s sts -> state_energy ed s = Ok y -> state_energy ed' s = Ok (y + Lam)).
  { intros s y Hs Hy. destruct (Hin s Hs) as (st & H1 & H2). now apply (S st s). }
  unfold single_relative. rewrite E. cbn [negb bind].
  destruct (tolist_states e sts E) as [_ Hlen].
  destruct sts as [|s0 [|s1 [|s2 [|? ?]]]]; cbn [lfirst llast bind length Nat.eqb lindex nth_error].
  - discriminate.
  - exfalso. apply Forall2_length in F2. cbn in *. lia.
  - destruct (state_energy ed s0) as [x0|] eqn:X0; cbn [bind]; [|discriminate].
    destruct (state_energy ed s1) as [x1|] eqn:X1; cbn [bind]; [|discriminate].
    rewrite (S' s0 x0) by (auto; now left). rewrite (S' s1 x1) by (auto; now right; left). cbn [bind].
    intro Q. injection Q as <-. apply Ok_eq3; try ring; unfold Rmax; repeat destruct (Rle_dec _ _); lra.
  - destruct (state_energy ed s0) as [x0|] eqn:X0; cbn [bind]; [|discriminate].
    destruct (state_energy ed s2) as [x2|] eqn:X2; cbn [bind]; [|discriminate].
    unfold lindex. cbn [nth_error bind].
    destruct (state_energy ed s1) as [x1|] eqn:X1; cbn [bind]; [|discriminate].
    rewrite (S' s0 x0) by (auto; now left). rewrite (S' s1 x1) by (auto; now right; left).
    rewrite (S' s2 x2) by (auto; now right; right; left). cbn [bind].
    intro Q. injection Q as <-. apply Ok_eq3; ring.
  - exfalso. apply Forall2_length in F2. cbn in *. lia.
Qed.

Lemma rereference es p xs atom site ed ed' r : parse_rxns es = Ok p ->
  (forall fls, In fls (l_rxns p) -> 2 <= length fls)%nat ->
  rereferenced (reference xs atom site) (l_rxns p) ed ed' ->
  relative_from_absolute true ed es = Ok r -> relative_from_absolute true ed' es = Ok r.
Proof.
  intros P N H E. apply relative_from_absolute_ok in E as (l & E & ->). apply relative_from_absolute_ok. exists l.
  split; [|reflexivity]. apply mapM_ok_iff. apply mapM_ok_iff in E.
  apply parse_rxns_iff in P as [F (rxns & M & ->)]. cbn [l_rxns] in H, N. apply mapM_ok_iff in M.
  revert rxns M H N. induction E as [|e t es l E1 E IH]; intros rxns M H N; [constructor|].
  inversion M as [|? fls ? rxns' M1 M2]; subst. inversion F as [|? ? F1 F2]; subst. constructor.
  - apply (single_shift xs atom site ed ed' e fls); auto.
    + apply N. now left.
    + intros st f x Hst Hf. apply H. exists fls, st. repeat split; auto. now left.
  - apply (IH F2 rxns' M2); [|intros; apply N; now right]. intros f x (g & st & Hg & Hst & Hf). apply H. exists g, st. repeat split; auto. now right.
Qed.
