(** Proofs about the palette and the replacing of pixels (C96). *)
From Coq Require Import String Ascii List ZArith QArith Qabs Bool Lia Lqa Permutation Sorted.
Import ListNotations.
From Verif Require Import PyBase PyBaseFacts Script_Model Quant_Model Quant_Spec Quant_Proofs Quant_Learn.
Local Open Scope list_scope.
Local Open Scope Z_scope.

(** ** Rounding *)
Lemma level_byte x : byte (level x).
Proof. unfold byte, level. lia. Qed.

Lemma trunc_half x : (0 <= x)%Q ->
  let t := trunc ((1 # 2) + x)%Q in 0 <= t /\ (inject_Z t - (1 # 2) <= x /\ x < inject_Z t + (1 # 2))%Q.
Proof.
  intros H. destruct x as [a d]. cbn zeta. unfold trunc, Qplus, Qle, Qlt, inject_Z in *. cbn -[Z.mul Z.quot] in *.
  set (num := 1 * Z.pos d + a * 2). assert (Hn : 0 <= num) by (unfold num; lia).
  assert (Hd : 0 < Z.pos (2 * d)) by lia.
  rewrite Z.quot_div_nonneg by lia.
  pose proof (Z.div_mod num (Z.pos (2 * d)) ltac:(lia)) as E.
  pose proof (Z.mod_pos_bound num (Z.pos (2 * d)) ltac:(lia)) as B.
  pose proof (Z.div_pos num (Z.pos (2 * d)) Hn Hd) as P.
  set (q := num / Z.pos (2 * d)) in *. set (r := num mod Z.pos (2 * d)) in *.
  rewrite Pos2Z.inj_mul in *. unfold num in *.
  split; [exact P|]. split; cbn -[Z.mul] ; nia.
Qed.

Lemma level_near x : inside x -> rounds_to x (level x).
Proof.
  intros [H1 H2]. destruct (trunc_half x H1) as (P & A & B). unfold rounds_to, level.
  set (t := trunc ((1 # 2) + x)%Q) in *.
  assert (T : t <= 255).
  { assert (H : (inject_Z t - (1 # 2) <= 255)%Q) by (eapply Qle_trans; eassumption).
    unfold Qle, Qminus, Qplus, Qopp, inject_Z in H. cbn -[Z.mul] in H. lia. }
  rewrite Z.max_r, Z.min_r by lia. split; assumption.
Qed.

Lemma fix_colors_nth l : forall i, nth_error (fix_colors l) i = option_map (fix_row i) (nth_error l i).
Proof.
  assert (G : forall l k i, nth_error (map (fun p => fix_row (fst p) (snd p)) (combine (seq k (length l)) l)) i
             = option_map (fix_row (k + i)) (nth_error l i)).
  { induction l0 as [|x t IH]; intros k i; [destruct i; reflexivity|]. destruct i as [|i]; cbn.
    - rewrite Nat.add_0_r. reflexivity.
    - rewrite IH. rewrite Nat.add_succ_r. reflexivity. }
  intros i. apply (G l 0%nat).
Qed.
Lemma fix_colors_length l : length (fix_colors l) = length l.
Proof. unfold fix_colors. rewrite map_length, combine_length, seq_length. lia. Qed.

Lemma fix_colors_bytes l : Forall bytes_row (fix_colors l).
Proof.
  apply Forall_nth. intros i r E. rewrite fix_colors_nth in E. destruct (nth_error l i) as [[[a b] c]|]; [|discriminate].
  injection E as <-. cbn. auto using level_byte.
Qed.
Lemma fix_colors_rounded l : Forall visible_color l -> rounded_all l (fix_colors l).
Proof.
  intros F. split; [apply fix_colors_length|]. intros i n r E1 E2. rewrite fix_colors_nth, E1 in E2.
  injection E2 as <-. pose proof (nth_Forall _ _ _ _ F E1) as V. destruct n as [[a b] c], V as (V1 & V2 & V3).
  cbn. auto using level_near.
Qed.

(** ** Sorting *)
Lemma smallest_spec l : forall pos val j, (pos < j)%nat ->
  (smallest pos val j l = pos /\ Forall (fun q => val <= green q) l) \/
  (exists m q, smallest pos val j l = (j + m)%nat /\ nth_error l m = Some q /\ green q < val /\
    Forall (fun x => green q <= green x) l).
Proof.
  induction l as [|q t IH]; intros pos val j Hj; cbn [smallest]; [left; auto|].
  destruct (Z.ltb_spec (green q) val) as [L|G].
  - right. destruct (IH j (green q) (S j) ltac:(lia)) as [[E F]|(m & x & E & N & Lx & F)].
    + exists 0%nat, q. rewrite E, Nat.add_0_r. repeat split; auto. constructor; [lia|exact F].
    + exists (S m), x. rewrite E. repeat split; auto; try lia. constructor; [lia|exact F].
  - destruct (IH pos val (S j) ltac:(lia)) as [[E F]|(m & x & E & N & Lx & F)].
    + left. rewrite E. split; auto.
    + right. exists (S m), x. rewrite E. repeat split; auto; try lia. constructor; [lia|exact F].
Qed.

Lemma alter_perm {A} (t : list A) : forall m p q, nth_error t m = Some q -> Permutation (p :: t) (q :: alter t m (fun _ => p)).
Proof.
  induction t as [|x t IH]; intros m p q E; [destruct m; discriminate|]. destruct m as [|m]; cbn in *.
  - injection E as ->. apply perm_swap.
  - etransitivity; [apply perm_swap|]. etransitivity; [|apply perm_swap]. constructor. apply IH, E.
Qed.

Lemma sort_green_ok k : forall l, (length l <= k)%nat ->
  Permutation l (sort_green k l) /\ StronglySorted (fun x y => green x <= green y) (sort_green k l).
Proof.
  induction k as [|k IH]; intros l Hl.
  - destruct l; [|cbn in Hl; lia]. cbn. split; constructor.
  - destruct l as [|p t]; [cbn; split; constructor|]. cbn [sort_green].
    cbn [length] in Hl.
    destruct (smallest_spec t 0%nat (green p) 1%nat ltac:(lia)) as [[E F]|(m & q & E & N & Lx & F)]; rewrite E.
    + destruct (IH t ltac:(lia)) as [P S0]. split; [constructor; exact P|]. constructor; [exact S0|].
      eapply Permutation_Forall; [exact P|exact F].
    + cbn [Nat.add]. rewrite N. pose proof (alter_perm t m p q N) as PP.
      destruct (IH (alter t m (fun _ => p)) ltac:(rewrite alter_length; lia)) as [P S0]. split.
      * etransitivity; [exact PP|]. constructor. exact P.
      * constructor; [exact S0|]. eapply Permutation_Forall; [exact P|].
        assert (FF : Forall (fun x => green q <= green x) (p :: t)) by (constructor; [lia|exact F]).
        pose proof (Permutation_Forall PP FF) as W. inversion W; auto.
Qed.

(** ** The palette as a whole *)
Lemma small_picture py junk size mode pixels sf colors : fst size * snd size < 503 ->
  neu_quant py junk size mode pixels sf colors = Err IOError.
Proof. intros H. unfold neu_quant. apply Z.ltb_lt in H. rewrite H. reflexivity. Qed.
Lemma other_mode py junk size mode pixels sf colors : mode <> L "RGBA" ->
  neu_quant py junk size mode pixels sf colors = Err IOError.
Proof.
  intros H. unfold neu_quant. destruct (_ <? _); [reflexivity|].
  destruct (str_eqb_spec mode (L "RGBA")); [contradiction|reflexivity].
Qed.

Lemma neu_quant_unfold py junk w h pixels sf colors : 503 <= w * h ->
  neu_quant py junk (w, h) (L "RGBA") pixels sf colors
  = (do s <- set_up colors junk; do s' <- learn py pixels sf s;
     Ok (sort_green (length (fix_colors (network s'))) (fix_colors (network s')))).
Proof.
  intros H. unfold neu_quant. cbn [fst snd]. apply Z.ltb_ge in H. rewrite H. reflexivity.
Qed.

Lemma sound_visible n bg s : sound n bg s -> visible_color bg -> Forall visible_color (network s).
Proof.
  intros [] V. rewrite <- (firstn_skipn 3 (network s)). apply Forall_app. split; [|assumption].
  rewrite sound_specials. repeat constructor; try (cbn; unfold inside; repeat split; lra). exact V.
Qed.

(** ** Colours that are exact *)
Lemma rounds_whole z r : rounds_to (inject_Z z) r -> r = z.
Proof. intros [A B]. unfold Qle, Qlt, Qminus, Qplus, Qopp, inject_Z in *. cbn [Qnum Qden] in *. lia. Qed.

Lemma specials_kept neurons rows p : firstn 3 neurons = [(0, 0, 0); (255, 255, 255); rgb_of p]%Q ->
  rounded_all neurons rows ->
  In (0, 0, 0) (map of_row rows) /\ In (255, 255, 255) (map of_row rows) /\ In (p mod 256, p / 256 mod 256, p / 65536 mod 256) (map of_row rows).
Proof.
  intros F [EL R].
  assert (N : forall k, (k < 3)%nat -> nth_error neurons k = nth_error [(0, 0, 0); (255, 255, 255); rgb_of p]%Q k).
  { intros k K. rewrite <- F. symmetry. apply nth_error_firstn_lt. exact K. }
  assert (Len : (3 <= length neurons)%nat).
  { apply (f_equal (@length rgb)) in F. rewrite firstn_length in F. cbn [length] in F. lia. }
  assert (G : forall k x y z, (k < 3)%nat -> nth_error neurons k = Some (inject_Z x, inject_Z y, inject_Z z) ->
    In (x, y, z) (map of_row rows)).
  { intros k x y z K E. destruct (nth_error rows k) as [r|] eqn:E2.
    - specialize (R k _ _ E E2). destruct r as [[[a b] c] i]. destruct R as (_ & R1 & R2 & R3).
      apply rounds_whole in R1, R2, R3. subst. apply in_map_iff. exists (x, y, z, i). split; [reflexivity|].
      eapply nth_error_In. exact E2.
    - apply nth_error_None in E2. unfold rgb, row in *; lia. }
  split; [|split].
  - apply (G 0%nat); [lia|]. rewrite N by lia. reflexivity.
  - apply (G 1%nat); [lia|]. rewrite N by lia. reflexivity.
  - apply (G 2%nat); [lia|]. rewrite N by lia. reflexivity.
Qed.

Lemma trained junk w h pixels sf colors : (3 < colors)%nat -> 503 <= w * h -> 1 <= sf ->
  100 * sf <= Z.of_nat (length pixels) ->
  exists p s1 s2 rows cm, nth_error pixels 0 = Some p /\ initial colors (rgb_of p) s1 /\
    studied pixels (schedule (Z.of_nat (length pixels)) (Z.of_nat colors) sf) s1 s2 /\
    sound colors (rgb_of p) s2 /\ rounded_all (network s2) rows /\
    neu_quant Python2 junk (w, h) (L "RGBA") pixels sf colors = Ok cm /\
    Permutation rows cm /\ StronglySorted (fun x y => green x <= green y) cm /\ Forall bytes_row cm /\
    In (0, 0, 0) (map of_row cm) /\ In (255, 255, 255) (map of_row cm) /\
    In (p mod 256, p / 256 mod 256, p / 65536 mod 256) (map of_row cm).
Proof.
  intros Hc Hs H1 H2.
  destruct pixels as [|p ps] eqn:EP; [cbn [length Z.of_nat] in H2; lia|]. rewrite <- EP in *.
  assert (E0 : nth_error pixels 0 = Some p) by (rewrite EP; reflexivity).
  assert (NP : nth 0 pixels 0 = p) by (rewrite EP; reflexivity).
  destruct (learn_studied colors junk pixels p sf Hc H1 H2 E0) as (s & s1 & s2 & Es & I1 & L1 & St).
  destruct (set_up_sound colors junk Hc) as (s0 & Es0 & S0). rewrite Es in Es0. injection Es0 as <-.
  destruct (learn_sound colors junk s pixels sf) as (s2' & L2 & S2); auto. rewrite L1 in L2. injection L2 as <-.
  rewrite NP, color_rgb in S2.
  assert (V : Forall visible_color (network s2)).
  { eapply sound_visible; [exact S2|]. rewrite <- color_rgb. apply color_of_visible. }
  pose proof (fix_colors_rounded _ V) as R.
  destruct (sort_green_ok (length (fix_colors (network s2))) (fix_colors (network s2)) (le_n _)) as [P So].
  destruct (specials_kept _ _ p (sound_specials _ _ _ S2) R) as (K1 & K2 & K3).
  pose proof (Permutation_map of_row P) as PM.
  exists p, s1, s2, (fix_colors (network s2)), (sort_green (length (fix_colors (network s2))) (fix_colors (network s2))).
  split; [exact E0|]. split; [exact I1|]. split; [exact St|]. split; [exact S2|]. split; [exact R|]. split.
  { rewrite neu_quant_unfold by assumption. rewrite Es. cbn [bind]. rewrite L1. reflexivity. }
  split; [exact P|]. split; [exact So|]. split; [eapply Permutation_Forall; [exact P|apply fix_colors_bytes]|].
  split; [eapply Permutation_in; eassumption|]. split; eapply Permutation_in; eassumption.
Qed.

(** ** The numbers of the palette *)
Lemma flat3_nth (cm : list row) : forall i,
  let l := flat_map (fun r : row => match r with (x, y, z, _) => [x; y; z] end) cm in
  nth_error l (3 * i) = option_map (fun r => fst (fst (of_row r))) (nth_error cm i) /\
  nth_error l (3 * i + 1) = option_map (fun r => snd (fst (of_row r))) (nth_error cm i) /\
  nth_error l (3 * i + 2) = option_map (fun r => snd (of_row r)) (nth_error cm i).
Proof.
  induction cm as [|[[[x y] z] k] t IH]; intros i; cbn zeta; cbn [flat_map].
  - destruct i; repeat split; try reflexivity; cbn [nth_error option_map]; apply nth_error_None; cbn; lia.
  - destruct i as [|i]; [repeat split; reflexivity|].
    replace (3 * S i)%nat with (S (S (S (3 * i)))) by lia. cbn [Nat.add app nth_error]. apply IH.
Qed.
Lemma flat3_length (cm : list row) :
  length (flat_map (fun r : row => match r with (x, y, z, _) => [x; y; z] end) cm) = (3 * length cm)%nat.
Proof. induction cm as [|[[[x y] z] k] t IH]; [reflexivity|]. cbn [flat_map app length]. rewrite IH. lia. Qed.

Lemma palette_ok cm : (length cm <= 256)%nat ->
  length (palette cm) = 768%nat /\
  (forall i x y z k, nth_error cm i = Some (x, y, z, k) ->
     nth_error (palette cm) (3 * i) = Some x /\ nth_error (palette cm) (3 * i + 1) = Some y /\
     nth_error (palette cm) (3 * i + 2) = Some z) /\
  (forall i, (3 * length cm <= i < 768)%nat -> nth_error (palette cm) i = Some 0).
Proof.
  intros H. unfold palette. split; [|split].
  - rewrite app_length, flat3_length, repeat_length. lia.
  - intros i x y z k E. assert (I : (i < length cm)%nat) by (apply nth_error_Some; congruence).
    destruct (flat3_nth cm i) as (A & B & C). rewrite E in A, B, C. cbn [option_map of_row fst snd] in A, B, C.
    rewrite !nth_error_app1 by (rewrite flat3_length; lia). auto.
  - intros i I. rewrite nth_error_app2 by (rewrite flat3_length; lia). rewrite flat3_length.
    apply nth_error_repeat. lia.
Qed.

(** ** The nearest colour *)
(** [nearest] and [first_nearest] in terms of the model. *)
Definition near (colormap : list row) (c d : color) : Prop :=
  In d (map of_row colormap) /\ forall e, In e (map of_row colormap) -> dist2 d c <= dist2 e c.
Definition fnear (colormap : list row) (c d : color) : Prop :=
  exists before r after, colormap = before ++ r :: after /\ of_row r = d /\
    Forall (fun x => dist2 d c < dist2 (of_row x) c) before /\
    Forall (fun x => dist2 d c <= dist2 (of_row x) c) after.
Lemma inject_Z_le a b : (inject_Z a <= inject_Z b)%Q <-> a <= b.
Proof. unfold Qle, inject_Z; cbn. lia. Qed.
Lemma inject_Z_lt a b : (inject_Z a < inject_Z b)%Q <-> a < b.
Proof. unfold Qlt, inject_Z; cbn. lia. Qed.

Lemma convert_ok cm c d : convert cm c = Ok d <-> fnear cm c d.
Proof.
  unfold convert, inxsearch. split.
  - destruct (argmin _) as [i|] eqn:E; [|discriminate]. cbn [bind]. apply argmin_iff in E.
    destruct E as (x & N & A & B). rewrite nth_error_map in N. unfold lindex.
    destruct (nth_error cm i) as [r|] eqn:Er; [|discriminate]. injection N as <-. intros H. injection H as <-.
    destruct (nth_error_split _ _ Er) as (be & af & -> & Lb).
    exists be, r, af. split; [reflexivity|]. split; [reflexivity|]. split.
    + apply Forall_nth. intros k y Ek. assert (K : (k < length be)%nat) by (apply nth_error_Some; congruence).
      apply inject_Z_lt. apply (B k); [lia|]. rewrite nth_error_map, nth_error_app1, Ek by lia. reflexivity.
    + apply Forall_nth. intros k y Ek. apply inject_Z_le. apply (A (length be + S k)%nat).
      rewrite nth_error_map, nth_error_app2 by lia. replace (length be + S k - length be)%nat with (S k) by lia.
      cbn [nth_error]. rewrite Ek. reflexivity.
  - intros (be & r & af & -> & <- & F1 & F2).
    assert (E : argmin (map (fun r0 => inject_Z (dist2 (of_row r0) c)) (be ++ r :: af)) = Ok (length be)).
    { apply argmin_iff. exists (inject_Z (dist2 (of_row r) c)).
      assert (X : forall k, nth_error (map (fun r0 => inject_Z (dist2 (of_row r0) c)) (be ++ r :: af)) k
                 = option_map (fun r0 => inject_Z (dist2 (of_row r0) c)) (nth_error (be ++ r :: af) k))
        by (intros; apply nth_error_map).
      split; [|split].
      - rewrite X, nth_error_app2, Nat.sub_diag by lia. reflexivity.
      - intros k y. rewrite X. destruct (nth_error _ k) as [z|] eqn:Ez; [|discriminate]. intros H. injection H as <-.
        apply inject_Z_le. apply nth_error_In in Ez. apply in_app_iff in Ez. destruct Ez as [I|[<-|I]].
        + rewrite Forall_forall in F1. specialize (F1 z I). lia.
        + lia.
        + rewrite Forall_forall in F2. exact (F2 z I).
      - intros k y K. rewrite X, nth_error_app1 by exact K. destruct (nth_error be k) as [z|] eqn:Ez; [|discriminate].
        intros H. injection H as <-. apply inject_Z_lt. rewrite Forall_forall in F1. apply F1.
        eapply nth_error_In; exact Ez. }
    rewrite E. cbn [bind]. unfold lindex. rewrite nth_error_app2, Nat.sub_diag by lia. reflexivity.
Qed.
Lemma convert_total cm c : cm <> [] -> exists d, convert cm c = Ok d.
Proof.
  intros H. unfold convert, inxsearch. destruct (argmin_ok (map (fun r => inject_Z (dist2 (of_row r) c)) cm)) as (i & E & F).
  { destruct cm; [contradiction|discriminate]. }
  rewrite E. cbn [bind]. apply first_least_length in F. rewrite map_length in F. unfold lindex.
  destruct (nth_error cm i) as [r|] eqn:Er; [eexists; reflexivity|]. apply nth_error_None in Er. lia.
Qed.
Lemma first_nearest_nearest cm c d : fnear cm c d -> near cm c d.
Proof.
  intros (be & r & af & -> & <- & F1 & F2). rewrite Forall_forall in F1, F2. split.
  - apply in_map. apply in_app_iff. right. left. reflexivity.
  - intros e I. apply in_map_iff in I. destruct I as (z & <- & I). apply in_app_iff in I. destruct I as [I|[<-|I]].
    + specialize (F1 z I). lia.
    + lia.
    + exact (F2 z I).
Qed.

(** ** Whole pictures *)
Definition get {A} (px : list (list A)) (i j : nat) : option A :=
  match nth_error px i with Some line => nth_error line j | None => None end.
Definition upd {A} (f : A -> A) (px : list (list A)) (ij : nat * nat) : list (list A) :=
  alter px (fst ij) (fun line => alter line (snd ij) f).

Lemma get_upd {A} (f : A -> A) px ij a b :
  get (upd f px ij) a b = if (a =? fst ij)%nat && (b =? snd ij)%nat then option_map f (get px a b) else get px a b.
Proof.
  unfold get, upd. rewrite nth_error_alter.
  destruct (Nat.eqb_spec a (fst ij)) as [->|H]; cbn [andb].
  - destruct (nth_error px (fst ij)) as [line|]; cbn [option_map]; [|destruct (_ =? _)%nat; reflexivity].
    rewrite nth_error_alter. destruct (b =? snd ij)%nat; [|reflexivity]. destruct (nth_error line b); reflexivity.
  - reflexivity.
Qed.
Lemma lengths_upd {A} (f : A -> A) px ij : map (@length A) (upd f px ij) = map (@length A) px.
Proof.
  unfold upd. destruct ij as [i j]. cbn [fst snd]. revert i. induction px as [|x t IH]; intros i; [reflexivity|].
  destruct i; cbn [alter map]; [rewrite alter_length; reflexivity|f_equal; apply IH].
Qed.
Lemma picture_ext {A} (a : list (list A)) : forall b, map (@length A) a = map (@length A) b ->
  (forall i j, get a i j = get b i j) -> a = b.
Proof.
  induction a as [|x t IH]; intros [|y u] E G; try discriminate; [reflexivity|]. cbn in E. injection E as E1 E2. f_equal.
  - apply nth_error_ext. intros k. exact (G 0%nat k).
  - apply IH; [exact E2|]. intros i j. exact (G (S i) j).
Qed.

Definition shade (cm : list row) (p : pixel) : pixel :=
  match convert cm (of_row p) with Ok v => recolor p v | Err _ => p end.

Lemma color_eqb_eq x y : color_eqb x y = true -> x = y.
Proof.
  destruct x as [[a b] c], y as [[d e] f]. unfold color_eqb. intros H.
  apply andb_true_iff in H. destruct H as [H H3]. apply andb_true_iff in H. destruct H as [H1 H2].
  apply Z.eqb_eq in H1, H2, H3. subst. reflexivity.
Qed.

Lemma quantize_all_ok cm l : cm <> [] -> forall m px,
  (forall c v, In (c, v) m -> convert cm c = Ok v) ->
  NoDup l -> (forall ij, In ij l -> get px (fst ij) (snd ij) <> None) ->
  exists px', quantize_all cm m px l = Ok px' /\ map (@length pixel) px' = map (@length pixel) px /\
    forall i j, get px' i j = if existsb (fun ij => (i =? fst ij)%nat && (j =? snd ij)%nat) l
                              then option_map (shade cm) (get px i j) else get px i j.
Proof.
  intros C. induction l as [|[i j] t IH]; intros m px M N B.
  - exists px. repeat split.
  - inversion N as [|? ? NI ND]; subst. cbn [quantize_all]. unfold quantize_at. cbn [fst snd].
    pose proof (B (i, j) (or_introl eq_refl)) as G. cbn [fst snd] in G. unfold get in G. unfold lindex.
    destruct (nth_error px i) as [line|] eqn:E1; [|contradiction]. cbn [bind].
    destruct (nth_error line j) as [p|] eqn:E2; [|contradiction]. cbn [bind].
    match goal with |- context [bind (bind ?X _) _] =>
      assert (V : exists v m', X = Ok (v, m') /\ convert cm (of_row p) = Ok v /\ (forall c v, In (c, v) m' -> convert cm c = Ok v)) end.
    { unfold recall. destruct (find _ m) as [[c v]|] eqn:F.
      - apply find_some in F. destruct F as [F1 F2]. cbn [fst snd] in *. apply color_eqb_eq in F2. subst c.
        exists v, m. auto.
      - destruct (convert_total cm (of_row p) C) as (v & Ev). rewrite Ev. cbn [bind]. exists v, ((of_row p, v) :: m).
        split; [reflexivity|]. split; [reflexivity|]. intros c w [I|I]; [injection I as <- <-; exact Ev|auto]. }
    destruct V as (v & m' & EV & CV & M'). rewrite EV. cbn [bind].
    change (alter px i (fun line0 => alter line0 j (fun p0 => recolor p0 v))) with (upd (fun p0 => recolor p0 v) px (i, j)).
    destruct (IH m' (upd (fun p0 => recolor p0 v) px (i, j)) M' ND) as (px' & E' & Len & GG).
    { intros [a b] I. cbn [fst snd]. rewrite get_upd. specialize (B (a, b) (or_intror I)). cbn [fst snd] in B.
      destruct (_ && _); [|exact B]. destruct (get px a b); [discriminate|contradiction]. }
    exists px'. split; [exact E'|]. split; [rewrite Len; apply lengths_upd|]. intros a b. rewrite GG, get_upd. cbn [existsb fst snd].
    destruct (Nat.eqb_spec a i) as [->|Ha]; cbn [andb orb]; [|reflexivity].
    destruct (Nat.eqb_spec b j) as [->|Hb]; cbn [andb orb]; [|reflexivity].
    replace (existsb _ t) with false.
    + unfold get. rewrite E1, E2. cbn [option_map]. unfold shade. rewrite CV. reflexivity.
    + symmetry. apply not_true_is_false. intros X. apply existsb_exists in X. destruct X as ([a b] & I & Y). cbn [fst snd] in Y.
      apply andb_true_iff in Y. destruct Y as [Y1 Y2]. apply Nat.eqb_eq in Y1, Y2. subst. contradiction.
Qed.

Lemma NoDup_app {A} (a b : list A) : NoDup a -> NoDup b -> (forall x, In x a -> In x b -> False) -> NoDup (a ++ b).
Proof.
  intros Na Nb D. induction Na as [|x t NI N IH]; [exact Nb|]. cbn. constructor.
  - rewrite in_app_iff. intros [I|I]; [contradiction|]. apply (D x); [left; reflexivity|exact I].
  - apply IH. intros y I J. apply (D y); [right; exact I|exact J].
Qed.
Lemma NoDup_grid w h : NoDup (flat_map (fun j => map (fun i => (i, j)) (seq 0 h)) (seq 0 w)).
Proof.
  generalize 0%nat at 2. induction w as [|w IH]; intros k; cbn [seq flat_map]; [constructor|].
  apply NoDup_app.
  - apply NoDup_map_on; [|apply seq_NoDup]. intros x y _ _ E. injection E as ->. reflexivity.
  - apply IH.
  - intros [a b] I J. apply in_map_iff in I. destruct I as (x & E & _). injection E as <- <-.
    apply in_flat_map in J. destruct J as (y & Y & J). apply in_seq in Y. apply in_map_iff in J.
    destruct J as (z & E & _). injection E as _ E. lia.
Qed.

Lemma quantize_map cm w h px : cm <> [] -> shape w h px ->
  quantize_without_scipy cm w h px = Ok (map (map (shade cm)) px).
Proof.
  intros C [SH SW]. unfold quantize_without_scipy.
  assert (In_grid : forall a b, In (a, b) (flat_map (fun j => map (fun i => (i, j)) (seq 0 h)) (seq 0 w)) <-> (a < h)%nat /\ (b < w)%nat).
  { intros a b. rewrite in_flat_map. split.
    - intros (j & J & I). apply in_map_iff in I. destruct I as (i & E & I). injection E as <- <-.
      apply in_seq in I. apply in_seq in J. lia.
    - intros [A B]. exists b. split; [apply in_seq; lia|]. apply in_map_iff. exists a. split; [reflexivity|apply in_seq; lia]. }
  assert (Full : forall a b, (a < h)%nat -> (b < w)%nat -> get px a b <> None).
  { intros a b A B. unfold get. destruct (nth_error px a) as [line|] eqn:E.
    - pose proof (nth_Forall _ _ _ _ SW E) as Q. cbn in Q. apply nth_error_Some. lia.
    - apply nth_error_None in E. lia. }
  destruct (quantize_all_ok cm (flat_map (fun j => map (fun i => (i, j)) (seq 0 h)) (seq 0 w)) C [] px) as (px' & E & Len & G).
  - intros ? ? [].
  - apply NoDup_grid.
  - intros [a b] I. apply In_grid in I. apply Full; tauto.
  - rewrite E. f_equal. apply picture_ext.
    + rewrite Len, map_map. apply map_ext. intros l. rewrite map_length. reflexivity.
    + intros a b. rewrite G.
      assert (Gm : get (map (map (shade cm)) px) a b = option_map (shade cm) (get px a b)).
      { unfold get. rewrite nth_error_map. destruct (nth_error px a); [|reflexivity]. cbn [option_map]. apply nth_error_map. }
      rewrite Gm. destruct (existsb _ _) eqn:X; [reflexivity|].
      destruct (get px a b) as [p|] eqn:Eg; [|reflexivity]. exfalso.
      assert (I : In (a, b) (flat_map (fun j => map (fun i => (i, j)) (seq 0 h)) (seq 0 w))).
      { apply In_grid. unfold get in Eg. destruct (nth_error px a) as [line|] eqn:El; [|discriminate].
        pose proof (nth_Forall _ _ _ _ SW El) as Q. cbn in Q. split.
        - rewrite <- SH. apply nth_error_Some. congruence.
        - rewrite <- Q. apply nth_error_Some. congruence. }
      assert (Y : existsb (fun ij => (a =? fst ij)%nat && (b =? snd ij)%nat) (flat_map (fun j => map (fun i => (i, j)) (seq 0 h)) (seq 0 w)) = true).
      { apply existsb_exists. exists (a, b). split; [exact I|]. cbn [fst snd]. rewrite !Nat.eqb_refl. reflexivity. }
      congruence.
Qed.

Lemma Forall2_map_same {A B} (R : A -> B -> Prop) (f : A -> B) l : (forall x, R x (f x)) -> Forall2 R l (map f l).
Proof. intros H. induction l; cbn; constructor; auto. Qed.

Lemma quantized cm w h px : cm <> [] -> shape w h px ->
  exists px', quantize_without_scipy cm w h px = Ok px' /\
    pixelwise (fun p p' => fnear cm (of_row p) (of_row p') /\ alpha_of p' = alpha_of p) px px'.
Proof.
  intros C S0. exists (map (map (shade cm)) px). split; [apply quantize_map; assumption|].
  apply Forall2_map_same. intros line. apply Forall2_map_same. intros p. unfold shade.
  destruct (convert_total cm (of_row p) C) as (v & E). rewrite E. apply convert_ok in E.
  destruct p as [[[r g] b] a], v as [[x y] z]. cbn [recolor of_row alpha_of] in *. auto.
Qed.

Lemma mapM_Forall2 {A B} (f : A -> res B) (R : A -> B -> Prop) l :
  (forall x, In x l -> exists y, f x = Ok y /\ R x y) -> exists l', mapM f l = Ok l' /\ Forall2 R l l'.
Proof.
  induction l as [|x t IH]; intros H; [exists []; split; [reflexivity|constructor]|].
  destruct (H x (or_introl eq_refl)) as (y & E & Rx). destruct IH as (t' & Et & Rt).
  { intros z I. apply H. right. exact I. }
  exists (y :: t'). cbn [mapM]. rewrite E. cbn [bind]. rewrite Et. split; [reflexivity|constructor; assumption].
Qed.

Lemma quantized_scipy query cm px :
  (forall c, exists d, nth_error (map of_row cm) (query (map of_row cm) c) = Some d /\
     forall e, In e (map of_row cm) -> dist2 d c <= dist2 e c) ->
  exists px', quantize_with_scipy query cm px = Ok px' /\
    pixelwise (fun p p' => near cm (of_row p) (of_row p') /\ alpha_of p' = alpha_of p) px px'.
Proof.
  intros Q. apply mapM_Forall2. intros line _. apply mapM_Forall2. intros p _.
  destruct (Q (of_row p)) as (d & E & D). pose proof (nth_error_In _ _ E) as I. rewrite nth_error_map in E. unfold lindex.
  destruct (nth_error cm _) as [r|]; [|discriminate]. injection E as E. cbn [bind]. rewrite E. eexists. split; [reflexivity|].
  destruct p as [[[x y] z] a], d as [[u v] w]. cbn [recolor of_row alpha_of] in *. split; [|reflexivity]. split; assumption.
Qed.

(** ** Failures *)
Lemma learn_python3 pixels sf s : learn Python3 pixels sf s = Err (if sf =? 0 then ZeroDivisionError else TypeError).
Proof. unfold learn. destruct (sf =? 0); reflexivity. Qed.

Lemma python3_palette junk w h pixels sf colors : (3 <= colors)%nat -> 503 <= w * h ->
  neu_quant Python3 junk (w, h) (L "RGBA") pixels sf colors = Err (if sf =? 0 then ZeroDivisionError else TypeError).
Proof.
  intros C H. rewrite neu_quant_unfold by exact H. unfold set_up. change SPECIALS with 3%nat.
  apply Nat.ltb_ge in C. rewrite C. cbn [bind]. rewrite learn_python3. reflexivity.
Qed.

Lemma sampled_few junk w h pixels sf colors : (3 < colors)%nat -> 503 <= w * h -> 1 <= sf ->
  sf <= Z.of_nat (length pixels) < 100 * sf ->
  neu_quant Python2 junk (w, h) (L "RGBA") pixels sf colors = Err ZeroDivisionError.
Proof.
  intros C H F B. rewrite neu_quant_unfold by exact H. destruct (set_up_sound colors junk C) as (s & E & S0).
  rewrite E. cbn [bind]. rewrite (learn_small colors junk s pixels sf) by assumption. reflexivity.
Qed.

Lemma sampled_none junk w h pixels sf colors : (3 < colors)%nat -> 503 <= w * h -> 1 <= sf ->
  Z.of_nat (length pixels) < sf ->
  exists s rows cm, initial colors junk s /\ neu_quant Python2 junk (w, h) (L "RGBA") pixels sf colors = Ok cm /\
    Permutation rows cm /\ (visible_color junk -> rounded_all (network s) rows).
Proof.
  intros C H F B. destruct (set_up_initial colors junk C) as (s & E & I).
  destruct (set_up_sound colors junk C) as (s0 & E0 & S0). rewrite E in E0. injection E0 as <-.
  exists s, (fix_colors (network s)), (sort_green (length (fix_colors (network s))) (fix_colors (network s))). split; [exact I|].
  split.
  { rewrite neu_quant_unfold by exact H. rewrite E. cbn [bind]. rewrite (learn_tiny s pixels sf) by assumption. reflexivity. }
  split; [apply sort_green_ok, le_n|]. intros V. apply fix_colors_rounded. eapply sound_visible; eassumption.
Qed.

Lemma few_colors py junk w h pixels sf colors : (colors < 3)%nat -> 503 <= w * h ->
  neu_quant py junk (w, h) (L "RGBA") pixels sf colors = Err IndexError.
Proof.
  intros C H. rewrite neu_quant_unfold by exact H. unfold set_up. change SPECIALS with 3%nat.
  apply Nat.ltb_lt in C. rewrite C. reflexivity.
Qed.

Lemma writer_fails py junk dither nq im ims : exists e, nq_images py junk dither nq (im :: ims) = Err e.
Proof.
  unfold nq_images. cbn [mapM]. unfold nq_image at 1. destruct (neu_quant _ _ _ _ _ _ _) as [cm|e]; cbn [bind]; [|eexists; reflexivity].
  destruct dither; eexists; reflexivity.
Qed.
Lemma writer_error junk dither nq w h pixels ims : 503 <= w * h -> 1 <= nq -> 100 * nq <= Z.of_nat (length pixels) ->
  nq_images Python2 junk dither nq (((w, h), pixels) :: ims) = Err (if dither then IndexError else TypeError).
Proof.
  intros H F B. unfold nq_images. cbn [mapM]. unfold nq_image at 1. cbn [fst snd].
  destruct (trained junk w h pixels nq 256) as (p & u1 & u2 & ro & cm & T); [repeat constructor|assumption..|].
  destruct T as (_ & _ & _ & _ & _ & E & _). rewrite E. cbn [bind]. destruct dither; reflexivity.
Qed.
Lemma writer_python3 junk dither nq w h pixels ims : 503 <= w * h -> 1 <= nq ->
  nq_images Python3 junk dither nq (((w, h), pixels) :: ims) = Err TypeError.
Proof.
  intros H F. unfold nq_images. cbn [mapM]. unfold nq_image at 1. cbn [fst snd]. rewrite python3_palette by (try assumption; repeat constructor).
  destruct (Z.eqb_spec nq 0); [lia|]. reflexivity.
Qed.
