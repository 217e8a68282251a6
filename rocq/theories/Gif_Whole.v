From Coq Require Import String Ascii List ZArith Bool Arith QArith Qround Lia.
Import ListNotations.
From Verif Require Import PyBase Gif_Model Gif_Spec Gif_Proofs Gif_File.
Local Open Scope list_scope.

Lemma nth_error_same {A} (a : list A) : forall b, (forall i, nth_error a i = nth_error b i) -> a = b.
Proof.
  induction a as [|x a IH]; intros [|y b] H; [reflexivity|discriminate (H 0%nat)|discriminate (H 0%nat)|].
  pose proof (H 0%nat) as E. injection E as ->. f_equal. apply IH. intros i. exact (H (S i)).
Qed.

Lemma Forall2_len {A B} (R : A -> B -> Prop) l m : Forall2 R l m -> length l = length m.
Proof. induction 1; cbn; congruence. Qed.

(** ** A frame that does not fit *)
Lemma write_frames_app tr g ds ss xys a : forall k bs n rest,
  write_frames tr g ds ss xys k a = (bs, Ok n) ->
  write_frames tr g ds ss xys k (a ++ rest) =
  let (bs', r) := write_frames tr g ds ss xys (k + length a) rest in (bs ++ bs', r).
Proof.
  induction a as [|p a IH]; intros k bs n rest E.
  - cbn in E. injection E as <- _. cbn [app length]. rewrite Nat.add_0_r.
    now destruct (write_frames tr g ds ss xys k rest).
  - cbn [app write_frames] in *.
    destruct (do d <- at_frame ds k; do s <- at_frame ss k; do xy <- at_frame xys k; frame_bytes tr g d s xy p) as [b|e];
      [|discriminate E].
    destruct (write_frames tr g ds ss xys (S k) a) as [bs1 r1] eqn:E1. injection E as <- ->.
    rewrite (IH (S k) bs1 n rest E1). cbn [length]. replace (S k + length a)%nat with (k + S (length a))%nat by lia.
    destruct (write_frames tr g ds ss xys (k + S (length a)) rest). now rewrite app_assoc.
Qed.

Lemma read_blocks_end fuel c : read_blocks fuel c [] = None.
Proof. now destruct fuel. Qed.

Theorem write_to_file_stops tr before p after blocks ds ss xys z d :
  Forall2 from_pil (before ++ p :: after) blocks ->
  length ds = length blocks -> length ss = length blocks -> length xys = length blocks ->
  Forall good_duration (firstn (length before) ds) -> nth_error ds (length before) = Some d ->
  (d * 100 <= -1 \/ inject_Z 65536 <= d * 100)%Q -> Forall fits2 xys -> fits z ->
  exists bs, write_to_file tr (before ++ p :: after) ds (Some z) xys ss = (bs, Err OverflowError) /\
    bs <> [] /\ read_gif bs = None.
Proof.
  intros F Ld Ls Lx Fd Dd Bd Fx Fz.
  assert (LB : length blocks = (length before + S (length after))%nat).
  { rewrite <- (Forall2_len _ _ _ F), app_length. reflexivity. }
  destruct (global_palette_exact (map p_palette (before ++ p :: after))) as (gl & Eg & Mg);
    [now destruct before|].
  assert (Lg : Z.of_nat (length gl) = 768%Z).
  { destruct Mg as (b & a & E & _). assert (I : In gl (map p_palette (before ++ p :: after))) by (rewrite E; apply in_elt).
    apply in_map_iff in I. destruct I as (q & <- & I). clear -F I.
    induction F as [|x y l m H _ IH]; [contradiction|]. destruct I as [->|I]; [apply H|now apply IH]. }
  apply Forall2_app_inv_l in F. destruct F as (bl1 & bl2 & F1 & F2 & ->).
  assert (G : forall i d, (i < length before)%nat -> nth_error ds i = Some d -> good_duration d).
  { intros i d' Hi E. rewrite Forall_forall in Fd. apply Fd.
    rewrite <- (firstn_skipn (length before) ds), nth_error_app1 in E; [exact (nth_error_In _ _ E)|].
    rewrite firstn_length. assert (i < length ds)%nat by (apply nth_error_Some; rewrite firstn_skipn in E; congruence). lia. }
  destruct (write_frames_read tr gl ds ss xys (length before) G Fx before bl1 F1 0)
    as (bs & fs & E & Bb & Lb & Lf & _ & R); [cbn; lia..|].
  destruct (app_ext_ok z Fz) as (a & Ea & Ba & Sa).
  assert (EW : write_frames tr gl ds ss xys 0 (before ++ p :: after) = (bs, Err OverflowError)).
  { rewrite (write_frames_app _ _ _ _ _ _ _ _ _ (p :: after) E). cbn [plus write_frames]. unfold at_frame.
    rewrite Dd. destruct (nth_error_ex ss (length before)) as [s S1]; [lia|].
    destruct (nth_error_ex xys (length before)) as [xy X1]; [lia|]. rewrite S1, X1. cbn [bind].
    unfold frame_bytes. rewrite control_ext_err by (exact Bd || (destruct tr; auto)). cbn [bind].
    now rewrite app_nil_r. }
  destruct (before ++ p :: after) as [|p0 rest] eqn:EP; [now destruct before|].
  assert (FW : fits (p_w p0) /\ fits (p_h p0)).
  { destruct before as [|q before]; injection EP as -> _.
    - inversion F2 as [|? ? ? ? H]; subst. split; apply H.
    - inversion F1 as [|? ? ? ? H]; subst. split; apply H. }
  destruct FW as [Fw Fh].
  destruct (int_to_bin_ok _ Fw) as (w0 & w1 & Ew & _). destruct (int_to_bin_ok _ Fh) as (h0 & h1 & Eh & _).
  exists (((text_bytes "GIF89a" ++ [w0; w1] ++ [h0; h1] ++ [135; 0; 0]%Z) ++ gl ++ a) ++ bs).
  split.
  { unfold write_to_file. rewrite Eg. unfold header_anim. rewrite Ew, Eh. cbn [bind]. rewrite Ea. cbn [bind].
    rewrite EW. reflexivity. }
  split; [discriminate|].
  unfold read_gif. rewrite <- !app_assoc.
  rewrite (take_app 6 (text_bytes "GIF89a")) by reflexivity. cbn [app].
  replace (list_eqb Z.eqb (text_bytes "GIF89a") signature) with true by reflexivity.
  rewrite (read_table_own gl (a ++ bs) Lg).
  assert (RB : forall fuel, (2 * length before <= fuel)%nat -> read_blocks fuel no_control bs = None).
  { intros fuel Hf. replace fuel with (2 * length before + (fuel - 2 * length before))%nat by lia.
    rewrite <- (app_nil_r bs), R, read_blocks_end. reflexivity. }
  destruct Sa as [[_ ->]|(n & l0 & l1 & _ & _ & ->)].
  - cbn [app]. rewrite RB; [reflexivity|lia].
  - rewrite app_length.
    replace (length ([33; 255; 11] ++ netscape ++ [3; 1; l0; l1; 0])%Z + length bs)%nat
      with (S (18 + length bs))%nat by reflexivity.
    rewrite read_loops, RB; [reflexivity|lia].
Qed.

(** ** The places of the pieces *)
Lemma updates_places w h c prev ims l : picture w h c prev -> Forall (picture w h c) ims ->
  updates prev ims l ->
  Forall (fun p => (fst (snd p) < Nat.max 1 w /\ snd (snd p) < Nat.max 1 h)%nat) l /\
  Forall (fun p => channels (fst p) = c \/ channels (fst p) = 0%nat) l.
Proof.
  intros Hp F U. revert Hp F. induction U as [|prev im t piece xy rest r S P U IH]; intros Hp F; [split; constructor|].
  inversion F as [|? ? Hi Ht]; subst. destruct (IH Hi Ht) as [I1 I2]. split; constructor; [|exact I1| |exact I2].
  - destruct r as [[[x0 x1] y0] y1]. destruct P as [-> _]. cbn [fst snd].
    destruct S as [[_ [= -> -> -> ->]]|((x & y & N) & C & _)]; [lia|].
    pose proof (C _ _ N). pose proof (differs_in w h c im prev Hi Hp x y N). lia.
  - destruct r as [[[x0 x1] y0] y1]. destruct P as [-> P]. specialize (P x0 y0). unfold piece_at in P. cbn [fst snd] in P.
    rewrite !Nat.leb_refl, !Nat.sub_diag in P. cbn [andb fst] in *. unfold channels.
    destruct piece as [|[|q row] rows]; [now right|now right|]. left.
    change (pixel_at ((q :: row) :: rows) 0 0) with (Some q) in P.
    match type of P with _ = (if ?b then _ else _) => destruct b; [|discriminate P] end.
    destruct (picture_at w h c im x0 y0 Hi) as [(_ & _ & q' & E & L & _)|[_ E]]; congruence.
Qed.

Lemma picture_channels w h c im : picture w h c im -> channels im = c \/ channels im = 0%nat.
Proof.
  intros Hi. unfold channels. destruct im as [|[|q row] rows]; [now right|now right|]. left.
  destruct (picture_at w h c _ 0 0 Hi) as [(_ & _ & q' & E & L & _)|[_ E]]; cbn in E; congruence.
Qed.

(** ** Conversion *)
Lemma mapM_cons {A B} (f : A -> res B) x l : mapM f (x :: l) = do y <- f x; do ys <- mapM f l; Ok (y :: ys).
Proof. reflexivity. Qed.

Lemma convert_kept quantize decode pieces :
  Forall (kept quantize decode) pieces -> Forall (fun im => channels im <> 4%nat) pieces ->
  exists pims blocks, convert_images quantize pieces = Ok (false, pims) /\ Forall2 from_pil pims blocks /\
    length pims = length pieces /\
    forall i p b, nth_error pims i = Some p -> nth_error blocks i = Some b ->
      exists im, nth_error pieces i = Some im /\ decode (p_palette p) 8%Z b = im /\
        p_w p = Z.of_nat (width im) /\ p_h p = Z.of_nat (length im).
Proof.
  intros K C. unfold convert_images.
  replace (existsb (fun im => channels im =? 4)%nat pieces) with false.
  2: { symmetry. induction C as [|im l H _ IH]; [reflexivity|]. cbn [existsb].
       rewrite (proj2 (Nat.eqb_neq _ _) H). apply IH. now inversion K. }
  cbn [andb]. clear C.
  induction K as [|im l (p & b & E & P & D & W & H) _ IH].
  - exists [], []. repeat split; [constructor|]. intros [|i] p b E; discriminate E.
  - destruct IH as (pims & blocks & E' & F & L & N). rewrite mapM_cons, E. cbn [bind].
    destruct (mapM (fun im => quantize false im) l) as [v|e]; cbn [bind] in E'; [|discriminate E'].
    injection E' as ->. cbn [bind]. exists (p :: pims), (b :: blocks). split; [reflexivity|].
    split; [now constructor|]. split; [cbn; now rewrite L|].
    intros [|i] p' b' P1 P2; [|exact (N i p' b' P1 P2)]. cbn in P1, P2. injection P1 as <-. injection P2 as <-.
    exists im. now repeat split.
Qed.

Lemma most_used_in g l : most_used g l -> In g l.
Proof. intros (b & a & -> & _). apply in_elt. Qed.

Lemma spread_length {A} (x : per_frame A) n l : spread x n = Ok l -> length l = n.
Proof.
  destruct x as [x|l']; cbn.
  - intros [= <-]. apply repeat_length.
  - destruct (length l' =? n)%nat eqn:E; [|discriminate]. intros [= <-]. now apply Nat.eqb_eq.
Qed.

(** ** The whole, once the pieces are known *)
Theorem write_pieces quantize decode arrays ims duration ds rep sub default pieces dispose ss im0 xy0 rest :
  check_images arrays = Ok ims -> spread duration (length ims) = Ok ds ->
  place sub ims = Ok (pieces, default) -> pieces = (im0, xy0) :: rest -> length pieces = length ims ->
  Forall (kept quantize decode) (map fst pieces) -> Forall (fun im => channels im <> 4%nat) (map fst pieces) ->
  Forall (fun p => fits (Z.of_nat (fst (snd p))) /\ fits (Z.of_nat (snd (snd p)))) pieces ->
  Forall good_duration ds -> fits (loops_of rep) ->
  spread (match dispose with None => PAll default | Some s => s end) (length ims) = Ok ss ->
  (forall i s p, nth_error ss i = Some s -> nth_error pieces i = Some p -> s = 2%Z -> snd p = (0, 0)%nat) ->
  exists bs g, write_gif quantize arrays duration rep sub dispose = (Some bs, Ok tt) /\ read_gif bs = Some g /\
    g_width g = Z.of_nat (width im0) /\ g_height g = Z.of_nat (length im0) /\
    g_loops g = loops_for (loops_of rep) /\
    map f_delay (g_frames g) = map (fun d => Qfloor (d * 100)) ds /\
    map f_dispose (g_frames g) = map (fun s => s mod 4)%Z ss /\
    map (drawn decode g) (g_frames g) = pieces.
Proof.
  intros Ec Es Ep El Ll Fk Fc Ff Fd Fz Ss Hd.
  destruct (convert_kept quantize decode (map fst pieces) Fk Fc) as (pims & blocks & Ev & Fp & Lp & N).
  rewrite map_length in Lp. pose proof (spread_length _ _ _ Es) as Lds.
  pose proof (Forall2_len _ _ _ Fp) as Lb.
  assert (Lss : length ss = length pims) by (rewrite (spread_length _ _ _ Ss); congruence).
  assert (Lxy : length (map (fun p : image * (nat * nat) => Znat2 (snd p)) pieces) = length pims) by (rewrite map_length; congruence).
  assert (Fx : Forall fits2 (map (fun p : image * (nat * nat) => Znat2 (snd p)) pieces)).
  { apply Forall_map. exact Ff. }
  destruct pims as [|p0 pims]; [rewrite El in Lp; discriminate Lp|].
  destruct (write_to_file_read false (p0 :: pims) blocks ds ss
              (map (fun p => Znat2 (snd p)) pieces) (loops_of rep) p0 eq_refl Fp ltac:(congruence) Lss Lxy Fd Fx Fz)
    as (bs & g & gl & Ew & _ & Eg & Gw & Gh & Gl & Gt & Gm & Gf & Gn).
  exists bs, g. split.
  { unfold write_gif. rewrite Ec. cbn [bind]. rewrite Es. cbn [bind]. rewrite Ep. cbn [bind fst snd].
    rewrite Ll, Ss. cbn [bind].
    rewrite Ev. cbn [bind]. rewrite Ew. reflexivity. }
  split; [exact Eg|].
  destruct blocks as [|b0 blocks]; [discriminate Lb|].
  destruct (N 0%nat p0 b0 eq_refl eq_refl) as (im & E0 & _ & W0 & H0). rewrite El in E0. cbn in E0. injection E0 as <-.
  split; [congruence|]. split; [congruence|]. split; [exact Gl|].
  assert (A : forall i, (i < length ims)%nat ->
     exists d s f pc, nth_error ds i = Some d /\ nth_error ss i = Some s /\
       nth_error (g_frames g) i = Some f /\ nth_error pieces i = Some pc /\
       f_delay f = Qfloor (d * 100) /\ f_dispose f = (s mod 4)%Z /\ drawn decode g f = pc).
  { intros i Hi.
    destruct (nth_error_ex (p0 :: pims) i) as [p P]; [lia|]. destruct (nth_error_ex (b0 :: blocks) i) as [b B]; [lia|].
    destruct (nth_error_ex ds i) as [d D]; [lia|]. destruct (nth_error_ex pieces i) as [pc PC]; [lia|].
    destruct (nth_error_ex ss i) as [s S1]; [lia|].
    assert (X1 : nth_error (map (fun p : image * (nat * nat) => Znat2 (snd p)) pieces) i = Some (Znat2 (snd pc))) by
      (rewrite nth_error_map, PC; reflexivity).
    destruct (Gn i p b d s _ P B D S1 X1) as (f & F1 & F2 & F3 & F4 & F5 & F6 & F7 & F8 & F9 & F10).
    destruct (N i p b P B) as (im & I1 & I2 & _). rewrite nth_error_map, PC in I1. cbn in I1. injection I1 as I1.
    exists d, s, f, pc. repeat (split; [assumption|]). unfold drawn, colours. rewrite F7, F8, Gt.
    destruct (list_eq_dec Z.eq_dec (p_palette p) gl) as [Q|Q].
    - destruct (Z.eq_dec s 2) as [D2|D2].
      + destruct (F10 Q D2) as [T1 T2]. rewrite T1. injection T2 as -> ->. rewrite <- Q, I2, <- I1. cbn.
        rewrite <- (Hd i s pc S1 PC D2). now destruct pc.
      + destruct (F9 (or_intror D2)) as [T1 T2]. rewrite T1. injection T2 as -> ->. rewrite I2, <- I1, !Nat2Z.id.
        now destruct pc as [? [? ?]].
    - destruct (F9 (or_introl Q)) as [T1 T2]. rewrite T1. injection T2 as -> ->. rewrite I2, <- I1, !Nat2Z.id.
      now destruct pc as [? [? ?]]. }
  assert (LF : length (g_frames g) = length ims) by congruence.
  split; [|split].
  - apply nth_error_same. intros i. rewrite !nth_error_map. destruct (Nat.lt_ge_cases i (length ims)) as [Hi|Hi].
    + destruct (A i Hi) as (d & s & f & pc & -> & _ & -> & _ & E & _). cbn. now rewrite E.
    + rewrite !(proj2 (nth_error_None _ _)) by lia. reflexivity.
  - apply nth_error_same. intros i. rewrite !nth_error_map. destruct (Nat.lt_ge_cases i (length ims)) as [Hi|Hi].
    + destruct (A i Hi) as (d & s & f & pc & _ & -> & -> & _ & _ & E & _). cbn. now rewrite E.
    + rewrite !(proj2 (nth_error_None _ _)) by lia. reflexivity.
  - apply nth_error_same. intros i. rewrite !nth_error_map. destruct (Nat.lt_ge_cases i (length ims)) as [Hi|Hi].
    + destruct (A i Hi) as (d & s & f & pc & _ & _ & -> & -> & _ & _ & E). cbn. now rewrite E.
    + rewrite !(proj2 (nth_error_None _ _)) by lia. reflexivity.
Qed.

Lemma all_disposed (fs : list frame) s n : map f_dispose fs = map (fun s => s mod 4)%Z (repeat s n) ->
  Forall (fun f => f_dispose f = s mod 4)%Z fs.
Proof.
  intros E. apply Forall_forall. intros f I. assert (J : In (f_dispose f) (map f_dispose fs)) by now apply in_map.
  rewrite E in J. apply in_map_iff in J. destruct J as (s' & <- & J). apply repeat_spec in J. now subst.
Qed.

Lemma fits_nat n m : (n < Nat.max 1 m)%nat -> fits (Z.of_nat m) -> fits (Z.of_nat n).
Proof. unfold fits. lia. Qed.

Theorem written_pieces_play quantize decode arrays ims w h c duration ds rep :
  check_images arrays = Ok ims -> ims <> [] -> Forall (picture w h c) ims -> c <> 4%nat -> h <> 0%nat ->
  fits (Z.of_nat w) -> fits (Z.of_nat h) ->
  spread duration (length ims) = Ok ds -> Forall good_duration ds -> fits (loops_of rep) ->
  (forall pieces, sub_rectangles ims = Ok pieces -> Forall (kept quantize decode) (map fst pieces)) ->
  exists bs g, write_gif quantize arrays duration rep STrue None = (Some bs, Ok tt) /\ read_gif bs = Some g /\
    g_width g = Z.of_nat w /\ g_height g = Z.of_nat h /\ g_loops g = loops_for (loops_of rep) /\
    map f_delay (g_frames g) = map (fun d => Qfloor (d * 100)) ds /\
    Forall (fun f => f_dispose f = 1%Z) (g_frames g) /\
    Forall2 exactly (left_in_place blank (map (drawn decode g) (g_frames g))) ims.
Proof.
  intros Ec Ne F C4 H0 Fw Fh Es Fd Fz K.
  destruct (sub_rectangles_play w h c ims F) as (l & El & Ll & Pl). specialize (K l El).
  destruct ims as [|im0 ims]; [contradiction|]. destruct (sub_rectangles_cut w h c im0 ims F) as (l' & El' & U).
  rewrite El in El'. injection El' as ->. inversion F as [|? ? Hi Ht]; subst.
  destruct (updates_places w h c im0 ims l' Hi Ht U) as [U1 U2].
  assert (FC : Forall (fun im => channels im <> 4%nat) (map fst ((im0, (0, 0)%nat) :: l'))).
  { apply Forall_map. constructor; cbn [fst].
    - destruct (picture_channels w h c im0 Hi) as [-> | ->]; [exact C4|discriminate].
    - eapply Forall_impl; [|exact U2]. cbn beta. intros p [-> | ->]; [exact C4|discriminate]. }
  assert (FF : Forall (fun p : image * (nat * nat) => fits (Z.of_nat (fst (snd p))) /\ fits (Z.of_nat (snd (snd p)))) ((im0, (0, 0)%nat) :: l')).
  { constructor; [split; split; cbn; lia|]. eapply Forall_impl; [|exact U1]. cbn beta. intros p [A B].
    split; eapply fits_nat; eassumption. }
  destruct (write_pieces quantize decode arrays (im0 :: ims) duration ds rep STrue 1 _ None
              (repeat 1%Z (length (im0 :: ims))) im0 _ l' Ec Es
              ltac:(unfold place; rewrite El; reflexivity) eq_refl Ll K FC FF Fd Fz eq_refl)
    as (bs & g & W & R & G1 & G2 & G3 & G4 & G5 & G6).
  { intros i s p E _ ->. apply nth_error_In, repeat_spec in E. discriminate E. }
  apply all_disposed in G5.
  exists bs, g. split; [exact W|]. split; [exact R|].
  destruct Hi as [Lh Fr]. destruct im0 as [|row rows]; [cbn in Lh; congruence|].
  inversion Fr as [|? ? [Lw _] _]; subst. repeat (split; [assumption|]). rewrite G6. exact Pl.
Qed.

Lemma taken_away_whole l : Forall2 exactly (taken_away (map (fun im => (im, (0, 0)%nat)) l)) l.
Proof.
  unfold taken_away. induction l as [|im l IH]; [constructor|]. cbn [map fst snd].
  constructor; [apply paint_first|exact IH].
Qed.

Theorem written_whole_play quantize decode arrays ims w h c duration ds rep :
  check_images arrays = Ok ims -> ims <> [] -> Forall (picture w h c) ims -> c <> 4%nat -> h <> 0%nat ->
  spread duration (length ims) = Ok ds -> Forall good_duration ds -> fits (loops_of rep) ->
  Forall (kept quantize decode) ims ->
  exists bs g, write_gif quantize arrays duration rep SFalse None = (Some bs, Ok tt) /\ read_gif bs = Some g /\
    g_width g = Z.of_nat w /\ g_height g = Z.of_nat h /\ g_loops g = loops_for (loops_of rep) /\
    map f_delay (g_frames g) = map (fun d => Qfloor (d * 100)) ds /\
    Forall (fun f => f_dispose f = 2%Z) (g_frames g) /\
    Forall2 exactly (taken_away (map (drawn decode g) (g_frames g))) ims.
Proof.
  intros Ec Ne F C4 H0 Es Fd Fz K.
  destruct ims as [|im0 ims]; [contradiction|]. inversion F as [|? ? Hi Ht]; subst.
  assert (M : map fst (map (fun im : image => (im, (0, 0)%nat)) (im0 :: ims)) = im0 :: ims).
  { rewrite map_map. cbn [fst]. apply map_id. }
  destruct (write_pieces quantize decode arrays (im0 :: ims) duration ds rep SFalse 2
              (map (fun im => (im, (0, 0)%nat)) (im0 :: ims)) None
              (repeat 2%Z (length (im0 :: ims))) im0 (0, 0)%nat (map (fun im => (im, (0, 0)%nat)) ims) Ec Es
              eq_refl eq_refl ltac:(now rewrite map_length))
    as (bs & g & W & R & G1 & G2 & G3 & G4 & G5 & G6).
  - rewrite M. exact K.
  - rewrite M. eapply Forall_impl; [|exact F]. cbn beta. intros im P.
    destruct (picture_channels w h c im P) as [-> | ->]; [exact C4|discriminate].
  - apply Forall_map. apply Forall_forall. intros im _. cbn. split; split; lia.
  - exact Fd.
  - exact Fz.
  - reflexivity.
  - intros i s p _ E _. rewrite nth_error_map in E. destruct (nth_error (im0 :: ims) i); [|discriminate E].
    now injection E as <-.
  - apply all_disposed in G5. exists bs, g. split; [exact W|]. split; [exact R|].
    destruct Hi as [Lh Fr]. destruct im0 as [|row rows]; [cbn in Lh; congruence|].
    inversion Fr as [|? ? [Lw _] _]; subst. repeat (split; [assumption|]). rewrite G6.
    apply taken_away_whole.
Qed.

(** ** Errors *)
Lemma write_nothing tr ds z xys ss : write_to_file tr [] ds z xys ss = ([], Err ValueError).
Proof. reflexivity. Qed.

Lemma app_ext_err z : ~ fits z -> app_ext (Some z) = Err OverflowError.
Proof.
  intros N. unfold app_ext. destruct (z =? 0)%Z eqn:E0; [apply Z.eqb_eq in E0; elim N; subst; split; lia|].
  destruct (z =? 1)%Z eqn:E1; [apply Z.eqb_eq in E1; elim N; subst; split; lia|]. now rewrite int_to_bin_err.
Qed.

Lemma write_bad_loops tr pims ds z xys ss : pims <> [] -> Forall (fun p => fits (p_w p) /\ fits (p_h p)) pims ->
  ~ fits z -> write_to_file tr pims ds (Some z) xys ss = ([], Err OverflowError).
Proof.
  intros N F Z. unfold write_to_file.
  destruct (global_palette_exact (map p_palette pims)) as (gl & -> & _); [now destruct pims|].
  destruct pims as [|p pims]; [contradiction|]. inversion F as [|? ? [A B] _]; subst.
  unfold header_anim. destruct (int_to_bin_ok _ A) as (? & ? & -> & _). destruct (int_to_bin_ok _ B) as (? & ? & -> & _).
  cbn [bind]. now rewrite (app_ext_err z Z).
Qed.

(** ** Preparing *)
Lemma spread_exact {A} (x : per_frame A) n r : spread x n = r <->
  match x with
  | PAll v => r = Ok (repeat v n)
  | PList l => (length l = n /\ r = Ok l) \/ (length l <> n /\ r = Err ValueError)
  end.
Proof.
  destruct x as [v|l]; cbn; [now split|]. destruct (length l =? n)%nat eqn:E.
  - apply Nat.eqb_eq in E. split; [intros <-; now left|]. intros [[_ ->]|[N _]]; [reflexivity|contradiction].
  - apply Nat.eqb_neq in E. split; [intros <-; now right|]. intros [[N _]|[_ ->]]; [contradiction|reflexivity].
Qed.

Lemma place_none ims : place SFalse ims = Ok (map (fun im => (im, (0, 0)%nat)) ims, 2%Z) /\
  place (SList []) ims = place SFalse ims.
Proof. now split. Qed.

Lemma place_found ims : place STrue ims = match sub_rectangles ims with Ok l => Ok (l, 1%Z) | Err e => Err e end.
Proof. cbn. now destruct (sub_rectangles ims). Qed.

Lemma map_fst_combine {A B} (l : list A) : forall (m : list B), length m = length l -> map fst (combine l m) = l.
Proof. induction l as [|a l IH]; intros [|b m] E; try discriminate E; [reflexivity|]. cbn. f_equal. apply IH. now injection E. Qed.
Lemma map_snd_combine {A B} (l : list A) : forall (m : list B), length m = length l -> map snd (combine l m) = m.
Proof. induction l as [|a l IH]; intros [|b m] E; try discriminate E; [reflexivity|]. cbn. f_equal. apply IH. now injection E. Qed.

Lemma place_given xy0 xys ims :
  (length ims = S (length xys) ->
     exists l, place (SList (xy0 :: xys)) ims = Ok (l, 1%Z) /\ map fst l = ims /\ map snd l = (0, 0)%nat :: xys) /\
  (length ims <> S (length xys) -> place (SList (xy0 :: xys)) ims = Err ValueError).
Proof.
  unfold place. split.
  - intros E. rewrite E. cbn [length]. rewrite Nat.eqb_refl. eexists. split; [reflexivity|].
    split; [apply map_fst_combine|apply map_snd_combine]; now cbn.
  - intros N. cbn [length]. now rewrite (proj2 (Nat.eqb_neq _ _)) by congruence.
Qed.

Lemma convert_flag quantize ims tr l : convert_images quantize ims = Ok (tr, l) ->
  (tr = true <-> Exists (fun im => channels im = 4%nat) ims) /\
  mapM (quantize tr) ims = Ok l /\ (tr = true -> Forall (fun im => channels im = 4%nat) ims).
Proof.
  unfold convert_images. set (t := existsb (fun im => channels im =? 4)%nat ims).
  destruct (mapM _ ims) as [v|e] eqn:E; [|discriminate]. intros [= <- <-]. split.
  - unfold t. rewrite existsb_exists, Exists_exists. split; intros (x & I & H); exists x; split; auto; now apply Nat.eqb_eq.
  - generalize dependent v. generalize t. clear t. intros t. induction ims as [|im ims IH]; intros v E.
    + split; [exact E|]. intros _. constructor.
    + rewrite mapM_cons in E. destruct (t && negb (channels im =? 4)%nat) eqn:C; [discriminate E|].
      destruct (quantize t im) as [y|e] eqn:Q; [|discriminate E]. cbn [bind] in E.
      destruct (mapM _ ims) as [ys|e] eqn:M; [|discriminate E]. cbn [bind] in E. injection E as <-.
      destruct (IH ys eq_refl) as [A B]. split.
      * rewrite mapM_cons, Q. cbn [bind]. now rewrite A.
      * intros ->. constructor; [|now apply B]. cbn in C. now apply negb_false_iff, Nat.eqb_eq in C.
Qed.

Lemma convert_mixed quantize ims im : Exists (fun im => channels im = 4%nat) ims -> In im ims -> channels im <> 4%nat ->
  (forall im, exists p, quantize true im = Ok p) -> convert_images quantize ims = Err IndexError.
Proof.
  intros X I N Q. unfold convert_images.
  replace (existsb (fun im => channels im =? 4)%nat ims) with true.
  2: { symmetry. apply existsb_exists. apply Exists_exists in X. destruct X as (x & J & H). exists x. split; [exact J|].
       now apply Nat.eqb_eq. }
  cbn [andb]. clear X.
  enough (E : mapM (fun im => if negb (channels im =? 4)%nat then Err IndexError else quantize true im) ims = Err IndexError)
    by now rewrite E.
  induction ims as [|x ims IH]; [contradiction|]. rewrite mapM_cons.
  destruct (channels x =? 4)%nat eqn:E; cbn [negb]; [|reflexivity].
  destruct (Q x) as [p ->]. cbn [bind]. destruct I as [->|I]; [apply Nat.eqb_eq in E; contradiction|].
  now rewrite (IH I).
Qed.

(** What goes wrong before the file is opened. *)
Lemma write_gif_unopened quantize arrays duration rep sub dispose e :
  write_gif quantize arrays duration rep sub dispose = (None, Err e) <->
  (check_images arrays = Err e \/
   exists ims, check_images arrays = Ok ims /\
     (spread duration (length ims) = Err e \/
      exists ds, spread duration (length ims) = Ok ds /\
        (place sub ims = Err e \/
         exists l default, place sub ims = Ok (l, default) /\
           (spread (match dispose with None => PAll default | Some s => s end) (length l) = Err e \/
            exists ss, spread (match dispose with None => PAll default | Some s => s end) (length l) = Ok ss /\
              convert_images quantize (map fst l) = Err e)))).
Proof.
  unfold write_gif. destruct (check_images arrays) as [ims|e0]; cbn [bind].
  2: { split; [intros [= ->]; now left|]. intros [E|(? & E & _)]; [now injection E as ->|discriminate E]. }
  destruct (spread duration (length ims)) as [ds|e0] eqn:E1; cbn [bind].
  2: { split.
       - intros [= ->]. right. exists ims. split; [reflexivity|now left].
       - intros [E|(i & E & [H|(d & H & _)])]; [discriminate E|injection E as <-; rewrite E1 in H; now injection H as ->|
           injection E as <-; rewrite E1 in H; discriminate H]. }
  destruct (place sub ims) as [[l default]|e0] eqn:E2; cbn [bind fst snd].
  2: { split.
       - intros [= ->]. right. exists ims. split; [reflexivity|]. right. exists ds. split; [exact E1|now left].
       - intros [E|(i & E & [H|(d & H & [K|(? & ? & K & _)])])]; [discriminate E| injection E as <-; rewrite E1 in H; discriminate H| |];
           injection E as <-; rewrite E2 in K; [now injection K as ->|discriminate K]. }
  destruct (spread (match dispose with None => PAll default | Some s => s end) (length l)) as [ss|e0] eqn:E3; cbn [bind].
  2: { split.
       - intros [= ->]. right. exists ims. split; [reflexivity|]. right. exists ds. split; [exact E1|].
         right. exists l, default. split; [exact E2|now left].
       - intros [E|(i & E & [H|(d & H & [K|(l' & de & K & [J|(s' & J & _)])])])]; [discriminate E|..]; injection E as <-;
           try (rewrite E1 in H; discriminate H); rewrite E2 in K; try discriminate K; injection K as <- <-; rewrite E3 in J;
           [now injection J as ->|discriminate J]. }
  destruct (convert_images quantize (map fst l)) as [[tr pims]|e0] eqn:E4; cbn [bind].
  - split.
    + destruct (write_to_file tr pims ds (Some (loops_of rep)) (map (fun p => Znat2 (snd p)) l) ss) as [b [n|e']]; discriminate.
    + intros [E|(i & E & [H|(d & H & [K|(l' & de & K & [J|(s' & J & M)])])])]; [discriminate E|..]; injection E as <-;
        try (rewrite E1 in H; discriminate H); rewrite E2 in K; try discriminate K; injection K as <- <-; rewrite E3 in J;
        [discriminate J|]. rewrite E4 in M. discriminate M.
  - split.
    + intros [= ->]. right. exists ims. split; [reflexivity|]. right. exists ds. split; [exact E1|].
      right. exists l, default. split; [exact E2|]. right. exists ss. split; [exact E3|exact E4].
    + intros [E|(i & E & [H|(d & H & [K|(l' & de & K & [J|(s' & J & M)])])])]; [discriminate E|..]; injection E as <-;
        try (rewrite E1 in H; discriminate H); rewrite E2 in K; try discriminate K; injection K as <- <-; rewrite E3 in J;
        [discriminate J|]. rewrite E4 in M. now injection M as ->.
Qed.

(** No images, or a number of loops that does not fit: the file has been emptied. *)
Lemma write_gif_no_images quantize n rep :
  write_gif quantize [] (PAll n) rep STrue None = (Some [], Err ValueError) /\
  write_gif quantize [] (PAll n) rep SFalse None = (Some [], Err ValueError).
Proof. now split. Qed.

Lemma write_gif_bad_loops quantize arrays duration rep sub dispose ims ds l default ss tr pims :
  check_images arrays = Ok ims -> spread duration (length ims) = Ok ds -> place sub ims = Ok (l, default) ->
  spread (match dispose with None => PAll default | Some s => s end) (length l) = Ok ss ->
  convert_images quantize (map fst l) = Ok (tr, pims) -> pims <> [] ->
  Forall (fun p => fits (p_w p) /\ fits (p_h p)) pims -> ~ fits (loops_of rep) ->
  write_gif quantize arrays duration rep sub dispose = (Some [], Err OverflowError).
Proof.
  intros E1 E2 E3 E4 E5 N F L. unfold write_gif. rewrite E1. cbn [bind]. rewrite E2. cbn [bind]. rewrite E3. cbn [bind fst snd].
  rewrite E4. cbn [bind]. rewrite E5. cbn [bind]. rewrite (write_bad_loops _ _ _ _ _ _ N F L). reflexivity.
Qed.

(** ** Checking arrays *)
Lemma check_image_err a e : check_image a = Err e <->
  e = ValueError /\ (a = AOther \/ exists k c rows, a = AColor k c rows /\ c <> 3%nat /\ c <> 4%nat).
Proof.
  destruct a as [k rows|k c rows|]; cbn.
  - split; [discriminate|]. intros [_ [E|(? & ? & ? & E & _)]]; discriminate E.
  - destruct ((c =? 3)%nat || (c =? 4)%nat) eqn:C.
    + split; [discriminate|]. intros [_ [E|(k' & c' & rows' & E & N3 & N4)]]; [discriminate E|]. injection E as <- <- <-.
      apply orb_true_iff in C. rewrite !Nat.eqb_eq in C. tauto.
    + apply orb_false_iff in C. rewrite !Nat.eqb_neq in C. split.
      * intros [= <-]. split; [reflexivity|]. right. exists k, c, rows. tauto.
      * now intros [-> _].
  - split; [intros [= <-]; split; [reflexivity|now left]|now intros [-> _]].
Qed.

Lemma check_gray k rows : exists im, check_image (AGray k rows) = Ok im /\
  forall x y, pixel_at im x y =
    match nth_error rows y with
    | Some row => match nth_error row x with Some v => Some [entry_of k v] | None => None end
    | None => None
    end.
Proof.
  eexists. split; [reflexivity|]. intros x y. unfold pixel_at. rewrite nth_error_map.
  destruct (nth_error rows y) as [row|]; cbn; [|reflexivity]. rewrite nth_error_map. now destruct (nth_error row x).
Qed.

Lemma check_color k c rows : (c = 3 \/ c = 4)%nat -> exists im, check_image (AColor k c rows) = Ok im /\
  forall x y, pixel_at im x y =
    match nth_error rows y with
    | Some row => match nth_error row x with Some v => Some (map (entry_of k) v) | None => None end
    | None => None
    end.
Proof.
  intros C. unfold check_image. replace ((c =? 3)%nat || (c =? 4)%nat) with true by (destruct C as [-> | ->]; reflexivity).
  eexists. split; [reflexivity|]. intros x y. unfold pixel_at. rewrite nth_error_map.
  destruct (nth_error rows y) as [row|]; cbn; [|reflexivity]. rewrite nth_error_map. now destruct (nth_error row x).
Qed.

Lemma check_images_all l : forall ims, check_images l = Ok ims <-> Forall2 (fun a im => check_image a = Ok im) l ims.
Proof.
  unfold check_images. induction l as [|a l IH]; intros ims.
  - cbn. split; [intros [= <-]; constructor|]. intros F. now inversion F.
  - rewrite mapM_cons. destruct (check_image a) as [im|e] eqn:E; cbn [bind].
    + destruct (mapM check_image l) as [v|e] eqn:M; cbn [bind].
      * split; [intros [= <-]; constructor; [exact E|now apply IH]|]. intros F. inversion F as [|? im' ? v' A B]; subst.
        rewrite E in A. injection A as <-. apply IH in B. now injection B as ->.
      * split; [discriminate|]. intros F. inversion F as [|? im' ? v' A B]; subst. apply IH in B. discriminate B.
    + split; [discriminate|]. intros F. inversion F as [|? im' ? v' A B]; subst. congruence.
Qed.

(** Arrays of the right shape become pictures. *)
Lemma entry_byte k x : entry_ok k x -> (0 <= entry_of k x < 256)%Z.
Proof.
  destruct k; intros H.
  - destruct (H eq_refl) as (z & Hz & ->). unfold entry_of. now rewrite trunc_inject.
  - apply float_range.
  - apply Z.mod_pos_bound. lia.
Qed.

Lemma array_picture w h c a im : array_of w h c a -> check_image a = Ok im -> picture w h c im.
Proof.
  destruct a as [k rows|k d rows|]; cbn [array_of]; [| |contradiction].
  - intros (-> & L & F) [= <-]. split; [now rewrite map_length|]. apply Forall_map. eapply Forall_impl; [|exact F].
    cbn beta. intros row [Lr Fr]. split; [now rewrite map_length|]. apply Forall_map. eapply Forall_impl; [|exact Fr].
    cbn beta. intros x E. split; [reflexivity|]. constructor; [now apply entry_byte|constructor].
  - intros (-> & C & L & F). unfold check_image.
    replace ((c =? 3)%nat || (c =? 4)%nat) with true by (destruct C as [-> | ->]; reflexivity).
    intros [= <-]. split; [now rewrite map_length|]. apply Forall_map. eapply Forall_impl; [|exact F].
    cbn beta. intros row [Lr Fr]. split; [now rewrite map_length|]. apply Forall_map. eapply Forall_impl; [|exact Fr].
    cbn beta. intros p [Lp Fp]. split; [now rewrite map_length|]. apply Forall_map. eapply Forall_impl; [|exact Fp].
    cbn beta. intros x. apply entry_byte.
Qed.

Lemma arrays_pictures w h c l : Forall (array_of w h c) l ->
  exists ims, check_images l = Ok ims /\ length ims = length l /\ Forall (picture w h c) ims.
Proof.
  induction 1 as [|a l A _ IH]; [exists []; repeat split; constructor|].
  destruct IH as (ims & E & L & F).
  assert (X : exists im, check_image a = Ok im).
  { destruct (check_image a) as [im|e] eqn:C; [eexists; reflexivity|]. apply check_image_err in C.
    destruct C as [_ [-> |(k & d & rows & -> & N3 & N4)]]; [contradiction|]. cbn in A. destruct A as (-> & [-> | ->] & _); contradiction. }
  destruct X as [im Im]. exists (im :: ims). unfold check_images in *. rewrite mapM_cons, Im. cbn [bind]. rewrite E. cbn [bind].
  repeat split; [cbn; now rewrite L|]. constructor; [exact (array_picture _ _ _ _ _ A Im)|exact F].
Qed.

Lemma entry_cases x z :
  ((x < 0)%Q -> entry_of KFloat x = 0%Z) /\ ((1 < x)%Q -> entry_of KFloat x = 255%Z) /\
  ((0 <= x <= 1)%Q -> entry_of KFloat x = Qfloor (x * 255)) /\
  entry_of KInt (inject_Z z) = (z mod 256)%Z /\ entry_of KByte (inject_Z z) = z.
Proof.
  split; [apply float_low|]. split; [apply float_high|]. split; [|split; cbn; now rewrite trunc_inject].
  intros H. pose proof (float_byte x H) as [_ B]. destruct H as [A C].
  unfold entry_of. rewrite (proj2 (Qle_bool_iff 0 x) A), (proj2 (Qle_bool_iff x 1) C).
  apply trunc_floor. apply Qmult_le_0_compat; [exact A|discriminate].
Qed.
