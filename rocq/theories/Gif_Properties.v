(** Properties C91 and C92: animated pictures (plotters/images2gif.py).  Vocabulary: Gif_Spec.v. *)
From Coq Require Import String Ascii List ZArith Bool Arith QArith Qround Lia.
Import ListNotations.
From Verif Require Import PyBase Gif_Model Gif_Spec Gif_Proofs Gif_File Gif_Whole Gif_Witness.
Local Open Scope list_scope.

(** ** C91: sub-rectangles *)
(** Arrays of one shape are taken, and become pictures of bytes of that shape. *)
Theorem C91_arrays : forall w h c l, Forall (array_of w h c) l ->
  exists ims, check_images l = Ok ims /\ length ims = length l /\ Forall (picture w h c) ims.
Proof. exact arrays_pictures. Qed.
Print Assumptions C91_arrays.

Example C91_arrays_example : Forall (array_of 2 1 3) [AColor KFloat 3 [[[0; 1 # 2; 2]; [1; 1; 1]]]%Q].
Proof. repeat constructor; try lia; try discriminate. Qed.

(** Entry by entry: floats between 0 and 1 become 0 to 255, rounded down; what is beyond is cut off;
    integers are taken modulo 256. *)
Theorem C91_entries : forall x z,
  ((x < 0)%Q -> entry_of KFloat x = 0%Z) /\ ((1 < x)%Q -> entry_of KFloat x = 255%Z) /\
  ((0 <= x <= 1)%Q -> entry_of KFloat x = Qfloor (x * 255)) /\
  entry_of KInt (inject_Z z) = (z mod 256)%Z /\ entry_of KByte (inject_Z z) = z.
Proof. exact entry_cases. Qed.
Print Assumptions C91_entries.

Theorem C91_gray : forall k rows, exists im, check_image (AGray k rows) = Ok im /\
  forall x y, pixel_at im x y =
    match nth_error rows y with
    | Some row => match nth_error row x with Some v => Some [entry_of k v] | None => None end
    | None => None
    end.
Proof. exact check_gray. Qed.
Print Assumptions C91_gray.

Theorem C91_color : forall k c rows, (c = 3 \/ c = 4)%nat -> exists im, check_image (AColor k c rows) = Ok im /\
  forall x y, pixel_at im x y =
    match nth_error rows y with
    | Some row => match nth_error row x with Some v => Some (map (entry_of k) v) | None => None end
    | None => None
    end.
Proof. exact check_color. Qed.
Print Assumptions C91_color.

Theorem C91_refused : forall a e, check_image a = Err e <->
  e = ValueError /\ (a = AOther \/ exists k c rows, a = AColor k c rows /\ c <> 3%nat /\ c <> 4%nat).
Proof. exact check_image_err. Qed.
Print Assumptions C91_refused.

Theorem C91_each : forall l ims, check_images l = Ok ims <-> Forall2 (fun a im => check_image a = Ok im) l ims.
Proof. exact check_images_all. Qed.
Print Assumptions C91_each.

(** For any number of pictures of one shape: shown one after the other and left in place, the pieces
    show exactly the pictures.  Missing from the claim: transparent pixels, see below. *)
Theorem C91_replay_partial : forall w h c ims, Forall (picture w h c) ims ->
  exists l, sub_rectangles ims = Ok l /\ length l = length ims /\ Forall2 exactly (left_in_place blank l) ims.
Proof. exact sub_rectangles_play. Qed.
Print Assumptions C91_replay_partial.

(** The first piece is the first picture; each further one is what changes, cut out by the smallest
    rectangle. *)
Theorem C91_smallest : forall w h c im t, Forall (picture w h c) (im :: t) ->
  exists l, sub_rectangles (im :: t) = Ok ((im, (0, 0)%nat) :: l) /\ updates im t l.
Proof. exact sub_rectangles_cut. Qed.
Print Assumptions C91_smallest.

Example C91_example : Forall (picture 3 2 1) [first_image; second_image; second_image] /\
  sub_rectangles [first_image; second_image; second_image] =
    Ok [(first_image, (0, 0)); ([[[61%Z]]], (2, 1)); ([[[10]; [20]]; [[40]; [50]]]%Z, (0, 0))]%nat.
Proof. split; [auto using first_picture, second_picture|exact found]. Qed.

(** Pictures with four values per pixel are shown if no pixel is transparent ... *)
Theorem C91_opaque : forall w h c ims, Forall (picture w h c) ims -> Forall opaque ims ->
  exists l, sub_rectangles ims = Ok l /\ Forall2 exactly_clear (left_in_place_clear blank l) ims.
Proof. exact sub_rectangles_play_opaque. Qed.
Print Assumptions C91_opaque.

(** ... but a pixel that becomes transparent keeps its old colour. *)
Theorem C91_transparent_refuted : exists ims l, Forall (picture 1 1 4) ims /\ sub_rectangles ims = Ok l /\
  ~ Forall2 exactly_clear (left_in_place_clear blank l) ims.
Proof. exact transparent_stays. Qed.
Print Assumptions C91_transparent_refuted.

(** With [dispose=2] the pieces do not show the pictures. *)
Theorem C91_disposed_refuted : exists ims l, Forall (picture 3 2 1) ims /\ sub_rectangles ims = Ok l /\
  ~ Forall2 exactly (taken_away l) ims.
Proof. exact taken_away_wrong. Qed.
Print Assumptions C91_disposed_refuted.

(** ** C92: the file *)
(** Numbers take two bytes, the lower one first; others are refused. *)
Theorem C92_two_bytes : forall i l,
  int_to_bin i = Ok l <-> exists a b, l = [a; b] /\ is_byte a /\ is_byte b /\ i = word a b.
Proof. exact int_to_bin_exact. Qed.
Print Assumptions C92_two_bytes.

Theorem C92_two_bytes_refused : forall i, ~ fits i -> int_to_bin i = Err OverflowError.
Proof. exact int_to_bin_err. Qed.
Print Assumptions C92_two_bytes_refused.

Theorem C92_palette : forall l, l <> [] -> exists g, global_palette l = Ok g /\ most_used g l.
Proof. exact global_palette_exact. Qed.
Print Assumptions C92_palette.

(** Reading a file gives back what has been written: the size of the first picture, the most used
    palette, the number of loops and every frame. *)
Theorem C92_read_back : forall tr pims blocks ds ss xys z p0,
  hd_error pims = Some p0 -> Forall2 from_pil pims blocks ->
  length ds = length pims -> length ss = length pims -> length xys = length pims ->
  Forall good_duration ds -> Forall (fun xy => fits (fst xy) /\ fits (snd xy)) xys -> fits z ->
  exists bs g gl, write_to_file tr pims ds (Some z) xys ss = (bs, Ok (length pims)) /\ Forall is_byte bs /\
    read_gif bs = Some g /\ g_width g = p_w p0 /\ g_height g = p_h p0 /\ g_loops g = loops_for z /\
    g_table g = Some gl /\ most_used gl (map p_palette pims) /\ length (g_frames g) = length pims /\
    forall i p b d s xy, nth_error pims i = Some p -> nth_error blocks i = Some b ->
      nth_error ds i = Some d -> nth_error ss i = Some s -> nth_error xys i = Some xy ->
      exists f, nth_error (g_frames g) i = Some f /\ frame_for gl tr p b d s xy f.
Proof. exact write_to_file_read. Qed.
Print Assumptions C92_read_back.

(** The whole of [writeGif] for any arguments: the frames draw the pieces at their places, unless a
    frame that is to be taken away has a place other than (0, 0). *)
Theorem C92_written_partial : forall quantize decode arrays ims duration ds rep sub default pieces dispose ss im0 xy0 rest,
  check_images arrays = Ok ims -> spread duration (length ims) = Ok ds ->
  place sub ims = Ok (pieces, default) -> pieces = (im0, xy0) :: rest -> length pieces = length ims ->
  Forall (kept quantize decode) (map fst pieces) -> Forall (fun im => channels im <> 4%nat) (map fst pieces) ->
  Forall (fun p => fits (Z.of_nat (fst (snd p))) /\ fits (Z.of_nat (snd (snd p)))) pieces ->
  Forall good_duration ds -> fits (rounds rep) ->
  spread (match dispose with None => PAll default | Some s => s end) (length ims) = Ok ss ->
  (forall i s p, nth_error ss i = Some s -> nth_error pieces i = Some p -> s = 2%Z -> snd p = (0, 0)%nat) ->
  exists bs g, write_gif quantize arrays duration rep sub dispose = (Some bs, Ok tt) /\ read_gif bs = Some g /\
    g_width g = Z.of_nat (width im0) /\ g_height g = Z.of_nat (length im0) /\
    g_loops g = loops_for (rounds rep) /\
    map f_delay (g_frames g) = map (fun d => Qfloor (d * 100)) ds /\
    map f_dispose (g_frames g) = map (fun s => s mod 4)%Z ss /\
    map (drawn decode g) (g_frames g) = pieces.
Proof. exact write_pieces. Qed.
Print Assumptions C92_written_partial.

(** The default: what a viewer shows are the given pictures. *)
Theorem C92_plays : forall quantize decode arrays ims w h c duration ds rep,
  check_images arrays = Ok ims -> ims <> [] -> Forall (picture w h c) ims -> c <> 4%nat -> h <> 0%nat ->
  fits (Z.of_nat w) -> fits (Z.of_nat h) ->
  spread duration (length ims) = Ok ds -> Forall good_duration ds -> fits (rounds rep) ->
  (forall pieces, sub_rectangles ims = Ok pieces -> Forall (kept quantize decode) (map fst pieces)) ->
  exists bs g, write_gif quantize arrays duration rep STrue None = (Some bs, Ok tt) /\ read_gif bs = Some g /\
    g_width g = Z.of_nat w /\ g_height g = Z.of_nat h /\ g_loops g = loops_for (rounds rep) /\
    map f_delay (g_frames g) = map (fun d => Qfloor (d * 100)) ds /\
    Forall (fun f => f_dispose f = 1%Z) (g_frames g) /\
    Forall2 exactly (left_in_place blank (map (drawn decode g) (g_frames g))) ims.
Proof. exact written_pieces_play. Qed.
Print Assumptions C92_plays.

Example C92_plays_example : exists bs g,
  write_gif toy_pil [first_array; second_array; second_array] (PAll (3 # 10)) (RInt 5) STrue None = (Some bs, Ok tt) /\
  read_gif bs = Some g /\ g_loops g = Some 5%Z /\ map f_delay (g_frames g) = [30; 30; 30]%Z /\
  Forall2 exactly (left_in_place blank (map (drawn toy_view g) (g_frames g))) [first_image; second_image; second_image].
Proof.
  destruct (C92_plays toy_pil toy_view [first_array; second_array; second_array]
              [first_image; second_image; second_image] 3 2 1 (PAll (3 # 10)) [3 # 10; 3 # 10; 3 # 10]%Q (RInt 5))
    as (bs & g & W & R & _ & _ & L & D & _ & P).
  - exact checked.
  - discriminate.
  - auto using first_picture, second_picture.
  - discriminate.
  - discriminate.
  - split; cbn; lia.
  - split; cbn; lia.
  - reflexivity.
  - repeat constructor; discriminate || reflexivity.
  - split; cbn; lia.
  - exact pieces_kept.
  - exists bs, g. split; [exact W|]. split; [exact R|]. split; [exact L|]. split; [|exact P].
    rewrite D. vm_compute. reflexivity.
Qed.

(** Without sub-rectangles each frame is a whole picture and is taken away before the next. *)
Theorem C92_plays_whole : forall quantize decode arrays ims w h c duration ds rep,
  check_images arrays = Ok ims -> ims <> [] -> Forall (picture w h c) ims -> c <> 4%nat -> h <> 0%nat ->
  spread duration (length ims) = Ok ds -> Forall good_duration ds -> fits (rounds rep) ->
  Forall (kept quantize decode) ims ->
  exists bs g, write_gif quantize arrays duration rep SFalse None = (Some bs, Ok tt) /\ read_gif bs = Some g /\
    g_width g = Z.of_nat w /\ g_height g = Z.of_nat h /\ g_loops g = loops_for (rounds rep) /\
    map f_delay (g_frames g) = map (fun d => Qfloor (d * 100)) ds /\
    Forall (fun f => f_dispose f = 2%Z) (g_frames g) /\
    Forall2 exactly (taken_away (map (drawn decode g) (g_frames g))) ims.
Proof. exact written_whole_play. Qed.
Print Assumptions C92_plays_whole.

(** The arguments. *)
Theorem C92_spread : forall A (x : per_frame A) n r, spread x n = r <->
  match x with
  | PAll v => r = Ok (repeat v n)
  | PList l => (length l = n /\ r = Ok l) \/ (length l <> n /\ r = Err ValueError)
  end.
Proof. exact @spread_exact. Qed.
Print Assumptions C92_spread.

Theorem C92_place_none : forall ims, place SFalse ims = Ok (map (fun im => (im, (0, 0)%nat)) ims, 2%Z) /\
  place (SList []) ims = place SFalse ims.
Proof. exact place_none. Qed.
Print Assumptions C92_place_none.

Theorem C92_place_given : forall xy0 xys ims,
  (length ims = S (length xys) ->
     exists l, place (SList (xy0 :: xys)) ims = Ok (l, 1%Z) /\ map fst l = ims /\ map snd l = (0, 0)%nat :: xys) /\
  (length ims <> S (length xys) -> place (SList (xy0 :: xys)) ims = Err ValueError).
Proof. exact place_given. Qed.
Print Assumptions C92_place_given.

(** Transparency is on as soon as one array has four colours, and then all must have them. *)
Theorem C92_transparency : forall quantize ims tr l, convert_images quantize ims = Ok (tr, l) ->
  (tr = true <-> Exists (fun im => channels im = 4%nat) ims) /\
  mapM (quantize tr) ims = Ok l /\ (tr = true -> Forall (fun im => channels im = 4%nat) ims).
Proof. exact convert_flag. Qed.
Print Assumptions C92_transparency.

Theorem C92_mixed : forall quantize ims im, Exists (fun im => channels im = 4%nat) ims -> In im ims -> channels im <> 4%nat ->
  (forall im, exists p, quantize true im = Ok p) -> convert_images quantize ims = Err IndexError.
Proof. exact convert_mixed. Qed.
Print Assumptions C92_mixed.

Example C92_mixed_example : convert_images toy_pil [[[[1; 2; 3]]]; [[[1; 2; 3; 4]]]]%Z = Err IndexError.
Proof. apply (C92_mixed _ _ [[[1; 2; 3]]]%Z); [right; left; reflexivity|left; reflexivity|discriminate|intros; eexists; reflexivity]. Qed.

(** What goes wrong before the file is opened leaves it as it was. *)
Theorem C92_unopened : forall quantize arrays duration rep sub dispose e,
  write_gif quantize arrays duration rep sub dispose = (None, Err e) <->
  (check_images arrays = Err e \/
   exists ims, check_images arrays = Ok ims /\
     (spread duration (length ims) = Err e \/
      exists ds, spread duration (length ims) = Ok ds /\
        (place sub ims = Err e \/
         exists l default, place sub ims = Ok (l, default) /\
           (spread (match dispose with None => PAll default | Some s => s end) (length l) = Err e \/
            exists ss, spread (match dispose with None => PAll default | Some s => s end) (length l) = Ok ss /\
              convert_images quantize (map fst l) = Err e)))).
Proof. exact write_gif_unopened. Qed.
Print Assumptions C92_unopened.

(** Later errors leave an empty file, or one that breaks off and cannot be read. *)
Theorem C92_no_images : forall quantize n rep,
  write_gif quantize [] (PAll n) rep STrue None = (Some [], Err ValueError) /\
  write_gif quantize [] (PAll n) rep SFalse None = (Some [], Err ValueError).
Proof. exact write_gif_no_images. Qed.
Print Assumptions C92_no_images.

Theorem C92_bad_loops : forall quantize arrays duration rep sub dispose ims ds l default ss tr pims,
  check_images arrays = Ok ims -> spread duration (length ims) = Ok ds -> place sub ims = Ok (l, default) ->
  spread (match dispose with None => PAll default | Some s => s end) (length l) = Ok ss ->
  convert_images quantize (map fst l) = Ok (tr, pims) -> pims <> [] ->
  Forall (fun p => fits (p_w p) /\ fits (p_h p)) pims -> ~ fits (rounds rep) ->
  write_gif quantize arrays duration rep sub dispose = (Some [], Err OverflowError).
Proof. exact write_gif_bad_loops. Qed.
Print Assumptions C92_bad_loops.

(** The default of [writeGifToFile] and [getAppExt], infinity, is written like 0. *)
Theorem C92_infinite : forall tr ims ds xys ss,
  write_to_file tr ims ds None xys ss = write_to_file tr ims ds (Some 0%Z) xys ss.
Proof. reflexivity. Qed.
Print Assumptions C92_infinite.

Example C92_bad_loops_example :
  write_gif toy_pil [first_array] (PAll 1) (RInt 65536) STrue None = (Some [], Err OverflowError).
Proof. vm_compute. reflexivity. Qed.

Theorem C92_breaks_off : forall tr before p after blocks ds ss xys z d,
  Forall2 from_pil (before ++ p :: after) blocks ->
  length ds = length blocks -> length ss = length blocks -> length xys = length blocks ->
  Forall good_duration (firstn (length before) ds) -> nth_error ds (length before) = Some d ->
  (d * 100 <= -1 \/ inject_Z 65536 <= d * 100)%Q -> Forall (fun xy => fits (fst xy) /\ fits (snd xy)) xys -> fits z ->
  exists bs, write_to_file tr (before ++ p :: after) ds (Some z) xys ss = (bs, Err OverflowError) /\
    bs <> [] /\ read_gif bs = None.
Proof. exact write_to_file_stops. Qed.
Print Assumptions C92_breaks_off.

Example C92_breaks_off_example : exists bs,
  write_gif toy_pil [first_array; second_array] (PList [1; -1]%Q) RFalse SFalse None = (Some bs, Err OverflowError) /\
  bs <> [] /\ read_gif bs = None.
Proof. eexists. split; [vm_compute; reflexivity|]. split; [discriminate|]. vm_compute. reflexivity. Qed.

(** "If True or 0, loops infinitely": the file says 65535 times. *)
Theorem C92_for_ever_refuted : exists quantize arrays bs g,
  write_gif quantize arrays (PAll (1 # 10)) RTrue STrue None = (Some bs, Ok tt) /\ read_gif bs = Some g /\
  g_loops g = Some 65535%Z.
Proof. exact not_for_ever. Qed.
Print Assumptions C92_for_ever_refuted.

(** "One can also give a list of x-y coordinates": with [dispose=2] they can get lost. *)
Theorem C92_places_refuted : exists quantize arrays bs g f,
  write_gif quantize arrays (PAll (1 # 10)) RTrue (SList [(0, 0); (2, 1)]%nat) (Some (PAll 2%Z)) = (Some bs, Ok tt) /\
  read_gif bs = Some g /\ nth_error (g_frames g) 1 = Some f /\ (f_left f, f_top f) = (0, 0)%Z.
Proof. exact places_lost. Qed.
Print Assumptions C92_places_refuted.
