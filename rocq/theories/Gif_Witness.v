From Coq Require Import String Ascii List ZArith Bool Arith QArith Qround Lia.
Import ListNotations.
From Verif Require Import PyBase Gif_Model Gif_Spec Gif_Proofs Gif_File Gif_Whole.
Local Open Scope list_scope.

(** Stand-ins for PIL and for a viewer's decoder: the rows of a grey picture, uncompressed. *)
Definition grey_rows (im : image) : list bytes := map (map (fun p => hd 0%Z p)) im.
Definition toy_pil (tr : bool) (im : image) : res pimage :=
  let w := Z.of_nat (width im) in
  let h := Z.of_nat (length im) in
  Ok {| p_w := w; p_h := h; p_palette := repeat 0%Z 768;
        p_imdes := [44; 0; 0; 0; 0; w mod 256; w / 256; h mod 256; h / 256; 0; 8]%Z;
        p_data := [concat (map (fun b => Z.of_nat (length b) :: b) (grey_rows im)); [0%Z]] |}.
Definition toy_view (colours : bytes) (code : Z) (blocks : list bytes) : image := map (map (fun z => [z])) blocks.

Lemma toy_kept w h im : picture w h 1 im -> (0 < w < 256)%nat -> (0 < h < 256)%nat -> kept toy_pil toy_view im.
Proof.
  intros P W H. pose proof P as [Lh F].
  assert (Ww : width im = w).
  { destruct im as [|r t]; [cbn in Lh; lia|]. now inversion F as [|? ? [L _] _]. }
  assert (B : (0 <= Z.of_nat w < 256)%Z) by lia. assert (B' : (0 <= Z.of_nat h < 256)%Z) by lia.
  eexists. exists (grey_rows im). split; [reflexivity|]. cbn [p_w p_h p_palette p_imdes p_data]. rewrite Ww, Lh.
  split; [|split; [|now split]].
  - unfold from_pil. cbn [p_w p_h p_palette p_imdes p_data]. split; [unfold fits; lia|]. split; [unfold fits; lia|].
    split; [now vm_compute|]. split; [apply Forall_forall; intros z I; apply repeat_spec in I; subst; unfold is_byte; lia|].
    split.
    + exists (Z.of_nat w mod 256)%Z, (Z.of_nat w / 256)%Z, (Z.of_nat h mod 256)%Z, (Z.of_nat h / 256)%Z.
      rewrite !Z.mod_small, !Z.div_small by assumption. unfold is_byte, word. repeat split; lia.
    + split.
      * unfold grey_rows. apply Forall_map. eapply Forall_impl; [|exact F]. cbn beta. intros row [Lr Fr]. repeat split.
        -- destruct row; [cbn in Lr; lia|discriminate].
        -- rewrite map_length. unfold pixel in Lr. rewrite Lr. lia.
        -- apply Forall_map. eapply Forall_impl; [|exact Fr]. cbn beta. intros p [Lp Fp].
           destruct p as [|z p]; [discriminate Lp|]. now inversion Fp.
      * cbn [concat]. now rewrite app_nil_r.
  - unfold toy_view, grey_rows. rewrite map_map. clear -F. induction F as [|row t [_ Fr] _ IH]; [reflexivity|].
    cbn [map]. f_equal; [|exact IH]. rewrite map_map. clear -Fr. induction Fr as [|p t [Lp _] _ IH]; [reflexivity|].
    cbn [map]. f_equal; [|exact IH]. destruct p as [|z [|? ?]]; try discriminate Lp. reflexivity.
Qed.

(** Three pictures of three columns and two rows: a pixel changes, then nothing. *)
Definition first_array : array := AGray KByte [[10; 20; 30]; [40; 50; 60]]%Q.
Definition second_array : array := AGray KByte [[10; 20; 30]; [40; 50; 61]]%Q.
Definition first_image : image := [[[10]; [20]; [30]]; [[40]; [50]; [60]]]%Z.
Definition second_image : image := [[[10]; [20]; [30]]; [[40]; [50]; [61]]]%Z.

Lemma first_picture : picture 3 2 1 first_image.
Proof. split; [reflexivity|]. repeat constructor; cbn; lia. Qed.
Lemma second_picture : picture 3 2 1 second_image.
Proof. split; [reflexivity|]. repeat constructor; cbn; lia. Qed.

Lemma checked : check_images [first_array; second_array; second_array] = Ok [first_image; second_image; second_image].
Proof. vm_compute. reflexivity. Qed.

Lemma found : sub_rectangles [first_image; second_image; second_image] =
  Ok [(first_image, (0, 0)); ([[[61%Z]]], (2, 1)); ([[[10]; [20]]; [[40]; [50]]]%Z, (0, 0))]%nat.
Proof. vm_compute. reflexivity. Qed.

Lemma pieces_kept pieces : sub_rectangles [first_image; second_image; second_image] = Ok pieces ->
  Forall (kept toy_pil toy_view) (map fst pieces).
Proof.
  rewrite found. intros E. injection E as <-. cbn [map fst]. repeat constructor.
  - apply (toy_kept 3 2); [exact first_picture|lia|lia].
  - apply (toy_kept 1 1); [|lia|lia]. split; [reflexivity|]. repeat constructor; cbn; lia.
  - apply (toy_kept 2 2); [|lia|lia]. split; [reflexivity|]. repeat constructor; cbn; lia.
Qed.

(** ** Refutations *)
(** A pixel that becomes transparent keeps its colour. *)
Lemma transparent_stays : exists ims l, Forall (picture 1 1 4) ims /\ sub_rectangles ims = Ok l /\
  ~ Forall2 exactly_clear (left_in_place_clear blank l) ims.
Proof.
  exists [[[[1; 2; 3; 255]]]; [[[1; 2; 3; 0]]]]%Z. eexists. split.
  - repeat constructor; cbn; lia.
  - split; [vm_compute; reflexivity|]. intros F. inversion F as [|? ? ? ? _ F1]; subst.
    inversion F1 as [|? ? ? ? E _]; subst. specialize (E 0%nat 0%nat). vm_compute in E. discriminate E.
Qed.

(** Sub-rectangles that are taken away before the next one do not show the pictures. *)
Lemma taken_away_wrong : exists ims l, Forall (picture 3 2 1) ims /\ sub_rectangles ims = Ok l /\
  ~ Forall2 exactly (taken_away l) ims.
Proof.
  exists [first_image; second_image]. eexists. split; [repeat constructor; cbn; lia|].
  split; [vm_compute; reflexivity|]. intros F. inversion F as [|? ? ? ? _ F1]; subst.
  inversion F1 as [|? ? ? ? E _]; subst. specialize (E 0%nat 0%nat). vm_compute in E. discriminate E.
Qed.

(** Asked to repeat for ever, a file says 65535 times. *)
Lemma not_for_ever : exists quantize arrays bs g,
  write_gif quantize arrays (PAll (1 # 10)) RTrue STrue None = (Some bs, Ok tt) /\ read_gif bs = Some g /\
  g_loops g = Some 65535%Z.
Proof. exists toy_pil, [first_array]. do 2 eexists. split; [vm_compute; reflexivity|]. split; vm_compute; reflexivity. Qed.

(** Places that are given get lost if frames are taken away. *)
Lemma places_lost : exists quantize arrays bs g f,
  write_gif quantize arrays (PAll (1 # 10)) RTrue (SList [(0, 0); (2, 1)]%nat) (Some (PAll 2%Z)) = (Some bs, Ok tt) /\
  read_gif bs = Some g /\ nth_error (g_frames g) 1 = Some f /\ (f_left f, f_top f) = (0, 0)%Z.
Proof.
  exists toy_pil, [first_array; AGray KByte [[61]]%Q]. do 3 eexists. split; [vm_compute; reflexivity|].
  split; [vm_compute; reflexivity|]. split; vm_compute; reflexivity.
Qed.
