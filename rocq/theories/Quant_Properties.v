(** C96: the colour quantizer of the GIF writer. *)
From Coq Require Import String Ascii List ZArith QArith Qabs Bool Permutation Sorted Znumtheory.
Import ListNotations.
From Verif Require Import PyBase Script_Model Quant_Model Quant_Spec Quant_Proofs Quant_Learn Quant_Palette Quant_Witness.
Local Open Scope list_scope.
Local Open Scope Z_scope.

(** The palette of a picture: the network starts with black, white, the colour of the first pixel
    and shades of grey; it learns the pixels of the schedule one by one; its neurons, rounded, are
    the palette, in order of green. *)
Theorem C96_palette_partial : forall junk w h pixels samplefac colors,
  (3 < colors)%nat -> 503 <= w * h -> 1 <= samplefac -> 100 * samplefac <= Z.of_nat (length pixels) ->
  exists p s1 s2 rows cm, nth_error pixels 0 = Some p /\ initial colors (rgb_of p) s1 /\
    studied pixels (schedule (Z.of_nat (length pixels)) (Z.of_nat colors) samplefac) s1 s2 /\
    sound colors (rgb_of p) s2 /\ rounded_all (network s2) rows /\
    neu_quant Python2 junk (w, h) (L "RGBA") pixels samplefac colors = Ok cm /\
    Permutation rows cm /\ StronglySorted (fun x y => green_of x <= green_of y) cm /\ Forall bytes_row cm /\
    In (0, 0, 0) (map tint cm) /\ In (255, 255, 255) (map tint cm) /\
    In (p mod 256, p / 256 mod 256, p / 65536 mod 256) (map tint cm).
Proof. exact trained. Qed.
Print Assumptions C96_palette_partial.

Example C96_palette_example :
  neu_quant Python2 (7, 7, 7)%Q (50, 20) (L "RGBA") (repeat (10 + 256 * 20 + 65536 * 30 + 16777216 * 255) 1000) 10 5
  = Ok [(0, 0, 0, 0); (0, 0, 0, 3); (10, 20, 30, 2); (128, 128, 128, 4); (255, 255, 255, 1)].
Proof. exact plain_palette. Qed.

Example C96_learning_example : exists s s',
  initial 5 (10, 20, 30)%Q s /\ learn_pixel [100] false 0 512 2 s = Ok s' /\ taught (rgb_of 100) (512 # 1024) 2 s s' /\
  exists m, nth_error (network s') 3 = Some m /\ same_color m (50, 0, 0)%Q.
Proof. exact (ex_intro _ start (ex_intro _ after (conj start_initial (conj eq_refl start_taught)))). Qed.

(** Python 3 cannot make a palette at all. *)
Theorem C96_python3_refuted : forall junk w h pixels samplefac colors, (3 <= colors)%nat -> 503 <= w * h ->
  neu_quant Python3 junk (w, h) (L "RGBA") pixels samplefac colors
  = Err (if samplefac =? 0 then ZeroDivisionError else TypeError).
Proof. exact python3_palette. Qed.
Print Assumptions C96_python3_refuted.

(** Pictures that are large enough by the message of the code, but have too few samples. *)
Theorem C96_samples_refuted : forall junk w h pixels samplefac colors,
  (3 < colors)%nat -> 503 <= w * h -> 1 <= samplefac -> samplefac <= Z.of_nat (length pixels) < 100 * samplefac ->
  neu_quant Python2 junk (w, h) (L "RGBA") pixels samplefac colors = Err ZeroDivisionError.
Proof. exact sampled_few. Qed.
Print Assumptions C96_samples_refuted.

(** Without any sample nothing is learned, and what [np.empty] left is one of the colours. *)
Theorem C96_no_samples : forall junk w h pixels samplefac colors,
  (3 < colors)%nat -> 503 <= w * h -> 1 <= samplefac -> Z.of_nat (length pixels) < samplefac ->
  exists s rows cm, initial colors junk s /\
    neu_quant Python2 junk (w, h) (L "RGBA") pixels samplefac colors = Ok cm /\
    Permutation rows cm /\ (visible_color junk -> rounded_all (network s) rows).
Proof. exact sampled_none. Qed.
Print Assumptions C96_no_samples.

(** What is refused. *)
Theorem C96_small : forall py junk size mode pixels samplefac colors, fst size * snd size < 503 ->
  neu_quant py junk size mode pixels samplefac colors = Err IOError.
Proof. exact small_picture. Qed.
Print Assumptions C96_small.
Theorem C96_mode : forall py junk size mode pixels samplefac colors, mode <> L "RGBA" ->
  neu_quant py junk size mode pixels samplefac colors = Err IOError.
Proof. exact other_mode. Qed.
Print Assumptions C96_mode.
Theorem C96_few_colors : forall py junk w h pixels samplefac colors, (colors < 3)%nat -> 503 <= w * h ->
  neu_quant py junk (w, h) (L "RGBA") pixels samplefac colors = Err IndexError.
Proof. exact few_colors. Qed.
Print Assumptions C96_few_colors.

(** The schedule: the share of the pixels asked for, each at most once, unless the number of pixels
    is a multiple of all four primes. *)
Theorem C96_schedule_length : forall n colors samplefac, 1 <= samplefac -> 0 <= n ->
  Z.of_nat (length (schedule n colors samplefac)) = n / samplefac.
Proof. intros n colors sf. rewrite schedule_plan. exact (plan_of_length n colors sf). Qed.
Print Assumptions C96_schedule_length.
Theorem C96_schedule_distinct : forall n colors samplefac, 1 <= samplefac -> 0 < n ->
  ~ ((499 | n) /\ (491 | n) /\ (487 | n) /\ (503 | n)) ->
  NoDup (map (fun r => fst (fst r)) (schedule n colors samplefac)).
Proof. intros n colors sf. rewrite schedule_plan. exact (plan_of_distinct n colors sf). Qed.
Print Assumptions C96_schedule_distinct.
Theorem C96_schedule_refuted : exists n colors samplefac, 1 <= samplefac /\ 100 * samplefac <= n /\
  ~ NoDup (map (fun r => fst (fst r)) (schedule n colors samplefac)).
Proof. exact order_repeats. Qed.
Print Assumptions C96_schedule_refuted.

(** The formula for the biases in the documentation of [contest] holds for no neuron that can learn
    once one colour was learned. *)
Theorem C96_bias_refuted : exists n bg c a rad s s' i f b, (3 < n)%nat /\ initial n bg s /\ taught c a rad s s' /\
  nth_error (freq s') i = Some f /\ nth_error (bias s') i = Some b /\
  ~ (b == 1024 * (1 / inject_Z (Z.of_nat n) - f))%Q.
Proof. exact bias_differs. Qed.
Print Assumptions C96_bias_refuted.
Theorem C96_bias : forall n bg c a rad s s' i f b,
  (3 < n)%nat -> initial n bg s -> taught c a rad s s' -> (3 <= i)%nat ->
  nth_error (freq s') i = Some f -> nth_error (bias s') i = Some b ->
  ~ (b == 1024 * (1 / inject_Z (Z.of_nat n) - f))%Q.
Proof. exact taught_bias. Qed.
Print Assumptions C96_bias.

(** The numbers of the palette image. *)
Theorem C96_palette_numbers : forall cm, (length cm <= 256)%nat ->
  length (palette cm) = 768%nat /\
  (forall i x y z k, nth_error cm i = Some (x, y, z, k) ->
     nth_error (palette cm) (3 * i) = Some x /\ nth_error (palette cm) (3 * i + 1) = Some y /\
     nth_error (palette cm) (3 * i + 2) = Some z) /\
  (forall i, (3 * length cm <= i < 768)%nat -> nth_error (palette cm) i = Some 0).
Proof. exact palette_ok. Qed.
Print Assumptions C96_palette_numbers.

(** Converting a colour gives the first nearest colour of the palette. *)
Theorem C96_convert : forall cm c d, convert cm c = Ok d <-> first_nearest cm c d.
Proof. exact convert_ok. Qed.
Print Assumptions C96_convert.

(** Every pixel of a picture gets it, and keeps its alpha, though colours met before are
    remembered. *)
Theorem C96_quantized : forall cm w h px, cm <> [] -> shape w h px ->
  exists px', quantize_without_scipy cm w h px = Ok px' /\
    pixelwise (fun p p' => first_nearest cm (tint p) (tint p') /\ alpha_of p' = alpha_of p) px px'.
Proof. exact quantized. Qed.
Print Assumptions C96_quantized.
Example C96_quantized_example :
  shape 2 1 [[(190, 120, 10, 7); (250, 230, 240, 9)]] /\
  quantize_without_scipy [(0, 0, 0, 0); (200, 100, 0, 2); (255, 255, 255, 1)] 2 1 [[(190, 120, 10, 7); (250, 230, 240, 9)]]
  = Ok [[(200, 100, 0, 7); (255, 255, 255, 9)]].
Proof. exact three_picture. Qed.

(** With scipy, whose search is taken to find a nearest colour. *)
Theorem C96_quantized_scipy : forall query cm px,
  (forall c, exists d, nth_error (map tint cm) (query (map tint cm) c) = Some d /\
     forall e, In e (map tint cm) -> square_distance d c <= square_distance e c) ->
  exists px', quantize_with_scipy query cm px = Ok px' /\
    pixelwise (fun p p' => nearest cm (tint p) (tint p') /\ alpha_of p' = alpha_of p) px px'.
Proof. exact quantized_scipy. Qed.
Print Assumptions C96_quantized_scipy.
Example C96_scipy_example : exists query : list color -> color -> nat,
  (forall c, exists d, nth_error (map tint three) (query (map tint three) c) = Some d /\
     forall e, In e (map tint three) -> square_distance d c <= square_distance e c) /\
  quantize_with_scipy query three [[(190, 120, 10, 7); (250, 230, 240, 9)]] = Ok [[(200, 100, 0, 7); (255, 255, 255, 9)]].
Proof. exact tree_example. Qed.

(** The option [nq] of the writer never works. *)
Theorem C96_writer_refuted : forall py junk dither nq im ims, exists e, nq_images py junk dither nq (im :: ims) = Err e.
Proof. exact writer_fails. Qed.
Print Assumptions C96_writer_refuted.
Theorem C96_writer_python2 : forall junk dither nq w h pixels ims,
  503 <= w * h -> 1 <= nq -> 100 * nq <= Z.of_nat (length pixels) ->
  nq_images Python2 junk dither nq (((w, h), pixels) :: ims) = Err (if dither then IndexError else TypeError).
Proof. exact writer_error. Qed.
Print Assumptions C96_writer_python2.
Theorem C96_writer_python3 : forall junk dither nq w h pixels ims, 503 <= w * h -> 1 <= nq ->
  nq_images Python3 junk dither nq (((w, h), pixels) :: ims) = Err TypeError.
Proof. exact writer_python3. Qed.
Print Assumptions C96_writer_python3.
Example C96_writer_example : exists pixels ims,
  503 <= 30 * 20 /\ nq_images Python2 (7, 7, 7)%Q true 10 (((30, 20), pixels) :: ims) = Err ZeroDivisionError /\
  Z.of_nat (length pixels) = 30 * 20.
Proof. exact writer_sizes. Qed.
