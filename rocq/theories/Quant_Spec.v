(** Vocabulary for the colour quantizer (C96). *)
From Coq Require Import String Ascii List ZArith QArith Qabs Bool Permutation Sorted.
Import ListNotations.
From Verif Require Import PyBase Script_Model Quant_Model.
Local Open Scope list_scope.
Local Open Scope Z_scope.

(** Colours with all three components between black and white. *)
Definition inside (x : Q) : Prop := (0 <= x)%Q /\ (x <= 255)%Q.
Definition visible_color (c : rgb) : Prop := match c with (r, g, b) => inside r /\ inside g /\ inside b end.
Definition same_color (x y : rgb) : Prop :=
  match x, y with (x0, x1, x2), (y0, y1, y2) => (x0 == y0 /\ x1 == y1 /\ x2 == y2)%Q end.

(** The colour the given part of the way from one colour to another. *)
Definition part_way (a : Q) (x y : rgb) : rgb :=
  match x, y with (x0, x1, x2), (y0, y1, y2) =>
    ((1 - a) * x0 + a * y0, (1 - a) * x1 + a * y1, (1 - a) * x2 + a * y2)%Q end.

(** Distance of colours: the sum of the differences of the components. *)
Definition apart (x y : rgb) : Q :=
  match x, y with (x0, x1, x2), (y0, y1, y2) => (Qabs (x0 - y0) + Qabs (x1 - y1) + Qabs (x2 - y2))%Q end.

(** How much a neuron at distance [d] from the one that learns is moved. *)
Definition influence (alpha : Q) (rad d : Z) : Q :=
  if (d =? 0) || (rad <=? d) then 0%Q
  else (alpha * (1 - inject_Z ((d - 1) * (d - 1)) / inject_Z (rad * rad)))%Q.

(** [x] is the first least entry of [l]. *)
Definition first_least (l : list Q) (i : nat) : Prop :=
  exists x, nth_error l i = Some x /\
    (forall k y, nth_error l k = Some y -> (x <= y)%Q) /\
    (forall k y, (k < i)%nat -> nth_error l k = Some y -> (x < y)%Q).

Definition sum (l : list Q) : Q := fold_right Qplus 0%Q l.

(** The plan of the learning: for each round the pixel, the strength (of 1024) and the radius.
    Every [delta] rounds strength and bias radius fall. *)
Fixpoint fall (by_ : Z) (times : nat) (x : Z) : Z :=
  match times with O => x | S k => fall by_ k (x - x / by_) end.
Definition stride (n : Z) : Z :=
  match find (fun p => negb (n mod p =? 0)) [499; 491; 487] with Some p => p | None => 503 end.
Definition reach (bias_radius : Z) : Z := if bias_radius <? 128 then 0 else bias_radius / 64.
Definition schedule (n : Z) (colors samplefac : Z) : list (Z * Z * Z) :=
  let m := n / samplefac in
  map (fun k => let cycle := Z.to_nat (Z.of_nat k / (m / 100)) in
                ((Z.of_nat k * stride n) mod n,
                 fall (30 + (samplefac - 1) / 3) cycle 1024,
                 reach (fall 30 cycle (colors / 8 * 64))))
    (seq 0 (Z.to_nat m)).

(** The colour of a pixel. *)
Definition rgb_of (p : Z) : rgb :=
  (inject_Z (p mod 256), inject_Z (p / 256 mod 256), inject_Z (p / 65536 mod 256)).

(** The first three neurons are special: they do not learn, and their colours are not learned. *)
Definition special (c : rgb) (s : net) : Prop := Exists (fun n => same_color n c) (firstn 3 (network s)).

(** One colour is learned with strength [a] and radius [rad].  The nearest neuron gets more frequent
    and less biased; the nearest one after subtracting the bias moves, and draws its neighbours. *)
Definition taught (c : rgb) (a : Q) (rad : Z) (s s' : net) : Prop :=
  exists nearest_one winner,
    first_least (map (fun n => apart n c) (skipn 3 (network s))) nearest_one /\
    first_least (map (fun nb => apart (fst nb) c - snd nb)%Q (combine (skipn 3 (network s)) (skipn 3 (bias s)))) winner /\
    length (network s') = length (network s) /\ length (freq s') = length (freq s) /\
    length (bias s') = length (bias s) /\
    (forall i f b, nth_error (freq s) i = Some f -> nth_error (bias s) i = Some b ->
       exists f' b', nth_error (freq s') i = Some f' /\ nth_error (bias s') i = Some b' /\
         if (i <? 3)%nat then f' = f /\ b' = b
         else (f' == (1 - (1 # 1024)) * f + (if (i =? 3 + nearest_one)%nat then 1 # 1024 else 0) /\
               b' == b + (1 - (1 # 1024)) * f - (if (i =? 3 + nearest_one)%nat then 1 else 0))%Q) /\
    (forall i m, nth_error (network s) i = Some m ->
       exists m', nth_error (network s') i = Some m' /\
         if (i <? 3)%nat then m' = m
         else same_color m' (part_way (if (i =? 3 + winner)%nat then a
                                       else influence a rad (Z.abs (Z.of_nat i - Z.of_nat (3 + winner)))) m c)).

(** Learning along a plan. *)
Inductive studied (pixels : list Z) : list (Z * Z * Z) -> net -> net -> Prop :=
| studied_all s : studied pixels [] s s
| studied_known pos alpha rad plan p s s' :
    nth_error pixels (Z.to_nat pos) = Some p -> special (rgb_of p) s ->
    studied pixels plan s s' -> studied pixels ((pos, alpha, rad) :: plan) s s'
| studied_new pos alpha rad plan p s s1 s' :
    nth_error pixels (Z.to_nat pos) = Some p -> ~ special (rgb_of p) s ->
    taught (rgb_of p) (alpha # 1024) rad s s1 ->
    studied pixels plan s1 s' -> studied pixels ((pos, alpha, rad) :: plan) s s'.

(** The network before learning: black, white, the background and shades of grey. *)
Definition initial (n : nat) (background : rgb) (s : net) : Prop :=
  length (network s) = n /\ freq s = repeat (1 / inject_Z (Z.of_nat n))%Q n /\ bias s = repeat 0%Q n /\
  firstn 3 (network s) = [(0, 0, 0); (255, 255, 255); background]%Q /\
  forall i, (3 + i < n)%nat -> exists x, nth_error (network s) (3 + i) = Some (x, x, x) /\
    (x * inject_Z (Z.of_nat n - 3) == 255 * inject_Z (Z.of_nat i))%Q.

(** What is kept while learning: the number of neurons, black and white, colours that can be
    shown, frequencies that are none below zero and add up to at most one. *)
Record sound (n : nat) (background : rgb) (s : net) : Prop := {
  sound_network : length (network s) = n;
  sound_freq : length (freq s) = n;
  sound_bias : length (bias s) = n;
  sound_specials : firstn 3 (network s) = [(0, 0, 0); (255, 255, 255); background]%Q;
  sound_colors : Forall visible_color (skipn 3 (network s));
  sound_positive : Forall (fun f => 0 <= f)%Q (freq s);
  sound_sum : (sum (skipn 3 (freq s)) <= 1)%Q
}.

(** A row of the palette is a neuron rounded to whole numbers, halves up; the fourth entry is the
    place of the neuron. *)
Definition rounds_to (x : Q) (r : Z) : Prop := (inject_Z r - (1 # 2) <= x /\ x < inject_Z r + (1 # 2))%Q.
Definition rounded (n : rgb) (i : nat) (r : row) : Prop :=
  match n, r with (n0, n1, n2), (r0, r1, r2, k) =>
    k = Z.of_nat i /\ rounds_to n0 r0 /\ rounds_to n1 r1 /\ rounds_to n2 r2 end.
Definition rounded_all (l : list rgb) (rows : list row) : Prop :=
  length rows = length l /\
  forall i n r, nth_error l i = Some n -> nth_error rows i = Some r -> rounded n i r.
Definition byte (x : Z) : Prop := 0 <= x <= 255.
Definition bytes_row (r : row) : Prop := match r with (x, y, z, _) => byte x /\ byte y /\ byte z end.

(** The colour of a row, its green, and the squared distance of colours. *)
Definition green_of (r : row) : Z := match r with (_, g, _, _) => g end.
Definition tint (r : Z * Z * Z * Z) : color := match r with (x, y, z, _) => (x, y, z) end.
Definition square_distance (x y : color) : Z :=
  match x, y with (x0, x1, x2), (y0, y1, y2) =>
    (x0 - y0) * (x0 - y0) + (x1 - y1) * (x1 - y1) + (x2 - y2) * (x2 - y2) end.

(** A colour of the palette nearest to the given one. *)
Definition nearest (colormap : list row) (c d : color) : Prop :=
  In d (map tint colormap) /\ forall e, In e (map tint colormap) -> square_distance d c <= square_distance e c.

(** The first of them. *)
Definition first_nearest (colormap : list row) (c d : color) : Prop :=
  exists before r after, colormap = before ++ r :: after /\ tint r = d /\
    Forall (fun x => square_distance d c < square_distance (tint x) c) before /\
    Forall (fun x => square_distance d c <= square_distance (tint x) c) after.

(** Pictures of the same shape whose pixels are related one by one. *)
Definition pixelwise (R : pixel -> pixel -> Prop) (px px' : list (list pixel)) : Prop :=
  Forall2 (Forall2 R) px px'.
Definition shape (w h : nat) (px : list (list pixel)) : Prop :=
  length px = h /\ Forall (fun line => length line = w) px.
Definition alpha_of (p : pixel) : Z := match p with (_, _, _, a) => a end.
