(** The colour quantizer of scaks/plotters/images2gif.py, class NeuQuant (654-1080), and the branch
    of [convertImagesToPIL] that uses it (387-402).

    Simplifications.  Floats are exact fractions.  The machine is little endian, so that a pixel is
    R + 256 G + 65536 B + 16777216 A; what the code calls (b, g, r) is then (R, G, B) and is
    written in this order here.  The table [netindex], which nothing reads, the cache of [geta]
    and the messages are left out. *)
From Coq Require Import String Ascii List ZArith QArith Bool.
Import ListNotations.
From Verif Require Import PyBase Script_Model.
Local Open Scope list_scope.

(** One colour of the network, images2gif.py 757, 942-944. *)
Definition rgb : Type := Q * Q * Q.

(** ** Python lists and arrays *)
(** [l[a:b]]; negative places count from the end. Used for images2gif.py 859, 861, 887. *)
Definition place (n : nat) (x : Z) : nat :=
  Z.to_nat (if x <? 0 then Z.max 0 (Z.of_nat n + x) else Z.min x (Z.of_nat n))%Z.
(** The slices of images2gif.py 859, 861. *)
Definition sub {A} (l : list A) (a b : Z) : list A :=
  let a := place (length l) a in let b := place (length l) b in firstn (b - a) (skipn a l).

(** [l[i] = f(l[i])] The assignments of images2gif.py 827-830, 840, 894-895, 947, 999, 1069. *)
Fixpoint alter {A} (l : list A) (i : nat) (f : A -> A) : list A :=
  match l, i with
  | [], _ => []
  | x :: t, O => f x :: t
  | x :: t, S k => x :: alter t k f
  end.

(** [np.argmin]: the first place of the least entry.
    The calls are at images2gif.py 889, 891, 1079. *)
Fixpoint argmin_from (best : Q) (at_ i : nat) (l : list Q) : nat :=
  match l with
  | [] => at_
  | x :: t => if Qle_bool best x then argmin_from best at_ (S i) t else argmin_from x i (S i) t
  end.
(** images2gif.py 889, 891, 1079; numpy raises ValueError for no entries. *)
Definition argmin (l : list Q) : res nat :=
  match l with [] => Err ValueError | x :: t => Ok (argmin_from x 0%nat 1%nat t) end.

(** ** The network, 736-768 and 801-821 *)
Record net := { network : list rgb; freq : list Q; bias : list Q }.

(** images2gif.py 739 *)
Definition SPECIALS : nat := 3.
(** images2gif.py 753 *)
Definition GAMMA : Q := 1024.
(** images2gif.py 754 *)
Definition BETA : Q := 1 # 1024.
(** images2gif.py 755 *)
Definition BETAGAMMA : Q := BETA * GAMMA.
(** images2gif.py 750-751 *)
Definition INITALPHA : Z := 1024.

(** images2gif.py 802-808, 817-818 *)
Definition gray (x : Q) : rgb := (x, x, x).
(** [junk] is what [np.empty] left in the place of the background. images2gif.py 801-821 *)
Definition set_up (n : nat) (junk : rgb) : res net :=
  if (n <? SPECIALS)%nat then Err IndexError
  else Ok {| network := [gray 0; gray 255; junk] ++
               map (fun i => gray (255 * inject_Z (Z.of_nat i) / inject_Z (Z.of_nat (n - SPECIALS))))
                 (seq 0 (n - SPECIALS));
             freq := repeat (1 / inject_Z (Z.of_nat n))%Q n;
             bias := repeat 0%Q n |}.

(** images2gif.py 825-830, [altersingle] *)
Definition toward (a x y : Q) : Q := x - a * (x - y).
(** Same lines: images2gif.py 825-830. *)
Definition move (a : Q) (n c : rgb) : rgb :=
  match n, c with (n0, n1, n2), (c0, c1, c2) => (toward a n0 c0, toward a n1 c1, toward a n2 c2) end.
(** Same lines: images2gif.py 825-830. *)
Definition with_network (s : net) (l : list rgb) : net := {| network := l; freq := freq s; bias := bias s |}.
(** Same lines: images2gif.py 825-830. *)
Definition altersingle (a : Q) (i : nat) (c : rgb) (s : net) : net :=
  with_network s (alter (network s) i (fun n => move a n c)).

(** images2gif.py 832-842 *)
Definition geta (alpha : Q) (rad : Z) : list Q :=
  let length := (rad * 2 - 1)%Z in
  let mid := Z.to_nat (length / 2) in
  let q := map Z.of_nat (rev (seq 0 mid)) ++ (-1)%Z :: map Z.of_nat (seq 0 mid) in
  alter (map (fun x => alpha * inject_Z (rad * rad - x * x) / inject_Z (rad * rad)) q) mid (fun _ => 0%Q).

(** images2gif.py 844-862.  Arrays of different lengths are out of the model. *)
Definition alterneigh (alpha : Q) (rad i : Z) (c : rgb) (s : net) : res net :=
  let n := Z.of_nat (length (network s)) in
  let special := Z.of_nat SPECIALS in
  let '(lo, start) := if (special - 1 <=? i - rad)%Z then ((i - rad)%Z, 0%Z)
                      else ((special - 1)%Z, (special - 1 - (i - rad))%Z) in
  let '(hi, stop) := if (i + rad <=? n)%Z then ((i + rad)%Z, (rad * 2 - 1)%Z)
                     else (n, (n - (i + rad))%Z) in
  let a := sub (geta alpha rad) start stop in
  let p := sub (network s) (lo + 1) hi in
  if negb (length a =? length p)%nat then Err Unsupported
  else Ok (with_network s (firstn (place (length (network s)) (lo + 1)) (network s) ++
             map (fun ap => move (fst ap) (snd ap) c) (combine a p) ++
             skipn (place (length (network s)) (lo + 1) + length p) (network s))).

(** images2gif.py 881-896: the neuron that learns, and the network with frequencies and biases changed. *)
Definition dist (n c : rgb) : Q :=
  match n, c with (n0, n1, n2), (c0, c1, c2) => Qabs.Qabs (n0 - c0) + Qabs.Qabs (n1 - c1) + Qabs.Qabs (n2 - c2) end.
(** Same lines: images2gif.py 881-896. *)
Definition from_specials (f : list Q -> list Q) (l : list Q) : list Q :=
  firstn SPECIALS l ++ f (skipn SPECIALS l).
(** Same lines: images2gif.py 881-896. *)
Definition contest (c : rgb) (s : net) : res (nat * net) :=
  let dists := map (fun n => dist n c) (skipn SPECIALS (network s)) in
  do best <- argmin dists;
  do bestbias <- argmin (map (fun db => fst db - snd db)%Q (combine dists (skipn SPECIALS (bias s))));
  let freq1 := from_specials (map (fun f => f * (1 - BETA))%Q) (freq s) in
  let bias1 := firstn SPECIALS (bias s) ++
               map (fun bf => fst bf + BETAGAMMA * snd bf)%Q
                 (combine (skipn SPECIALS (bias s)) (skipn SPECIALS freq1)) in
  Ok ((SPECIALS + bestbias)%nat,
      {| network := network s;
         freq := alter freq1 (SPECIALS + best) (fun f => f + BETA)%Q;
         bias := alter bias1 (SPECIALS + best) (fun b => b - BETAGAMMA)%Q |}).

(** images2gif.py 901-906 *)
Definition same (x y : rgb) : bool :=
  match x, y with (x0, x1, x2), (y0, y1, y2) => Qeq_bool x0 y0 && Qeq_bool x1 y1 && Qeq_bool x2 y2 end.
(** Same lines: images2gif.py 901-906. *)
Definition special_find (c : rgb) (s : net) : bool :=
  existsb (fun n => same n c) (firstn SPECIALS (network s)).

(** ** Learning, 908-970 *)
Local Open Scope Z_scope.
(** images2gif.py 942-944 *)
Definition byte_of (p : Z) (shift : Z) : Q := inject_Z (Z.land (Z.shiftr p shift) 255).
(** images2gif.py 941-944 *)
Definition color_of (p : Z) : rgb := (byte_of p 0, byte_of p 8, byte_of p 16).

(** images2gif.py 925-932, with the primes of 724-727 *)
Definition step_of (lengthcount : Z) : Z :=
  if negb (lengthcount mod 499 =? 0) then 499
  else if negb (lengthcount mod 491 =? 0) then 491
  else if negb (lengthcount mod 487 =? 0) then 487
  else 503.

(** images2gif.py 917-919, 965-967 *)
Definition radius (biasRadius : Z) : Z :=
  let rad := Z.shiftr biasRadius 6 in if rad <=? 1 then 0 else rad.

Section Learn.
  Variables (pixels : list Z) (alphadec delta step : Z).

  (** One pixel: the network after it.  [first] is [i == 0]. *)
  Definition learn_pixel (first : bool) (pos alpha rad : Z) (s : net) : res net :=
    do p <- lindex pixels (Z.to_nat pos);
    let c := color_of p in
    let s := if first then with_network s (alter (network s) 2 (fun _ => c)) else s in
    if special_find c s then Ok s
    else
      do (j, s1) <- contest c s;
      let a := (inject_Z alpha / inject_Z INITALPHA)%Q in
      let s2 := altersingle a j c s1 in
      if 0 <? rad then alterneigh a rad (Z.of_nat j) c s2 else Ok s2.

  (** [todo] rounds are left; [i] were done. images2gif.py 936-967 *)
  Fixpoint learn_loop (todo : nat) (i pos alpha biasRadius rad : Z) (s : net) : res net :=
    match todo with
    | O => Ok s
    | S k =>
        do s' <- learn_pixel (i =? 0) pos alpha rad s;
        let pos := (pos + step) mod Z.of_nat (length pixels) in
        let i := i + 1 in
        if delta =? 0 then Err ZeroDivisionError
        else if i mod delta =? 0 then
          let biasRadius := biasRadius - biasRadius / 30 in
          learn_loop k i pos (alpha - alpha / alphadec) biasRadius (radius biasRadius) s'
        else learn_loop k i pos alpha biasRadius rad s'
    end.
End Learn.

(** images2gif.py 908-970 *)
Definition learn (py : python) (pixels : list Z) (samplefac : Z) (s : net) : res net :=
  let lengthcount := Z.of_nat (length pixels) in
  if samplefac =? 0 then Err ZeroDivisionError
  else match py with
  | Python3 => Err TypeError                       (* [biasRadius >> 6] of a float *)
  | Python2 =>
      let biasRadius := Z.of_nat (length (network s)) / 8 * 64 in
      let samplepixels := lengthcount / samplefac in
      learn_loop pixels (30 + (samplefac - 1) / 3) (samplepixels / 100) (step_of lengthcount)
        (Z.to_nat samplepixels) 0 0 INITALPHA biasRadius (radius biasRadius) s
  end.

(** ** The palette *)
(** R, G, B and the place in the network images2gif.py 758, 972-979 *)
Definition row : Type := Z * Z * Z * Z.
(** images2gif.py 988, 991-994 *)
Definition green (r : row) : Z := match r with (_, g, _, _) => g end.

(** images2gif.py 972-979; [int] rounds towards zero. *)
Definition trunc (x : Q) : Z := Z.quot (Qnum x) (Zpos (Qden x)).
(** Same lines: images2gif.py 972-979. *)
Definition level (x : Q) : Z := Z.min 255 (Z.max 0 (trunc ((1 # 2) + x)%Q)).
(** Same lines: images2gif.py 972-979. *)
Definition fix_row (i : nat) (n : rgb) : row :=
  match n with (r, g, b) => (level r, level g, level b, Z.of_nat i) end.
(** Same lines: images2gif.py 972-979. *)
Definition fix_colors (l : list rgb) : list row :=
  map (fun p => fix_row (fst p) (snd p)) (combine (seq 0 (length l)) l).

(** images2gif.py 981-1011: the entries from place i on; the first with the least green is exchanged with the
    first of them. *)
Fixpoint smallest (pos : nat) (val : Z) (j : nat) (l : list row) : nat :=
  match l with
  | [] => pos
  | q :: t => if green q <? val then smallest j (green q) (S j) t else smallest pos val (S j) t
  end.
(** Same lines: images2gif.py 981-1011. *)
Fixpoint sort_green (rounds : nat) (l : list row) : list row :=
  match rounds, l with
  | O, _ | _, [] => l
  | S k, p :: t =>
      match smallest 0%nat (green p) 1%nat t with
      | O => p :: sort_green k t
      | S m => match nth_error t m with
               | Some q => q :: sort_green k (alter t m (fun _ => p))
               | None => l
               end
      end
  end.

(** images2gif.py 770-789.  [junk]: see [set_up]. *)
Definition neu_quant (py : python) (junk : rgb) (size : Z * Z) (mode : str) (pixels : list Z)
    (samplefac : Z) (colors : nat) : res (list row) :=
  if fst size * snd size <? 503 then Err IOError
  else if negb (str_eqb mode (L "RGBA")) then Err IOError
  else
    do s <- set_up colors junk;
    do s' <- learn py pixels samplefac s;
    let colormap := fix_colors (network s') in
    Ok (sort_green (length colormap) colormap).

(** images2gif.py 1013-1027: the numbers of the palette image. *)
Definition palette (colormap : list row) : list Z :=
  flat_map (fun r : row => match r with (x, y, z, _) => [x; y; z] end) colormap ++
  repeat 0 ((256 - length colormap) * 3)%nat.

(** ** Replacing the pixels images2gif.py 1063 *)
Definition color : Type := Z * Z * Z.
(** images2gif.py 1064-1065: equality of the keys of the dictionary. *)
Definition color_eqb (x y : color) : bool :=
  match x, y with (x0, x1, x2), (y0, y1, y2) => (x0 =? y0) && (x1 =? y1) && (x2 =? y2) end.
(** images2gif.py 1074 *)
Definition of_row (r : row) : color := match r with (x, y, z, _) => (x, y, z) end.
(** images2gif.py 1078-1079 *)
Definition dist2 (x y : color) : Z :=
  match x, y with (x0, x1, x2), (y0, y1, y2) =>
    (x0 - y0) * (x0 - y0) + (x1 - y1) * (x1 - y1) + (x2 - y2) * (x2 - y2) end.

(** images2gif.py 1072-1080, [inxsearch] and [convert] *)
Definition inxsearch (colormap : list row) (c : color) : res nat :=
  argmin (map (fun r => inject_Z (dist2 (of_row r) c)) colormap).
(** Same lines: images2gif.py 1072-1080. *)
Definition convert (colormap : list row) (c : color) : res color :=
  do i <- inxsearch colormap c; do r <- lindex colormap i; Ok (of_row r).

(** images2gif.py 1054-1070 without the conversion by PIL: rows of pixels (R, G, B, A), column by column with
    the colours met before remembered. *)
Definition pixel : Type := Z * Z * Z * Z.
(** Same lines: images2gif.py 1054-1070. *)
Definition memory : Type := list (color * color).
(** Same lines: images2gif.py 1054-1070. *)
Definition recall (m : memory) (c : color) : option color :=
  match find (fun p => color_eqb (fst p) c) m with Some p => Some (snd p) | None => None end.
(** Same lines: images2gif.py 1054-1070. *)
Definition recolor (p : pixel) (c : color) : pixel :=
  match p, c with (_, _, _, a), (x, y, z) => (x, y, z, a) end.

(** images2gif.py 1063-1069 *)
Definition quantize_at (colormap : list row) (m : memory) (px : list (list pixel)) (ij : nat * nat)
    : res (memory * list (list pixel)) :=
  do line <- lindex px (fst ij);
  do p <- lindex line (snd ij);
  let key := of_row p in
  do (val, m') <- match recall m key with
                  | Some v => Ok (v, m)
                  | None => do v <- convert colormap key; Ok (v, (key, v) :: m)
                  end;
  Ok (m', alter px (fst ij) (fun line => alter line (snd ij) (fun p => recolor p val))).
(** images2gif.py 1061-1069 *)
Fixpoint quantize_all (colormap : list row) (m : memory) (px : list (list pixel)) (l : list (nat * nat))
    : res (list (list pixel)) :=
  match l with
  | [] => Ok px
  | ij :: t => do (m', px') <- quantize_at colormap m px ij; quantize_all colormap m' px' t
  end.
(** images2gif.py 1058-1062 *)
Definition quantize_without_scipy (colormap : list row) (w h : nat) (px : list (list pixel))
    : res (list (list pixel)) :=
  quantize_all colormap [] px (flat_map (fun j => map (fun i => (i, j)) (seq 0 h)) (seq 0 w)).

(** images2gif.py 1039-1051; [query] is the search of scipy's tree. *)
Definition quantize_with_scipy (query : list color -> color -> nat) (colormap : list row)
    (px : list (list pixel)) : res (list (list pixel)) :=
  mapM (mapM (fun p : pixel => do r <- lindex colormap (query (map of_row colormap) (of_row p));
                               Ok (recolor p (of_row r)))) px.

(** ** The writer with nq >= 1, images2gif.py 387-402: pictures are given by size and pixels. *)
Section Writer.
  Variables (py : python) (junk : rgb).
  (** images2gif.py 390-402 *)
  Definition nq_image (dither : bool) (nq : Z) (im : (Z * Z) * list Z) : res unit :=
    do _ <- neu_quant py junk (fst im) (L "RGBA") (snd im) nq 256;
    if dither then Err IndexError               (* a paletted image has one band, not four *)
    else Err TypeError.                         (* [quantize] has no argument [colors]
      images2gif.py 389-402 *)
  (** Same lines: images2gif.py 390-402. *)
  Definition nq_images (dither : bool) (nq : Z) (ims : list ((Z * Z) * list Z)) : res (list unit) :=
    mapM (nq_image dither nq) ims.
End Writer.
