(** Animated pictures: /repo/scaks/plotters/images2gif.py, without the NeuQuant palette (class NeuQuant)
    and without the reader (GifRead_Model.v). *)
From Coq Require Import String Ascii List ZArith Bool Arith QArith.
Import ListNotations.
From Verif Require Import PyBase.
Local Open Scope list_scope.

(** ** checkImages, images2gif.py 96-134 *)
(** A pixel is the list of its colour values: one, three or four. images2gif.py 122-129. *)
Definition pixel := list Z.
(** The rows of pixels of an array [im], images2gif.py 104-131. *)
Definition image := list (list pixel).

(** numpy arrays by the kind of their entries and by dimension; PIL images are passed on as they are
    and are taken here as arrays of bytes. images2gif.py 110-121. *)
Inductive kind := KByte | KFloat | KInt.
(** images2gif.py 108-129. *)
Inductive array :=
| AGray (k : kind) (rows : list (list Q))                (** ndim == 2 *)
| AColor (k : kind) (c : nat) (rows : list (list (list Q)))  (** ndim == 3, shape[2] == c *)
| AOther.                                                (** any other number of dimensions *)

(** [int(x)] (images2gif.py 118, 243) *)
Definition trunc (x : Q) : Z := Z.quot (Qnum x) (Zpos (Qden x)).
(** images2gif.py 110-121: entries between 0 and 1 become 0 to 255; integers are taken modulo 256 *)
Definition entry_of (k : kind) (x : Q) : Z :=
  match k with
  | KByte => trunc x
  | KFloat =>
      let a := if Qle_bool 0 x then x else 0%Q in
      let b := if Qle_bool a 1 then a else 1%Q in
      trunc (b * 255)
  | KInt => (trunc x mod 256)%Z
  end.
(** checkImages on one array, images2gif.py 108-131 *)
Definition check_image (a : array) : res image :=
  match a with
  | AGray k rows => Ok (map (map (fun x => [entry_of k x])) rows)
  | AColor k c rows =>
      if ((c =? 3) || (c =? 4))%nat then Ok (map (map (map (entry_of k))) rows) else Err ValueError
  | AOther => Err ValueError
  end.
(** checkImages, images2gif.py 96-134 *)
Definition check_images (l : list array) : res (list image) := mapM check_image l.

(** ** getSubRectangles, images2gif.py 304-358 *)
Definition sumZ (l : list Z) : Z := fold_right Z.add 0%Z l.
(** An operation of numpy on two arrays of one shape, entry by entry (images2gif.py 335). *)
Definition map2 {A B C} (f : A -> B -> C) (a : list A) (b : list B) : list C :=
  map (fun xy => f (fst xy) (snd xy)) (combine a b).
(** [np.abs(im - prev)] of bytes, added over the colours
    (images2gif.py 335-337; the difference of bytes is taken modulo 256) *)
Definition pixel_diff (a b : pixel) : Z := sumZ (map2 (fun x y => (x - y) mod 256)%Z a b).
(** images2gif.py 335-337 *)
Definition diff (im prev : image) : list (list Z) := map2 (map2 pixel_diff) im prev.

(** Shapes: numbers of rows, columns and colours.  Arrays of different shapes, which numpy repeats to
    fit or refuses, are not modelled. (images2gif.py 335) *)
Definition list_eqb {A} (f : A -> A -> bool) (a b : list A) : bool :=
  (length a =? length b)%nat && forallb (fun xy => f (fst xy) (snd xy)) (combine a b).
(** Both arrays have one shape (images2gif.py 335). *)
Definition same_shape (a b : image) : bool :=
  list_eqb (list_eqb (fun p q : pixel => (length p =? length q)%nat)) a b.

(** [diff.sum(0)] and [diff.sum(1)] *)
Definition width {A} (rows : list (list A)) : nat := match rows with r :: _ => length r | [] => 0 end.
(** [diff.sum(0)], images2gif.py 339 *)
Definition col_sums (d : list (list Z)) : list Z :=
  map (fun j => sumZ (map (fun row => nth j row 0%Z) d)) (seq 0 (width d)).
(** [diff.sum(1)], images2gif.py 340 *)
Definition row_sums (d : list (list Z)) : list Z := map sumZ d.

(** [np.argwhere] (images2gif.py 339-340) *)
Definition argwhere (l : list Z) : list nat :=
  map fst (filter (fun iz => negb (snd iz =? 0)%Z) (combine (seq 0 (length l)) l)).

(** images2gif.py 337-347: [(x0, x1, y0, y1)] *)
Definition rectangle (im prev : image) : nat * nat * nat * nat :=
  let d := diff im prev in
  match argwhere (col_sums d), argwhere (row_sums d) with
  | x :: xs, y :: ys => (x, S (last xs x), y, S (last ys y))
  | _, _ => (0, 2, 0, 2)%nat
  end.

(** [l[a:b]] (images2gif.py 350) *)
Definition slice {A} (a b : nat) (l : list A) : list A := firstn (b - a) (skipn a l).
(** [im[y0:y1,x0:x1]], images2gif.py 350 *)
Definition crop (r : nat * nat * nat * nat) (im : image) : image :=
  let '(x0, x1, y0, y1) := r in map (slice x0 x1) (slice y0 y1 im).

(** The loop, images2gif.py 333-353 *)
Fixpoint sub_loop (prev : image) (ims : list image) : res (list (image * (nat * nat))) :=
  match ims with
  | [] => Ok []
  | im :: t =>
      if same_shape im prev then
        let '(x0, x1, y0, y1) := rectangle im prev in
        do rest <- sub_loop im t;
        Ok ((crop (x0, x1, y0, y1) im, (x0, y0)) :: rest)
      else Err Unsupported
  end.
(** The pictures with their places (the two lists that are returned, entry by entry).
    images2gif.py 304-358 *)
Definition sub_rectangles (ims : list image) : res (list (image * (nat * nat))) :=
  match ims with
  | [] => Ok []
  | [im] => Ok [(im, (0, 0)%nat)]
  | im :: t => do rest <- sub_loop im t; Ok ((im, (0, 0)%nat) :: rest)
  end.

(** ** Bytes The texts of bytes of images2gif.py 137-246 *)
Definition bytes := list Z.
(** Literals such as b'GIF89a' (images2gif.py 159, 213) *)
Definition text_bytes (s : string) : bytes := map (fun c => Z.of_nat (nat_of_ascii c)) (L s).

(** intToBin, images2gif.py 137-143 *)
Definition int_to_bin (i : Z) : res bytes :=
  if ((0 <=? i) && (i <? 65536))%Z then Ok [(i mod 256)%Z; (i / 256)%Z] else Err OverflowError.

(** [bytes([i])] (images2gif.py 240, 244) *)
Definition one_byte (i : Z) : res bytes :=
  if ((0 <=? i) && (i <? 256))%Z then Ok [i] else Err ValueError.

(** A picture as PIL has it: size, the palette [getheader(im)[0][3]], and [getdata(im)]: the image
    descriptor up to the code size, and the pieces of the compressed data. *)
Record pimage := { p_w : Z; p_h : Z; p_palette : bytes; p_imdes : bytes; p_data : list bytes }.

(** getheaderAnim, images2gif.py 153-163 *)
Definition header_anim (im : pimage) : res bytes :=
  do a <- int_to_bin (p_w im);
  do b <- int_to_bin (p_h im);
  Ok (text_bytes "GIF89a" ++ a ++ b ++ [135; 0; 0]%Z).

(** getImageDescriptor, images2gif.py 166-197 *)
Definition image_descriptor (im : pimage) (xy : Z * Z) : res bytes :=
  do l <- int_to_bin (fst xy);
  do t <- int_to_bin (snd xy);
  do w <- int_to_bin (p_w im);
  do h <- int_to_bin (p_h im);
  Ok ([44]%Z ++ l ++ t ++ w ++ h ++ [135]%Z).

(** getAppExt, images2gif.py 200-217; None: infinity *)
Definition app_ext (loops : option Z) : res bytes :=
  let n := match loops with
           | None => 65535%Z
           | Some z => if (z =? 0)%Z then 65535%Z else z
           end in
  if (n =? 1)%Z then Ok []
  else do b <- int_to_bin n;
       Ok ([33; 255; 11]%Z ++ text_bytes "NETSCAPE2.0" ++ [3; 1]%Z ++ b ++ [0]%Z).

(** getGraphicsControlExt, images2gif.py 220-246 *)
Definition control_ext (duration : Q) (dispose flag index : Z) : res bytes :=
  do p <- one_byte (Z.lor (Z.shiftl (Z.land dispose 3) 2) (Z.land flag 1));
  do d <- int_to_bin (trunc (duration * 100));
  do i <- one_byte index;
  Ok ([33; 249; 4]%Z ++ p ++ d ++ i ++ [0]%Z).

(** writeGifToFile, images2gif.py 427-433: the palette that is used most *)
Definition bytes_eqb (a b : bytes) : bool := list_eqb Z.eqb a b.
(** [palettes.count(palette)], images2gif.py 431 *)
Definition count (p : bytes) (l : list bytes) : nat := length (filter (bytes_eqb p) l).
(** [palettes[occur.index(max(occur))]], images2gif.py 434 *)
Fixpoint first_max (l : list bytes) (all : list bytes) : res bytes :=
  match l with
  | [] => Err ValueError
  | p :: t => if forallb (fun q => count q all <=? count p all)%nat all then Ok p else first_max t all
  end.
(** images2gif.py 427-434 *)
Definition global_palette (l : list bytes) : res bytes := first_max l l.

(** [l[i]] (images2gif.py 468-472) *)
Definition at_frame {A} (l : list A) (i : nat) : res A :=
  match nth_error l i with Some x => Ok x | None => Err IndexError end.

(** One frame, images2gif.py 458-484.  Nothing is written before all its parts are there. *)
Definition frame_bytes (transparency : bool) (global : bytes) (duration : Q) (dispose : Z) (xy : Z * Z)
    (im : pimage) : res bytes :=
  do g <- control_ext duration dispose (if transparency then 1 else 0)%Z 255%Z;
  do lid <- image_descriptor im xy;
  let head := if negb (bytes_eqb (p_palette im) global) || negb (dispose =? 2)%Z
              then g ++ lid ++ p_palette im ++ [8]%Z
              else g ++ p_imdes im in
  Ok (head ++ concat (p_data im)).

(** The loop over the frames: what has been written, and the number of frames or the error.
    images2gif.py 437-494 *)
Fixpoint write_frames (transparency : bool) (global : bytes) (durations : list Q) (disposes : list Z)
    (xys : list (Z * Z)) (k : nat) (ims : list pimage) : bytes * res nat :=
  match ims with
  | [] => ([], Ok k)
  | im :: t =>
      match (do d <- at_frame durations k; do s <- at_frame disposes k; do xy <- at_frame xys k;
             frame_bytes transparency global d s xy im) with
      | Err e => ([], Err e)
      | Ok b => let (bs, r) := write_frames transparency global durations disposes xys (S k) t in (b ++ bs, r)
      end
  end.

(** writeGifToFile, images2gif.py 419-493 *)
Definition write_to_file (transparency : bool) (ims : list pimage) (durations : list Q) (loops : option Z)
    (xys : list (Z * Z)) (disposes : list Z) : bytes * res nat :=
  match global_palette (map p_palette ims) with
  | Err e => ([], Err e)
  | Ok g =>
      match ims with
      | [] => ([], Ok O)
      | im :: _ =>
          match (do h <- header_anim im; do a <- app_ext loops; Ok (h ++ g ++ a)) with
          | Err e => ([], Err e)
          | Ok h =>
              match write_frames transparency g durations disposes xys 0 ims with
              | (bs, Ok n) => (h ++ bs ++ [59]%Z, Ok n)
              | (bs, Err e) => (h ++ bs, Err e)
              end
          end
      end
  end.

(** ** writeGif, images2gif.py 501-598 *)
(** An argument that is one value for all frames or a list of values.
    images2gif.py 565-571, 585-589. *)
Inductive per_frame (A : Type) := PAll (x : A) | PList (l : list A).
Arguments PAll {A} _.
Arguments PList {A} _.
(** [repeat]: a truth value or an integer (images2gif.py 557-562) *)
Inductive repeats := RFalse | RTrue | RInt (z : Z).
(** [subRectangles]: False, True, or places (images2gif.py 574-580) *)
Inductive rectangles := SFalse | STrue | SList (l : list (nat * nat)).

(** images2gif.py 556-561 *)
Definition loops_of (r : repeats) : Z :=
  match r with RFalse => 1%Z | RTrue => 0%Z | RInt z => z end.

(** images2gif.py 564-570 and 583-589 *)
Definition spread {A} (p : per_frame A) (n : nat) : res (list A) :=
  match p with
  | PAll x => Ok (repeat x n)
  | PList l => if (length l =? n)%nat then Ok l else Err ValueError
  end.

(** images2gif.py 573-580, handleSubRectangles 249-301; an empty list counts as False.  The result:
    pictures with their places, and the default way of disposal. *)
Definition place (s : rectangles) (ims : list image) : res (list (image * (nat * nat)) * Z) :=
  match s with
  | SFalse | SList [] => Ok (map (fun im => (im, (0, 0)%nat)) ims, 2%Z)
  | STrue => do l <- sub_rectangles ims; Ok (l, 1%Z)
  | SList xy =>
      if (length xy =? length ims)%nat
      then Ok (combine ims (match xy with _ :: t => (0, 0)%nat :: t | [] => [] end), 1%Z)
      else Err ValueError
  end.

(** ** convertImagesToPIL with nq = 0, images2gif.py 361-383 and 401-413 *)
(** [im.shape[2]], or 1 *)
Definition channels (im : image) : nat := match im with (p :: _) :: _ => length p | _ => 0 end.

Section Write.
(** What PIL makes of one array: [Image.fromarray], [convert('P')], the transparent colour pasted if the
    first argument is true, then [getheader] and [getdata]. *)
Variable quantize : bool -> image -> res pimage.

(** As soon as one array has four colours the flag is set, and [split()[3]] is taken of all of them. *)
Definition convert_images (ims : list image) : res (bool * list pimage) :=
  let transparency := existsb (fun im => channels im =? 4)%nat ims in
  do l <- mapM (fun im => if transparency && negb (channels im =? 4)%nat then Err IndexError
                          else quantize transparency im) ims;
  Ok (transparency, l).

(** Places as integers: [xys] of images2gif.py 597 (no step of the code). *)
Definition Znat2 (xy : nat * nat) : Z * Z := (Z.of_nat (fst xy), Z.of_nat (snd xy)).

(** The new contents of the file (None: it is not opened), and the error if there is one.
    images2gif.py 501-599. *)
Definition write_gif (arrays : list array) (duration : per_frame Q) (repeat : repeats) (sub : rectangles)
    (dispose : option (per_frame Z)) : option bytes * res unit :=
  match (do ims <- check_images arrays;
         do ds <- spread duration (length ims);
         do placed <- place sub ims;
         do ss <- spread (match dispose with None => PAll (snd placed) | Some s => s end) (length (fst placed));
         do conv <- convert_images (map fst (fst placed));
         Ok (ds, fst placed, ss, conv)) with
  | Err e => (None, Err e)
  | Ok (ds, placed, ss, (transparency, pims)) =>
      match write_to_file transparency pims ds (Some (loops_of repeat)) (map (fun p => Znat2 (snd p)) placed) ss with
      | (bs, Ok _) => (Some bs, Ok tt)
      | (bs, Err e) => (Some bs, Err e)
      end
  end.
End Write.
