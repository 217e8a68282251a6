(** What an animated picture shows, and how a viewer reads a GIF89a file.  Independent of the writer. *)
From Coq Require Import String Ascii List ZArith Bool Arith QArith Qround.
Import ListNotations.
From Verif Require Import PyBase Gif_Model.
Local Open Scope list_scope.

(** ** Pictures *)
Definition pixel_at (im : image) (x y : nat) : option pixel :=
  match nth_error im y with Some row => nth_error row x | None => None end.

(** A picture of w columns, h rows and c colours per pixel, all of them bytes. *)
Definition picture (w h c : nat) (im : image) : Prop :=
  length im = h /\
  Forall (fun row => length row = w /\ Forall (fun p : pixel => length p = c /\ Forall (fun z => (0 <= z < 256)%Z) p) row) im.

(** The place (x, y) of the screen lies on a piece put at (x0, y0), where the piece has this pixel. *)
Definition piece_at (piece : image) (xy : nat * nat) (x y : nat) : option pixel :=
  if ((fst xy <=? x) && (snd xy <=? y))%nat then pixel_at piece (x - fst xy) (y - snd xy) else None.

(** What a screen shows, place by place. *)
Definition screen := nat -> nat -> option pixel.
Definition blank : screen := fun _ _ => None.
Definition exactly (s : screen) (im : image) : Prop := forall x y, s x y = pixel_at im x y.

(** Drawing a piece over what the screen shows. *)
Definition paint (s : screen) (piece : image) (xy : nat * nat) : screen :=
  fun x y => match piece_at piece xy x y with Some p => Some p | None => s x y end.

(** The screens while pieces are shown one after the other and left in place (disposal 1). *)
Fixpoint left_in_place (s : screen) (pieces : list (image * (nat * nat))) : list screen :=
  match pieces with
  | [] => []
  | (piece, xy) :: t => paint s piece xy :: left_in_place (paint s piece xy) t
  end.
(** The same if each piece is taken away before the next one (disposal 2). *)
Definition taken_away (pieces : list (image * (nat * nat))) : list screen :=
  map (fun p => paint blank (fst p) (snd p)) pieces.

(** With transparent colours: a pixel with a fourth value up to 128 leaves the screen as it is. *)
Definition clear (p : pixel) : bool := match nth_error p 3 with Some a => (a <=? 128)%Z | None => false end.
Definition paint_clear (s : screen) (piece : image) (xy : nat * nat) : screen :=
  fun x y => match piece_at piece xy x y with Some p => if clear p then s x y else Some p | None => s x y end.
Fixpoint left_in_place_clear (s : screen) (pieces : list (image * (nat * nat))) : list screen :=
  match pieces with
  | [] => []
  | (piece, xy) :: t => paint_clear s piece xy :: left_in_place_clear (paint_clear s piece xy) t
  end.
Definition exactly_clear (s : screen) (im : image) : Prop :=
  forall x y, s x y = match pixel_at im x y with Some p => if clear p then None else Some p | None => None end.
Definition opaque (im : image) : Prop := forall x y p, pixel_at im x y = Some p -> clear p = false.

(** A rectangle of columns x0 .. x1-1 and rows y0 .. y1-1 outside of which two pictures agree. *)
Definition covers (r : nat * nat * nat * nat) (a b : image) : Prop :=
  let '(x0, x1, y0, y1) := r in
  forall x y, pixel_at a x y <> pixel_at b x y -> (x0 <= x < x1 /\ y0 <= y < y1)%nat.
Definition inside (r r' : nat * nat * nat * nat) : Prop :=
  let '(x0, x1, y0, y1) := r in let '(a0, a1, b0, b1) := r' in
  (a0 <= x0 /\ x1 <= a1 /\ b0 <= y0 /\ y1 <= b1)%nat.
(** A piece put at a place is the part of a picture inside a rectangle. *)
Definition part_of (r : nat * nat * nat * nat) (im : image) (piece : image) (xy : nat * nat) : Prop :=
  let '(x0, x1, y0, y1) := r in
  xy = (x0, y0) /\
  forall x y, piece_at piece xy x y =
    if ((x0 <=? x) && (x <? x1) && (y0 <=? y) && (y <? y1))%nat then pixel_at im x y else None.

(** Every piece is what changes from the picture before: the smallest rectangle that covers it, or the
    upper left corner of two by two if nothing does. *)
Definition smallest (r : nat * nat * nat * nat) (im prev : image) : Prop :=
  ((forall x y, pixel_at im x y = pixel_at prev x y) /\ r = (0, 2, 0, 2)%nat) \/
  ((exists x y, pixel_at im x y <> pixel_at prev x y) /\ covers r im prev /\
   forall r', covers r' im prev -> inside r r').
Inductive updates : image -> list image -> list (image * (nat * nat)) -> Prop :=
| updates_nil prev : updates prev [] []
| updates_cons prev im t piece xy rest r :
    smallest r im prev -> part_of r im piece xy -> updates im t rest ->
    updates prev (im :: t) ((piece, xy) :: rest).

(** ** A reader of GIF89a files *)
Record frame := {
  f_delay : Z; f_dispose : Z; f_transparent : option Z;
  f_left : Z; f_top : Z; f_width : Z; f_height : Z;
  f_table : option bytes; f_code : Z; f_blocks : list bytes }.
(** [g_loops]: None if the file does not say (shown once); 0 is for ever *)
Record gif := { g_width : Z; g_height : Z; g_table : option bytes; g_loops : option Z; g_frames : list frame }.

Definition take (n : Z) (bs : bytes) : option (bytes * bytes) :=
  if (Z.of_nat (length bs) <? n)%Z then None else Some (firstn (Z.to_nat n) bs, skipn (Z.to_nat n) bs).

(** A colour table follows if the highest bit of the flags is set; the lowest three bits tell its size. *)
Definition read_table (flags : Z) (bs : bytes) : option (option bytes * bytes) :=
  if Z.testbit flags 7 then
    match take (3 * 2 ^ (flags mod 8 + 1)) bs with Some (t, rest) => Some (Some t, rest) | None => None end
  else Some (None, bs).

Fixpoint read_sub_blocks (fuel : nat) (bs : bytes) : option (list bytes * bytes) :=
  match fuel, bs with
  | S fuel, n :: t =>
      if (n =? 0)%Z then Some ([], t)
      else match take n t with
           | Some (b, rest) =>
               match read_sub_blocks fuel rest with Some (l, rest) => Some (b :: l, rest) | None => None end
           | None => None
           end
  | _, _ => None
  end.

(** The blocks after the header: the control block that holds for the next picture, and what is known
    so far. *)
Record control := { c_delay : Z; c_dispose : Z; c_transparent : option Z }.
Definition no_control : control := {| c_delay := 0; c_dispose := 0; c_transparent := None |}.
Definition word (a b : Z) : Z := (a + 256 * b)%Z.
Definition netscape : bytes := map (fun c => Z.of_nat (nat_of_ascii c)) (list_ascii_of_string "NETSCAPE2.0").

Fixpoint read_blocks (fuel : nat) (c : control) (bs : bytes) : option (option Z * list frame) :=
  match fuel with
  | O => None
  | S fuel =>
      match bs with
      | [59%Z] => Some (None, [])
      | 33%Z :: 249%Z :: 4%Z :: p :: d0 :: d1 :: i :: 0%Z :: rest =>
          read_blocks fuel {| c_delay := word d0 d1; c_dispose := p / 4 mod 8;
                              c_transparent := if Z.odd p then Some i else None |} rest
      | 33%Z :: 255%Z :: 11%Z :: t =>
          match take 11 t with
          | Some (name, 3%Z :: 1%Z :: l0 :: l1 :: 0%Z :: rest) =>
              if list_eqb Z.eqb name netscape then
                match read_blocks fuel c rest with
                | Some (_, fs) => Some (Some (word l0 l1), fs)
                | None => None
                end
              else None
          | _ => None
          end
      | 44%Z :: x0 :: x1 :: y0 :: y1 :: w0 :: w1 :: h0 :: h1 :: flags :: t =>
          match read_table flags t with
          | Some (table, code :: t) =>
              match read_sub_blocks (length t) t with
              | Some (blocks, rest) =>
                  match read_blocks fuel no_control rest with
                  | Some (loops, fs) =>
                      Some (loops,
                            {| f_delay := c_delay c; f_dispose := c_dispose c; f_transparent := c_transparent c;
                               f_left := word x0 x1; f_top := word y0 y1; f_width := word w0 w1;
                               f_height := word h0 h1; f_table := table; f_code := code; f_blocks := blocks |} :: fs)
                  | None => None
                  end
              | None => None
              end
          | _ => None
          end
      | _ => None
      end
  end.

Definition signature : bytes := map (fun c => Z.of_nat (nat_of_ascii c)) (list_ascii_of_string "GIF89a").
Definition read_gif (bs : bytes) : option gif :=
  match take 6 bs with
  | Some (sig, w0 :: w1 :: h0 :: h1 :: flags :: background :: aspect :: t) =>
      if list_eqb Z.eqb sig signature then
        match read_table flags t with
        | Some (table, t) =>
            match read_blocks (length t) no_control t with
            | Some (loops, fs) =>
                Some {| g_width := word w0 w1; g_height := word h0 h1; g_table := table;
                        g_loops := loops; g_frames := fs |}
            | None => None
            end
        | None => None
        end
      else None
  | _ => None
  end.

(** ** What PIL is expected to give *)
Definition is_byte (z : Z) : Prop := (0 <= z < 256)%Z.
Definition fits (z : Z) : Prop := (0 <= z < 65536)%Z.
(** Pieces of compressed data, each after its length, and a zero at the end. *)
Definition blocks_of (data : bytes) (blocks : list bytes) : Prop :=
  Forall (fun b => b <> [] /\ (Z.of_nat (length b) < 256)%Z /\ Forall is_byte b) blocks /\
  data = concat (map (fun b => Z.of_nat (length b) :: b) blocks) ++ [0%Z].
(** A picture of a size that fits, with 256 colours, an image descriptor for the place (0, 0) without a
    colour table, code size 8, and the compressed data. *)
Definition from_pil (p : pimage) (blocks : list bytes) : Prop :=
  fits (p_w p) /\ fits (p_h p) /\ Z.of_nat (length (p_palette p)) = 768%Z /\ Forall is_byte (p_palette p) /\
  (exists w0 w1 h0 h1, is_byte w0 /\ is_byte w1 /\ is_byte h0 /\ is_byte h1 /\
     p_w p = word w0 w1 /\ p_h p = word h0 h1 /\
     p_imdes p = [44; 0; 0; 0; 0; w0; w1; h0; h1; 0; 8]%Z) /\
  blocks_of (concat (p_data p)) blocks.

(** The colours a viewer takes for a frame: its own table, else the global one. *)
Definition colours (g : gif) (f : frame) : option bytes :=
  match f_table f with Some t => Some t | None => g_table g end.

(** The palette that most of the pictures have, the first of them if there are several. *)
Definition most_used (g : bytes) (l : list bytes) : Prop :=
  exists before after, l = before ++ g :: after /\
    let n q := count_occ (list_eq_dec Z.eq_dec) l q in
    Forall (fun q => n q <= n g)%nat l /\ Forall (fun q => n q < n g)%nat before.

(** The documented meaning of [repeat]: False is one round, True or 0 asks for no end, a number is the
    number of rounds. *)
Definition rounds (r : repeats) : Z := match r with RFalse => 1%Z | RTrue => 0%Z | RInt z => z end.
(** The number of loops in the file for a number that is asked for. *)
Definition loops_for (z : Z) : option Z :=
  if (z =? 1)%Z then None else if (z =? 0)%Z then Some 65535%Z else Some z.

(** What is expected of the frame for a picture: shown for [d] seconds rounded down to hundredths, its own
    size, data and colours, and its place -- unless it is the first way of writing frames, where the place
    is (0, 0). *)
Definition frame_for (g : bytes) (transparency : bool) (p : pimage) (blocks : list bytes) (d : Q) (s : Z)
    (xy : Z * Z) (f : frame) : Prop :=
  f_delay f = Qround.Qfloor (d * 100) /\
  f_dispose f = (s mod 4)%Z /\
  f_transparent f = (if transparency then Some 255%Z else None) /\
  f_width f = p_w p /\ f_height f = p_h p /\ f_code f = 8%Z /\ f_blocks f = blocks /\
  ((p_palette p <> g \/ s <> 2%Z) -> f_table f = Some (p_palette p) /\ (f_left f, f_top f) = xy) /\
  (p_palette p = g -> s = 2%Z -> f_table f = None /\ (f_left f, f_top f) = (0, 0)%Z).

Definition good_duration (d : Q) : Prop := (0 <= d)%Q /\ (d * 100 < inject_Z 65536)%Q.

(** What a viewer with this decoder of compressed data draws for a frame, and where. *)
Definition drawn (decode : bytes -> Z -> list bytes -> image) (g : gif) (f : frame) : image * (nat * nat) :=
  (decode (match colours g f with Some t => t | None => [] end) (f_code f) (f_blocks f),
   (Z.to_nat (f_left f), Z.to_nat (f_top f))).

(** PIL makes a picture of an array from which the viewer gets back the array. *)
Definition kept (quantize : bool -> image -> res pimage) (decode : bytes -> Z -> list bytes -> image)
    (im : image) : Prop :=
  exists p blocks, quantize false im = Ok p /\ from_pil p blocks /\ decode (p_palette p) 8%Z blocks = im /\
    p_w p = Z.of_nat (width im) /\ p_h p = Z.of_nat (length im).

(** Arrays of w columns, h rows and c colours; arrays of bytes have bytes in them. *)
Definition entry_ok (k : kind) (x : Q) : Prop :=
  k = KByte -> exists z, (0 <= z < 256)%Z /\ x = inject_Z z.
Definition array_of (w h c : nat) (a : array) : Prop :=
  match a with
  | AGray k rows => c = 1%nat /\ length rows = h /\ Forall (fun row => length row = w /\ Forall (entry_ok k) row) rows
  | AColor k d rows =>
      d = c /\ (c = 3 \/ c = 4)%nat /\ length rows = h /\
      Forall (fun row => length row = w /\ Forall (fun p => length p = c /\ Forall (entry_ok k) p) row) rows
  | AOther => False
  end.
