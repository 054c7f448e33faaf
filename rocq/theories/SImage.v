(** Specification of images and bitmap files, by byte positions. *)
From Coq Require Import ZArith List Bool.
From Verif Require Import Base MStream MImage.
Import ListNotations.
Open Scope Z_scope.

(** The bytes of a row, and the offset of the last row, are ints. *)
Definition addressable (w h p : Z) : Prop := p * w <= int_max /\ p * w * (h - 1) <= int_max.
(** A well-formed image: sizes not negative, one byte (0..255) per pixel and plane, offsets that are ints. *)
Definition wfi (im : Image) : Prop :=
  0 <= im_w im /\ 0 <= im_h im /\ 0 <= im_p im /\ vsize (im_data im) = im_w im * im_h im * im_p im /\
  Forall (fun b => 0 <= b < 256) (im_data im) /\ addressable (im_w im) (im_h im) (im_p im).
Definition same_size (im im' : Image) : Prop := im_w im' = im_w im /\ im_h im' = im_h im /\ im_p im' = im_p im.
Definition inside (im : Image) (x y p : Z) : Prop := 0 <= x < im_w im /\ 0 <= y < im_h im /\ 0 <= p < im_p im.

(** Byte [i] of a file; zero past its end. *)
Definition byte (l : list Z) (i : Z) : Z := nth (Z.to_nat i) l 0.
Definition bytes_ok (l : list Z) : Prop := Forall (fun b => 0 <= b < 256) l.

(** Signed little-endian header fields of 2 and 4 bytes. *)
Definition as_signed (half : Z) (v : Z) : Z := if v <? half then v else v - 2 * half.
Definition field2 (l : list Z) (o : Z) : Z := as_signed 32768 (byte l o + 256 * byte l (o + 1)).
Definition field4 (l : list Z) (o : Z) : Z :=
  as_signed 2147483648 (byte l o + 256 * byte l (o + 1) + 65536 * byte l (o + 2) + 16777216 * byte l (o + 3)).
Definition bmp_magic (l : list Z) : Prop := field2 l 0 = 19778.
Definition bmp_width (l : list Z) : Z := field4 l 18.
Definition bmp_height (l : list Z) : Z := field4 l 22.
Definition bmp_bits (l : list Z) : Z := field2 l 28.

(** Red and blue change places, green and alpha stay. *)
Definition rb (p : Z) : Z := if p =? 0 then 2 else if p =? 2 then 0 else p.
(** Bytes per row, rounded up to a multiple of four. *)
Definition stride (n : Z) : Z := (n + 3) / 4 * 4.
(** A 24-bit bitmap file of w x h pixels, colours b,g,r, rows from the bottom up, each row padded to a multiple of four bytes:
    [r], [g], [b] of pixel (x,y) counted from the top left are planes 0, 1, 2 of [px]. *)
Definition bmp24 (l : list Z) (w h : Z) (px : Z -> Z -> Z -> Z) : Prop :=
  bytes_ok l /\ bmp_magic l /\ bmp_width l = w /\ bmp_height l = h /\ bmp_bits l = 24 /\ field4 l 10 = 54 /\
  54 + stride (3 * w) * h <= vsize l /\
  forall x y p, 0 <= x < w -> 0 <= y < h -> 0 <= p < 3 -> byte l (54 + stride (3 * w) * (h - 1 - y) + 3 * x + rb p) = px x y p.

(** Byte [pos] of the file, or the byte [old] that was there before when the file is too short. *)
Definition from_file (l : list Z) (pos old : Z) : Z := if pos <? vsize l then byte l pos else old.
(** What the reader leaves in plane [p] of pixel (x,y), [d] being the buffer of the image before. *)
Definition loaded (l d : list Z) (x y p : Z) : Z :=
  let w := bmp_width l in let h := bmp_height l in
  if bmp_bits l =? 8 then from_file l (1078 + (w + w mod 4) * (h - 1 - y) + x) (byte d (w * y + x))
  else if bmp_bits l =? 24 then
    let i := 3 * x + rb p in if y =? h - 1 then from_file l (54 + i) (byte d (3 * w * y + i)) else byte d (3 * w * y + i)
  else let i := 4 * x + rb p in from_file l (54 + 4 * w * (h - 1 - y) + i) (byte d (4 * w * y + i)).
(** The palette of a written file: 256 entries of four bytes when there is one plane. *)
Definition palette_size (p : Z) : Z := if p =? 1 then 1024 else 0.
(** The sizes the writer computes are ints. *)
Definition storable (w h p : Z) : Prop := w * p + 3 <= int_max /\ 54 + palette_size p + stride (w * p) * h <= int_max.
(** The sizes the reader computes are ints, for a header of [b] bits per pixel. *)
Definition readable (w h b : Z) : Prop :=
  (if b =? 8 then w + w mod 4 else if b =? 24 then 3 * w + 3 else 4 * w) <= int_max /\ b / 8 * w * (h - 1) <= int_max.
(** An image of one value. *)
Definition flat (w h p v : Z) : Image := mkImg w h p (repeat v (Z.to_nat (w * h * p))).
(** A header alone. *)
Definition head54 (w h b : Z) : list Z := le 2 0x4D42 ++ repeat 0 16 ++ le 4 w ++ le 4 h ++ le 2 1 ++ le 2 b ++ repeat 0 24.
