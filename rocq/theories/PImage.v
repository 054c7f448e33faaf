(** Properties C70-C74: images and bitmap files. *)
From Coq Require Import ZArith List Bool Lia Reals Lra.
From Verif Require Import Base Num MStream MImage MBmp SImage LBase LImage LImage2 LImage3 LBmp LBmp2 LBmp3 LBmp4 LBmp5.
Import ListNotations.
Open Scope Z_scope.

(** C70. *)
Theorem C70_address_in_buffer : forall im x y p, wfi im -> inside im x y p -> exists a, im_addr im x y p = Ok a /\ 0 <= a < vsize (im_data im).
Proof. exact addr_in_bounds. Qed.
Print Assumptions C70_address_in_buffer.
Theorem C70_addresses_disjoint : forall im x y p x' y' p' a, im_addr im x y p = Ok a -> im_addr im x' y' p' = Ok a -> x = x' /\ y = y' /\ p = p'.
Proof. exact addr_disjoint. Qed.
Print Assumptions C70_addresses_disjoint.
Theorem C70_outside_asserts : forall im x y p, ~ inside im x y p -> im_addr im x y p = Err FAssert.
Proof. exact im_addr_outside. Qed.
Print Assumptions C70_outside_asserts.
Theorem C70_put_get : forall im x y p v, wfi im -> inside im x y p -> 0 <= v < 256 ->
  exists im', im_put im x y p v = Ok im' /\ wfi im' /\ same_size im im' /\
    forall x' y' p', inside im x' y' p' -> im_get im' x' y' p' = if (x' =? x) && (y' =? y) && (p' =? p) then Ok v else im_get im x' y' p'.
Proof. exact im_put_ok. Qed.
Print Assumptions C70_put_get.
(** The offset is computed in int: an image whose buffer holds all its pixels cannot be addressed past 2^31 bytes. *)
Theorem C70_large_image_refuted : forall im x y p, inside im x y p -> int_max < im_p im * im_w im * y -> im_addr im x y p = Err FOverflow.
Proof. exact im_addr_big. Qed.
Print Assumptions C70_large_image_refuted.
Theorem C70_resize : forall im w h p, 0 <= w -> 0 <= h -> 0 <= p -> w * h * p < 2 ^ 64 -> exists im', im_resize im w h p = Ok im' /\ im_w im' = w /\ im_h im' = h /\ im_p im' = p /\
  vsize (im_data im') = w * h * p /\ (forall i, 0 <= i < w * h * p -> byte (im_data im') i = byte (im_data im) i) /\ (bytes_ok (im_data im) -> addressable w h p -> wfi im').
Proof. exact im_resize_ok. Qed.
Print Assumptions C70_resize.
(** The number of bytes is computed modulo 2^64: an image of positive sizes without a byte. *)
Theorem C70_resize_wraps_refuted : exists im, im_resize (mkImg 0 0 0 []) (2 ^ 30) (2 ^ 30) 16 = Ok im /\ im_w im = 2 ^ 30 /\ im_h im = 2 ^ 30 /\ im_p im = 16 /\ im_data im = [].
Proof. exact (ex_intro _ (mkImg (2 ^ 30) (2 ^ 30) 16 []) (conj eq_refl (conj eq_refl (conj eq_refl (conj eq_refl eq_refl))))). Qed.
Print Assumptions C70_resize_wraps_refuted.
Theorem C70_convert_to_bw : forall im imBW, wfi im -> 3 <= im_p im -> bytes_ok (im_data imBW) ->
  exists r, convert_to_bw im imBW = Ok r /\ wfi r /\ im_w r = im_w im /\ im_h r = im_h im /\ im_p r = 1 /\
    forall x y, 0 <= x < im_w im -> 0 <= y < im_h im -> exists a b c, im_get im x y 0 = Ok a /\ im_get im x y 1 = Ok b /\ im_get im x y 2 = Ok c /\ im_get r x y 0 = Ok ((a + b + c) / 3).
Proof. exact bw_ok. Qed.
Print Assumptions C70_convert_to_bw.
(** With fewer than three planes, or the same image as source and target, the conversion asserts. *)
Theorem C70_convert_to_bw_few_planes_refuted : forall im imBW, wfi im -> im_p im < 3 -> 0 < im_w im -> 0 < im_h im -> convert_to_bw im imBW = Err FAssert.
Proof. exact bw_few. Qed.
Print Assumptions C70_convert_to_bw_few_planes_refuted.
Theorem C70_convert_to_bw_in_place_refuted : forall im, wfi im -> 1 <= im_p im -> 0 < im_w im -> 0 < im_h im -> convert_to_bw_self im = Err FAssert.
Proof. exact bw_self. Qed.
Print Assumptions C70_convert_to_bw_in_place_refuted.
Theorem C70_scale : forall im (d : R), wfi im -> (0 <= d)%R -> (forall x y p v, inside im x y p -> im_get im x y p = Ok v -> IZR v * d + 1 / 2 < 256)%R ->
  exists r, im_scale im d = Ok r /\ wfi r /\ same_size im r /\
    forall x y p, inside im x y p -> exists v k, im_get im x y p = Ok v /\ im_get r x y p = Ok k /\ (IZR k <= IZR v * d + 1 / 2 < IZR k + 1)%R.
Proof. exact scale_ok. Qed.
Print Assumptions C70_scale.
(** Conversion to a vector of doubles: every one-plane image wider than high is written outside the vector; square images come out transposed. *)
Theorem C70_to_double_wide_refuted : forall im img, wfi im -> im_w im * im_h im <= int_max -> im_p im = 1 -> 1 <= im_h im -> im_h im < im_w im -> im_to_double im img = Err FOob.
Proof. exact to_double_oob. Qed.
Print Assumptions C70_to_double_wide_refuted.
Theorem C70_to_double_square_partial : forall im img, wfi im -> im_w im * im_h im <= int_max -> im_p im = 1 -> im_w im = im_h im ->
  exists r, im_to_double im img = Ok r /\ vsize r = im_w im * im_h im /\
    forall x y, 0 <= x < im_w im -> 0 <= y < im_h im -> exists v, im_get im x y 0 = Ok v /\ vget r (y + x * im_w im) = Ok v.
Proof. exact to_double_square. Qed.
Print Assumptions C70_to_double_square_partial.
Theorem C70_shierpinsky : forall im w h, bytes_ok (im_data im) -> 0 <= w -> 0 <= h -> addressable w h 4 -> exists r, shierpinsky im w h = Ok r /\ wfi r /\ im_w r = w /\ im_h r = h /\ im_p r = 4 /\
  forall x y, 0 <= x < w -> 0 <= y < h -> let c := if Z.land x y =? 0 then 255 else 0 in
    im_get r x y 0 = Ok c /\ im_get r x y 1 = Ok c /\ im_get r x y 2 = Ok c.
Proof. exact shierpinsky_ok. Qed.
Print Assumptions C70_shierpinsky.
Theorem C70_mandelbrot : forall im w h iter, bytes_ok (im_data im) -> 0 <= w -> 0 <= h -> addressable w h 4 -> 0 <= iter <= 255 ->
  exists r, mandelbrot (T := R) im w h iter = Ok r /\ wfi r /\ im_w r = w /\ im_h r = h /\ im_p r = 4 /\
  forall x y, 0 <= x < w -> 0 <= y < h -> exists k, 0 <= k <= iter /\ im_get r x y 0 = Ok k /\ im_get r x y 1 = Ok k /\ im_get r x y 2 = Ok k /\ im_get r x y 3 = Ok 0.
Proof. exact mandelbrot_ok. Qed.
Print Assumptions C70_mandelbrot.
(** A 3 x 2 image of 3 planes: planes, then pixels, then rows. *)
Example C70_case : let im := mkImg 3 2 3 [10;11;12; 20;21;22; 30;31;32; 40;41;42; 50;51;52; 60;61;62] in
  wfi im /\ im_get im 1 1 2 = Ok 52 /\ im_get im 3 0 0 = Err FAssert /\
  (do i <- im_put im 1 1 2 99; im_get i 1 1 2) = Ok 99 /\
  (do r <- convert_to_bw im (mkImg 0 0 0 []); Ok (im_data r)) = Ok [11; 21; 31; 41; 51; 61] /\
  im_to_double (mkImg 3 2 1 [1;2;3;4;5;6]) [] = Err FOob.
Proof. cbv zeta. split; [unfold wfi, addressable, int_max; cbn; repeat split; try lia; repeat constructor; lia|]. repeat split. Qed.
(** 30000 x 30000 pixels of 4 bytes: the buffer has 3.6 * 10^9 bytes, the bottom row cannot be addressed; the generators fault. *)
Example C70_case_large : exists im, im_resize (mkImg 0 0 0 []) 30000 30000 4 = Ok im /\ vsize (im_data im) = 3600000000 /\ inside im 0 29999 0 /\ im_addr im 0 29999 0 = Err FOverflow /\ addressable 20000 20000 4.
Proof.
  destruct (im_resize_ok (mkImg 0 0 0 []) 30000 30000 4) as [im [E [D1 [D2 [D3 [S _]]]]]]; [lia|lia|lia|reflexivity|]. exists im. split; [exact E|]. split; [rewrite S; reflexivity|].
  assert (inside im 0 29999 0) as I by (unfold inside; lia). split; [exact I|]. split; [apply im_addr_big; [exact I|rewrite D1, D3; reflexivity]|]. unfold addressable, int_max. lia.
Qed.
Example C70_case_shierpinsky : (do r <- shierpinsky (mkImg 0 0 0 []) 2 2; Ok (im_data r)) = Ok [255;255;255;1; 255;255;255;1; 255;255;255;1; 0;0;0;0].
Proof. reflexivity. Qed.
(** Scaling a pixel of value 200 by 2 converts 400.5 to a byte: undefined. *)
Example C70_case_scale : im_scale (mkImg 1 1 1 [200]) 2%R = Err FBadConv.
Proof.
  unfold im_scale. cbn [im_w im_h im_p]. rewrite !(for_step 0 1) by lia. cbn [bind]. change (im_get (mkImg 1 1 1 [200]) 0 0 0) with (Ok 200). cbn [bind].
  rewrite to_uchar_big; [reflexivity|]. cbn. lra.
Qed.

(** C71.  The colours of every image come back; alpha is written as 0; an image of width zero and some height asserts. *)
Theorem C71_round_trip_32_partial : forall im old, wfi im -> im_p im = 4 -> 0 < im_w im -> storable (im_w im) (im_h im) 4 -> bytes_ok (im_data old) ->
  exists l im', bmp_write im = Ok l /\ bmp_read l old = Ok (true, im') /\ wfi im' /\ same_size im im' /\
    forall x y p, inside im x y p -> im_get im' x y p = if p =? 3 then Ok 0 else im_get im x y p.
Proof. exact round_trip_32. Qed.
Print Assumptions C71_round_trip_32_partial.
Theorem C71_file_layout : forall im, wfi im -> im_p im = 1 \/ im_p im = 3 \/ im_p im = 4 -> 0 < im_w im \/ im_h im = 0 -> storable (im_w im) (im_h im) (im_p im) ->
  exists l, bmp_write im = Ok l /\ bytes_ok l /\ bmp_magic l /\ bmp_width l = im_w im /\ bmp_height l = im_h im /\ bmp_bits l = 8 * im_p im /\ field4 l 10 = 54 + palette_size (im_p im) /\
    vsize l = 54 + palette_size (im_p im) + stride (im_w im * im_p im) * im_h im /\
    forall x y q v, inside im x y q -> im_get im x y q = Ok v ->
      byte l (54 + palette_size (im_p im) + stride (im_w im * im_p im) * (im_h im - 1 - y) + im_p im * x + (if im_p im =? 1 then 0 else rb q)) = if q =? 3 then 0 else v.
Proof. exact bmp_write_ok. Qed.
Print Assumptions C71_file_layout.
(** The sizes written in the header are ints: every larger image overflows. *)
Theorem C71_large_image_refuted : forall im, wfi im -> im_p im = 1 \/ im_p im = 3 \/ im_p im = 4 -> ~ storable (im_w im) (im_h im) (im_p im) -> bmp_write im = Err FOverflow.
Proof. exact bmp_write_big. Qed.
Print Assumptions C71_large_image_refuted.
Theorem C71_zero_width_refuted : exists im, wfi im /\ im_p im = 4 /\ bmp_write im = Err FAssert.
Proof. exact (ex_intro _ (mkImg 0 1 4 []) (conj (conj (Z.le_refl 0) (conj Z.le_0_1 (conj (Pos2Z.is_nonneg 4) (conj eq_refl (conj (Forall_nil _) (conj (Pos2Z.is_nonneg 2147483647) (Pos2Z.is_nonneg 2147483647))))))) (conj eq_refl eq_refl))). Qed.
Print Assumptions C71_zero_width_refuted.
Example C71_case : (do l <- bmp_write (mkImg 2 2 4 [1;2;3;4; 5;6;7;8; 9;10;11;12; 13;14;15;16]); do r <- bmp_read l (mkImg 0 0 0 []); Ok (vsize l, skipn 54 l, fst r, im_data (snd r)))
  = Ok (70, [11;10;9;0; 15;14;13;0; 3;2;1;0; 7;6;5;0], true, [1;2;3;0; 5;6;7;0; 9;10;11;0; 13;14;15;0]).
Proof. vm_compute. reflexivity. Qed.
(** An image of one column of 2^30 grey pixels is well formed, but its rows of four bytes do not fit. *)
Example C71_case_large : wfi (flat 1 (2 ^ 30) 1 7) /\ storable 1 (2 ^ 28) 1 /\ ~ storable 1 (2 ^ 30) 1.
Proof.
  assert (addressable 1 (2 ^ 30) 1) as A by (unfold addressable, int_max; lia). split; [apply flat_ok; [lia|lia|lia|exact A|lia]|]. unfold storable. change (stride (1 * 1)) with 4. change (palette_size 1) with 1024. unfold int_max. split; [lia|]. intros [_ H]. lia.
Qed.

(** C72.  Exact for even widths and for one row; for every odd width and two rows or more an image is changed. *)
Theorem C72_round_trip_8_partial : forall im old, wfi im -> im_p im = 1 -> 0 < im_w im -> storable (im_w im) (im_h im) 1 -> bytes_ok (im_data old) -> Z.even (im_w im) = true \/ im_h im <= 1 ->
  exists l im', bmp_write im = Ok l /\ bmp_read l old = Ok (true, im') /\ wfi im' /\ same_size im im' /\
    forall x y p, inside im x y p -> im_get im' x y p = im_get im x y p.
Proof. exact round_trip_8. Qed.
Print Assumptions C72_round_trip_8_partial.
Theorem C72_odd_width_refuted : forall w h old, Z.odd w = true -> 0 < w -> 2 <= h -> storable w h 1 -> bytes_ok (im_data old) ->
  exists l im' x y, bmp_write (flat w h 1 255) = Ok l /\ bmp_read l old = Ok (true, im') /\ inside (flat w h 1 255) x y 0 /\ im_get im' x y 0 <> im_get (flat w h 1 255) x y 0.
Proof. exact odd_width_8. Qed.
Print Assumptions C72_odd_width_refuted.
Example C72_case : (do l <- bmp_write (mkImg 2 2 1 [1;2; 3;4]); do r <- bmp_read l (mkImg 0 0 0 []); Ok (vsize l, skipn 1078 l, fst r, im_data (snd r))) = Ok (1086, [3;4;0;0; 1;2;0;0], true, [1;2; 3;4]).
Proof. vm_compute. reflexivity. Qed.
Example C72_case_odd : (do l <- bmp_write (mkImg 3 2 1 [1;2;3; 4;5;6]); do r <- bmp_read l (mkImg 0 0 0 []); Ok (skipn 1078 l, fst r, im_data (snd r))) = Ok ([4;5;6;0; 1;2;3;0], true, [3;0;0; 4;5;6]).
Proof. vm_compute. reflexivity. Qed.

(** C73.  Only the bottom row of a well-formed file is read; the other rows keep what the image held. *)
Theorem C73_bottom_row_only_partial : forall l w h px old, bmp24 l w h px -> 0 < w -> 0 <= h -> readable w h 24 -> bytes_ok (im_data old) ->
  exists im', bmp_read l old = Ok (true, im') /\ wfi im' /\ im_w im' = w /\ im_h im' = h /\ im_p im' = 3 /\
    forall x y p, 0 <= x < w -> 0 <= y < h -> 0 <= p < 3 -> im_get im' x y p = Ok (if y =? h - 1 then px x y p else byte (im_data old) (3 * w * y + 3 * x + rb p)).
Proof. exact load_24. Qed.
Print Assumptions C73_bottom_row_only_partial.
Theorem C73_rows_lost_refuted : forall im x y p v, wfi im -> im_p im = 3 -> storable (im_w im) (im_h im) 3 -> inside im x y p -> y < im_h im - 1 -> im_get im x y p = Ok v -> v <> 0 ->
  exists l im', bmp_write im = Ok l /\ bmp24 l (im_w im) (im_h im) (fun x y p => byte (im_data im) (p + im_p im * im_w im * y + x * im_p im)) /\
    bmp_read l (mkImg 0 0 0 []) = Ok (true, im') /\ im_get im' x y p = Ok 0.
Proof. exact lost_24. Qed.
Print Assumptions C73_rows_lost_refuted.
Example C73_case : (do l <- bmp_write (mkImg 2 2 3 [1;2;3; 4;5;6; 7;8;9; 10;11;12]); do r <- bmp_read l (mkImg 0 0 0 []); Ok (skipn 54 l, fst r, im_data (snd r)))
  = Ok ([9;8;7; 12;11;10; 0;0; 3;2;1; 6;5;4; 0;0], true, [0;0;0; 0;0;0; 7;8;9; 10;11;12]).
Proof. vm_compute. reflexivity. Qed.

(** C74.  Every list of bytes, every image: the outcomes, and the pixels after a success. *)
Theorem C74_reader_outcomes : forall l im, bytes_ok l -> bytes_ok (im_data im) ->
  let w := bmp_width l in let h := bmp_height l in let b := bmp_bits l in
  (~ bmp_magic l -> bmp_read l im = Ok (false, im)) /\
  (bmp_magic l -> w < 0 \/ h < 0 \/ b < 0 -> bmp_read l im = Err FAssert) /\
  (bmp_magic l -> 0 <= w -> 0 <= h -> 0 <= b -> b <> 8 -> b <> 24 -> b <> 32 ->
     exists im', bmp_read l im = Ok (false, im') /\ im_w im' = w /\ im_h im' = h /\ im_p im' = b / 8 /\ (addressable w h (b / 8) -> wfi im')) /\
  (bmp_magic l -> w = 0 -> 0 < h -> b = 8 \/ b = 24 \/ b = 32 -> bmp_read l im = Err FAssert) /\
  (bmp_magic l -> 0 < w -> 0 <= h -> b = 8 \/ b = 24 \/ b = 32 -> ~ readable w h b -> bmp_read l im = Err FOverflow) /\
  (bmp_magic l -> (0 < w /\ 0 <= h \/ w = 0 /\ h = 0) -> b = 8 \/ b = 24 \/ b = 32 -> readable w h b ->
     exists im', bmp_read l im = Ok (true, im') /\ wfi im' /\ im_w im' = w /\ im_h im' = h /\ im_p im' = b / 8).
Proof. exact bmp_read_total. Qed.
Print Assumptions C74_reader_outcomes.
Theorem C74_no_other_fault : forall l im f, bytes_ok l -> bytes_ok (im_data im) -> bmp_read l im = Err f ->
  bmp_magic l /\ (f = FAssert /\ (bmp_width l <= 0 \/ bmp_height l < 0 \/ bmp_bits l < 0) \/ f = FOverflow /\ ~ readable (bmp_width l) (bmp_height l) (bmp_bits l)).
Proof. exact bmp_faults. Qed.
Print Assumptions C74_no_other_fault.
Theorem C74_pixels : forall l im, bytes_ok l -> bytes_ok (im_data im) -> bmp_magic l -> 0 < bmp_width l -> 0 <= bmp_height l -> bmp_bits l = 8 \/ bmp_bits l = 24 \/ bmp_bits l = 32 -> readable (bmp_width l) (bmp_height l) (bmp_bits l) ->
  exists im', bmp_read l im = Ok (true, im') /\ wfi im' /\ im_w im' = bmp_width l /\ im_h im' = bmp_height l /\ im_p im' = bmp_bits l / 8 /\
    forall x y p, inside im' x y p -> im_get im' x y p = Ok (loaded l (im_data im) x y p).
Proof. exact bmp_pixels. Qed.
Print Assumptions C74_pixels.
(** The 54 bytes of a header of 30000 x 30000 pixels of 32 bits: the offset of the bottom row is not an int; in memory the row lands outside the buffer. *)
Theorem C74_large_header_refuted : exists l, bytes_ok l /\ vsize l = 54 /\ bmp_read l (mkImg 0 0 0 []) = Err FOverflow.
Proof. exact (ex_intro _ (head54 30000 30000 32) large_header). Qed.
Print Assumptions C74_large_header_refuted.
(** A header of a top-down bitmap (height -1), and a header without pixel data (2 x 1, 32 bits). *)
Theorem C74_negative_height_refuted : exists l, bytes_ok l /\ bmp_read l (mkImg 0 0 0 []) = Err FAssert.
Proof. exact (ex_intro _ (head54 2 (-1) 32) (conj (bytes_app _ _ (le_ok _ _) (bytes_app _ _ (bytes_zero _) (bytes_app _ _ (le_ok _ _) (bytes_app _ _ (le_ok _ _) (bytes_app _ _ (le_ok _ _) (bytes_app _ _ (le_ok _ _) (bytes_zero _))))))) eq_refl)). Qed.
Print Assumptions C74_negative_height_refuted.
Theorem C74_truncated_file_refuted : exists l, bytes_ok l /\ vsize l = 54 /\ bmp_read l (mkImg 2 1 4 [1;2;3;4;5;6;7;8]) = Ok (true, mkImg 2 1 4 [3;2;1;4;7;6;5;8]).
Proof. exact (ex_intro _ (head54 2 1 32) (conj (bytes_app _ _ (le_ok _ _) (bytes_app _ _ (bytes_zero _) (bytes_app _ _ (le_ok _ _) (bytes_app _ _ (le_ok _ _) (bytes_app _ _ (le_ok _ _) (bytes_app _ _ (le_ok _ _) (bytes_zero _))))))) (conj eq_refl eq_refl))). Qed.
Print Assumptions C74_truncated_file_refuted.
Example C74_case : let l := head54 1 1 24 ++ [30; 20; 10; 0] in
  bmp_width l = 1 /\ bmp_bits l = 24 /\ bmp_read l (mkImg 0 0 0 []) = Ok (true, mkImg 1 1 3 [10; 20; 30]) /\ bmp_read [66] (mkImg 0 0 0 []) = Ok (false, mkImg 0 0 0 []).
Proof. vm_compute. repeat split. Qed.
