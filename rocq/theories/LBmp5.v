(** Round trips through bitmap files. *)
From Coq Require Import ZArith List Bool Lia Psatz.
From Verif Require Import Base MStream MImage MBmp SImage LBase LImage LImage2 LImage3 LBmp LBmp2 LBmp3 LBmp4.
Import ListNotations.
Open Scope Z_scope.

Lemma stride4 w : 0 <= w -> stride (w * 4) = 4 * w.
Proof. intros H. unfold stride. replace ((w * 4 + 3) / 4) with w; [ring|]. rewrite Z.div_add_l by lia. change (3 / 4) with 0. lia. Qed.
Lemma file_pos l pos old v : pos < vsize l -> byte l pos = v -> from_file l pos old = v.
Proof. intros H E. unfold from_file. destruct (Z.ltb_spec pos (vsize l)); [exact E|lia]. Qed.

Lemma round_trip_32 im old : wfi im -> im_p im = 4 -> 0 < im_w im -> storable (im_w im) (im_h im) 4 -> bytes_ok (im_data old) ->
  exists l im', bmp_write im = Ok l /\ bmp_read l old = Ok (true, im') /\ wfi im' /\ same_size im im' /\
    forall x y p, inside im x y p -> im_get im' x y p = if p =? 3 then Ok 0 else im_get im x y p.
Proof.
  intros W P HW SR OKI. rewrite <- P in SR. pose proof W as [_ [H0 _]]. destruct (storable_facts im W ltac:(lia) ltac:(lia) SR) as [_ [_ [_ [_ [RD _]]]]]. destruct (bmp_write_ok im W ltac:(lia) ltac:(lia) SR) as [l [E [OK [M [BW [BH [BB [_ [S PX]]]]]]]]].
  destruct (bmp_pixels l old OK OKI M ltac:(lia) ltac:(lia) ltac:(lia) ltac:(rewrite BW, BH, BB; exact RD)) as [im' [R [W' [D1 [D2 [D3 G]]]]]]. exists l, im'. split; [exact E|]. split; [exact R|]. split; [exact W'|].
  assert (im_p im' = 4) as P'. { rewrite D3, BB, P. reflexivity. } split; [unfold same_size; lia|].
  intros x y p I. rewrite G by (unfold inside in *; lia). destruct (im_get_byte im x y p W I) as [v [Ev _]]. specialize (PX x y p v I Ev). rewrite P in PX, S. change (palette_size 4) with 0 in *. cbn [Z.eqb Pos.eqb] in PX. rewrite stride4 in * by lia.
  rewrite Ev. unfold loaded. rewrite BW, BH, BB, P. change (8 * 4) with 32. cbn [Z.eqb Pos.eqb]. rewrite (file_pos _ _ _ (if p =? 3 then 0 else v)).
  - destruct (p =? 3); reflexivity.
  - rewrite S. destruct I as [X [Y Q]]. pose proof (rb_range 4 p ltac:(lia) ltac:(lia)). assert (4 * im_w im * (im_h im - 1 - y + 1) <= 4 * im_w im * im_h im) by (apply Z.mul_le_mono_nonneg_l; lia). lia.
  - rewrite <- PX. f_equal. ring.
Qed.

Lemma stride1 w : 0 <= w -> stride w = w + (- w) mod 4.
Proof.
  intros H. unfold stride. pose proof (Z.div_mod (w + 3) 4 ltac:(lia)). pose proof (Z.mod_pos_bound (w + 3) 4 ltac:(lia)). pose proof (Z.mod_pos_bound (- w) 4 ltac:(lia)). pose proof (Z.div_mod (- w) 4 ltac:(lia)). lia.
Qed.
Lemma round_trip_8 im old : wfi im -> im_p im = 1 -> 0 < im_w im -> storable (im_w im) (im_h im) 1 -> bytes_ok (im_data old) -> Z.even (im_w im) = true \/ im_h im <= 1 ->
  exists l im', bmp_write im = Ok l /\ bmp_read l old = Ok (true, im') /\ wfi im' /\ same_size im im' /\
    forall x y p, inside im x y p -> im_get im' x y p = im_get im x y p.
Proof.
  intros W P HW SR OKI HE. rewrite <- P in SR. pose proof W as [_ [H0 _]]. destruct (storable_facts im W ltac:(lia) ltac:(lia) SR) as [_ [_ [_ [_ [RD _]]]]]. destruct (bmp_write_ok im W ltac:(lia) ltac:(lia) SR) as [l [E [OK [M [BW [BH [BB [_ [S PX]]]]]]]]].
  destruct (bmp_pixels l old OK OKI M ltac:(lia) ltac:(lia) ltac:(lia) ltac:(rewrite BW, BH, BB; exact RD)) as [im' [R [W' [D1 [D2 [D3 G]]]]]]. exists l, im'. split; [exact E|]. split; [exact R|]. split; [exact W'|].
  assert (im_p im' = 1) as P'. { rewrite D3, BB, P. reflexivity. } split; [unfold same_size; lia|].
  intros x y p I. rewrite G by (unfold inside in *; lia). destruct (im_get_byte im x y p W I) as [v [Ev _]]. specialize (PX x y p v I Ev). destruct I as [X [Y Q]]. assert (p = 0) as -> by lia.
  rewrite P in PX, S. change (palette_size 1) with 1024 in *. cbn [Z.eqb Pos.eqb] in PX. rewrite Z.mul_1_r in *.
  destruct (stride_ok (im_w im) ltac:(lia)) as [_ SB].
  assert ((im_w im + im_w im mod 4) * (im_h im - 1 - y) = stride (im_w im) * (im_h im - 1 - y)) as EQ.
  { destruct HE as [HE|HE]; [|assert (im_h im - 1 - y = 0) as -> by lia; lia]. f_equal. apply Z.even_spec in HE. destruct HE as [k Hk]. rewrite Hk in *. unfold stride.
    pose proof (Z.div_mod (2 * k) 4 ltac:(lia)). pose proof (Z.mod_pos_bound (2 * k) 4 ltac:(lia)). pose proof (Z.div_mod (2 * k + 3) 4 ltac:(lia)). pose proof (Z.mod_pos_bound (2 * k + 3) 4 ltac:(lia)). lia. }
  rewrite Ev. unfold loaded. rewrite BW, BH, BB, P. change (8 * 1) with 8. cbn [Z.eqb Pos.eqb]. rewrite EQ. f_equal. apply file_pos.
  - rewrite S. assert (stride (im_w im) * (im_h im - 1 - y + 1) <= stride (im_w im) * im_h im) by (apply Z.mul_le_mono_nonneg_l; lia). lia.
  - rewrite <- PX. f_equal. ring.
Qed.

Lemma flat_ok w h p v : 0 <= w -> 0 <= h -> 0 <= p -> addressable w h p -> 0 <= v < 256 -> wfi (flat w h p v) /\ forall x y q, inside (flat w h p v) x y q -> im_get (flat w h p v) x y q = Ok v.
Proof.
  intros W H P AD V. assert (0 <= w * h * p) as N by (repeat apply Z.mul_nonneg_nonneg; assumption).
  assert (wfi (flat w h p v)) as WF. { unfold wfi, flat. cbn. do 3 (split; [assumption|]). split; [rewrite vsize_repeat; lia|]. split; [|exact AD]. apply Forall_forall. intros b Hb. apply repeat_spec in Hb. lia. }
  split; [exact WF|]. intros x y q I. rewrite im_get_ok by assumption. destruct I as [X [Y Q]]. pose proof (addr_range _ _ _ _ _ _ X Y Q) as A. f_equal. unfold flat, byte in *. cbn [im_data im_w im_h im_p] in *.
  rewrite nth_indep with (d' := v) by (rewrite repeat_length; lia). apply nth_repeat.
Qed.
(** For every odd width and every height of two or more the rows do not come back where they were. *)
Lemma odd_width_8 w h old : Z.odd w = true -> 0 < w -> 2 <= h -> storable w h 1 -> bytes_ok (im_data old) ->
  exists l im' x y, bmp_write (flat w h 1 255) = Ok l /\ bmp_read l old = Ok (true, im') /\ inside (flat w h 1 255) x y 0 /\ im_get im' x y 0 <> im_get (flat w h 1 255) x y 0.
Proof.
  intros HO HW HH SR OKI.
  assert (addressable w h 1) as AD.
  { destruct SR as [S1 S2]. rewrite Z.mul_1_r in *. change (palette_size 1) with 1024 in S2. destruct (stride_ok w ltac:(lia)) as [_ SB]. assert (w * h <= stride w * h) by (apply Z.mul_le_mono_nonneg_r; lia). split; [lia|]. rewrite Z.mul_1_l. lia. }
  destruct (flat_ok w h 1 255 ltac:(lia) ltac:(lia) ltac:(lia) AD ltac:(lia)) as [W GF].
  set (im := flat w h 1 255) in *. assert (im_w im = w /\ im_h im = h /\ im_p im = 1) as [Ew [Eh Ep]] by (repeat split).
  assert (storable (im_w im) (im_h im) (im_p im)) as SR' by (rewrite Ew, Eh, Ep; exact SR). destruct (storable_facts im W ltac:(lia) ltac:(lia) SR') as [_ [_ [_ [_ [RD [I1 [I2 [I3 I4]]]]]]]]. rewrite Ew, Eh, Ep in RD. rewrite Ew, Ep, Z.mul_1_r in I1, I2. rewrite Ew, Eh, Ep, Z.mul_1_r in I3, I4. cbn [Z.eqb Pos.eqb] in I4.
  (* the file again, with its padding *)
  assert (exists l, bmp_write im = Ok l /\ bytes_ok l /\ bmp_magic l /\ bmp_width l = w /\ bmp_height l = h /\ bmp_bits l = 8 /\ vsize l = 1078 + stride w * h /\ forall k i, 0 <= k < h -> w <= i < stride w -> byte l (1078 + stride w * k + i) = 0) as [l [E [OK [M [BW [BH [BB [S PZ]]]]]]]].
  { destruct (bmp_write_ok im W ltac:(lia) ltac:(lia) SR') as [l [E [OK [M [BW [BH [BB [_ [S PX]]]]]]]]]. rewrite Ew, Eh, Ep in *. rewrite Z.mul_1_r in *. change (palette_size 1) with 1024 in *.
    exists l. do 5 (split; [assumption|]). split; [lia|]. split; [lia|].
    revert E. unfold bmp_write. rewrite Ew, Eh, Ep. rewrite Z.mul_1_r. destruct (stride_ok w ltac:(lia)) as [SE SB]. rewrite I1. cbn [bind]. rewrite I2. cbn [bind]. rewrite SE. cbv zeta. rewrite I3. cbn [bind Z.eqb Pos.eqb]. rewrite I4. cbn [Z.eqb Pos.eqb orb bind].
    match goal with |- context [for_ 0 256 _ ?hd] => set (head := hd) end.
    destruct (palette_ok head) as [o [Eo [So [Oo _]]]]. { unfold head. rewrite !vsize_app, !vsize_le. reflexivity. } { unfold head. repeat apply bytes_app; apply le_ok. }
    rewrite Eo. cbn [bind]. set (pad := repeat 0 (Z.to_nat (stride w - w))). set (body := fun (y : Z) (out : list Z) => do a <- im_addr im 0 (h - y - 1) 0; do l <- bytes_at (im_data im) a w; Ok (out ++ l ++ pad)). intros El.
    assert (forall k, 0 <= k < h -> exists row, vsize row = stride w /\ bytes_ok row /\ (forall out, body k out = Ok (out ++ row)) /\ forall i, w <= i -> byte row i = 0) as AR.
    { intros k Hk. destruct (write_row im (h - 1 - k) W ltac:(lia) ltac:(lia) ltac:(lia)) as [row [R1 [R2 [R3 [_ [_ R6]]]]]]. rewrite Ew, Ep in *. rewrite Z.mul_1_r in *. exists row. split; [exact R1|]. split; [exact R2|]. split; [|exact R6].
      intros out. unfold body. replace (h - k - 1) with (h - 1 - k) by lia. apply (R3 eq_refl). }
    destruct (append_rows (fun k => match body k [] with Ok r => r | Err _ => [] end) (stride w) h body o ltac:(lia) ltac:(lia) Oo) as [l' [E' [_ [_ [_ B2]]]]].
    { intros k out Hk. destruct (AR k Hk) as [row [R1 [R2 [R3 R4]]]]. rewrite !R3. cbn [app]. auto. }
    fold body in E'. rewrite E' in El. apply ok_inj in El. subst l'. intros k i Hk Hi. rewrite So in B2. rewrite B2 by lia. destruct (AR k Hk) as [row [R1 [R2 [R3 R4]]]]. rewrite R3. apply R4. lia. }
  destruct (bmp_pixels l old OK OKI M ltac:(lia) ltac:(lia) ltac:(lia) ltac:(rewrite BW, BH, BB; exact RD)) as [im' [R [W' [D1 [D2 [D3 G]]]]]]. rewrite BW, BH in *.
  assert (exists m, w = 2 * m + 1) as [m Hm] by (apply Z.odd_spec; exact HO).
  assert (exists x, 0 <= x < w /\ w + w mod 4 + x < stride w * 2 /\ exists k i, 0 <= k < h /\ w <= i < stride w /\ w + w mod 4 + x = stride w * k + i) as [x [X [XS [k [i [K [I0 EQ]]]]]]].
  { unfold stride. pose proof (Z.div_mod w 4 ltac:(lia)). pose proof (Z.mod_pos_bound w 4 ltac:(lia)). pose proof (Z.div_mod (w + 3) 4 ltac:(lia)). pose proof (Z.mod_pos_bound (w + 3) 4 ltac:(lia)).
    assert (w mod 4 = 1 \/ w mod 4 = 3) as [Q|Q] by lia.
    - exists 0. split; [lia|]. split; [lia|]. exists 0, (w + 1). lia.
    - exists (w - 2). split; [lia|]. split; [lia|]. exists 1, w. lia. }
  exists l, im', x, (h - 2). split; [exact E|]. split; [exact R|]. assert (inside im x (h - 2) 0) as IN by (unfold inside; lia). split; [exact IN|].
  rewrite (GF x (h - 2) 0 IN). rewrite G by (unfold inside in *; rewrite BB in D3; change (8 / 8) with 1 in D3; lia). unfold loaded. rewrite BW, BH, BB. cbn [Z.eqb Pos.eqb].
  replace (h - 1 - (h - 2)) with 1 by lia. rewrite Z.mul_1_r. rewrite (file_pos _ _ _ 0); [discriminate| |].
  - rewrite S. assert (stride w * 2 <= stride w * h) by (apply Z.mul_le_mono_nonneg_l; [unfold stride; apply Z.mul_nonneg_nonneg; [apply Z.div_pos; lia|lia]|lia]). lia.
  - rewrite <- (PZ k i K I0). f_equal. lia.
Qed.

(** ** 24-bit files *)
Lemma load_24 l w h px old : bmp24 l w h px -> 0 < w -> 0 <= h -> readable w h 24 -> bytes_ok (im_data old) ->
  exists im', bmp_read l old = Ok (true, im') /\ wfi im' /\ im_w im' = w /\ im_h im' = h /\ im_p im' = 3 /\
    forall x y p, 0 <= x < w -> 0 <= y < h -> 0 <= p < 3 -> im_get im' x y p = Ok (if y =? h - 1 then px x y p else byte (im_data old) (3 * w * y + 3 * x + rb p)).
Proof.
  intros [OK [M [BW [BH [BB [_ [S PX]]]]]]] HW HH RD OKI. destruct (bmp_pixels l old OK OKI M ltac:(lia) ltac:(lia) ltac:(lia) ltac:(rewrite BW, BH, BB; exact RD)) as [im' [R [W' [D1 [D2 [D3 G]]]]]]. rewrite BW, BH, BB in *. change (24 / 8) with 3 in D3.
  exists im'. do 5 (split; [assumption|]). intros x y p X Y P. rewrite G by (unfold inside; lia). unfold loaded. rewrite BW, BH, BB. cbn [Z.eqb Pos.eqb]. f_equal. destruct (Z.eqb_spec y (h - 1)) as [->|]; [|f_equal; ring].
  pose proof (rb_range 3 p ltac:(lia) P). destruct (stride_ok (3 * w) ltac:(lia)) as [_ SB]. apply file_pos.
  - assert (stride (3 * w) * 1 <= stride (3 * w) * h) by (apply Z.mul_le_mono_nonneg_l; lia). lia.
  - rewrite <- (PX x (h - 1) p X Y P). f_equal. ring.
Qed.
Lemma write_24 im : wfi im -> im_p im = 3 -> 0 < im_w im -> storable (im_w im) (im_h im) 3 ->
  exists l, bmp_write im = Ok l /\ bmp24 l (im_w im) (im_h im) (fun x y p => byte (im_data im) (p + im_p im * im_w im * y + x * im_p im)).
Proof.
  intros W P HW SR. rewrite <- P in SR. destruct (bmp_write_ok im W ltac:(lia) ltac:(lia) SR) as [l [E [OK [M [BW [BH [BB [F4 [S PX]]]]]]]]]. exists l. split; [exact E|]. rewrite P in *. change (palette_size 3) with 0 in *.
  replace (im_w im * 3) with (3 * im_w im) in * by ring. split; [exact OK|]. do 4 (split; [assumption|]). split; [exact F4|]. split; [lia|]. intros x y p X Y Q. assert (inside im x y p) as I by (unfold inside; lia). specialize (PX x y p _ I (im_get_ok im x y p W I)). rewrite P in PX. cbn [Z.eqb Pos.eqb] in PX. rewrite Z.add_0_r in PX. rewrite PX.
  destruct (Z.eqb_spec p 3); [lia|]. reflexivity.
Qed.
(** Every 24-bit image of two rows or more whose pixels above the bottom row are not all zero: its file is well formed, but loading it gives other pixels. *)
Lemma lost_24 im x y p v : wfi im -> im_p im = 3 -> storable (im_w im) (im_h im) 3 -> inside im x y p -> y < im_h im - 1 -> im_get im x y p = Ok v -> v <> 0 ->
  exists l im', bmp_write im = Ok l /\ bmp24 l (im_w im) (im_h im) (fun x y p => byte (im_data im) (p + im_p im * im_w im * y + x * im_p im)) /\
    bmp_read l (mkImg 0 0 0 []) = Ok (true, im') /\ im_get im' x y p = Ok 0.
Proof.
  intros W P SR [X [Y Q]] HY G V. destruct (write_24 im W P ltac:(lia) SR) as [l [E B]]. rewrite <- P in SR. destruct (storable_facts im W ltac:(lia) ltac:(lia) SR) as [_ [_ [_ [_ [RD _]]]]]. rewrite P in RD. destruct (load_24 l _ _ _ (mkImg 0 0 0 []) B ltac:(lia) ltac:(lia) RD ltac:(constructor)) as [im' [R [_ [_ [_ [_ K]]]]]].
  exists l, im'. do 3 (split; [assumption|]). rewrite K by lia. destruct (Z.eqb_spec y (im_h im - 1)); [lia|]. cbn [im_data]. unfold byte. destruct (Z.to_nat _); reflexivity.
Qed.

(** ** No fault other than a failed assertion or an overflow *)
Lemma bmp_faults l im f : bytes_ok l -> bytes_ok (im_data im) -> bmp_read l im = Err f ->
  bmp_magic l /\ (f = FAssert /\ (bmp_width l <= 0 \/ bmp_height l < 0 \/ bmp_bits l < 0) \/ f = FOverflow /\ ~ readable (bmp_width l) (bmp_height l) (bmp_bits l)).
Proof.
  intros OK OKI E. destruct (bmp_read_total l im OK OKI) as [T1 [T2 [T3 [T4 [T5 T6]]]]]. cbv zeta in *.
  destruct (Z.eq_dec (field2 l 0) 19778) as [M|M]; [|rewrite (T1 M) in E; discriminate]. split; [exact M|].
  destruct (Z_lt_dec (bmp_width l) 0) as [A|A]; [rewrite T2 in E by (try exact M; lia); injection E as <-; left; split; [reflexivity|lia]|].
  destruct (Z_lt_dec (bmp_height l) 0) as [B|B]; [rewrite T2 in E by (try exact M; lia); injection E as <-; left; split; [reflexivity|lia]|].
  destruct (Z_lt_dec (bmp_bits l) 0) as [C|C]; [rewrite T2 in E by (try exact M; lia); injection E as <-; left; split; [reflexivity|lia]|].
  assert (bmp_bits l = 8 \/ bmp_bits l = 24 \/ bmp_bits l = 32 \/ (bmp_bits l <> 8 /\ bmp_bits l <> 24 /\ bmp_bits l <> 32)) as HB by lia.
  assert (bmp_bits l = 8 \/ bmp_bits l = 24 \/ bmp_bits l = 32 -> readable (bmp_width l) (bmp_height l) (bmp_bits l) \/ ~ readable (bmp_width l) (bmp_height l) (bmp_bits l)) as DR.
  { intros _. unfold readable. destruct (Z_le_gt_dec (if bmp_bits l =? 8 then bmp_width l + bmp_width l mod 4 else if bmp_bits l =? 24 then 3 * bmp_width l + 3 else 4 * bmp_width l) int_max); [destruct (Z_le_gt_dec (bmp_bits l / 8 * bmp_width l * (bmp_height l - 1)) int_max)|]; [left; auto|right|right]; intros [? ?]; lia. }
  destruct (Z.eq_dec (bmp_bits l) 8) as [B8|B8]; [|destruct (Z.eq_dec (bmp_bits l) 24) as [B24|B24]; [|destruct (Z.eq_dec (bmp_bits l) 32) as [B32|B32]]].
  4: { destruct (T3 M ltac:(lia) ltac:(lia) ltac:(lia) B8 B24 B32) as [i [Ei _]]. rewrite Ei in E. discriminate. }
  all: assert (bmp_bits l = 8 \/ bmp_bits l = 24 \/ bmp_bits l = 32) as HB' by lia; destruct (DR HB') as [RD|ND]; [destruct (Z.eq_dec (bmp_width l) 0) as [W0|W0]; [destruct (Z.eq_dec (bmp_height l) 0) as [H0|H0]|]|].
  all: try (destruct (T6 M ltac:(lia) HB' RD) as [i [Ei _]]; rewrite Ei in E; discriminate).
  all: try (rewrite T4 in E by (try exact M; lia); injection E as <-; left; split; [reflexivity|lia]).
  all: destruct (Z.eq_dec (bmp_width l) 0) as [W0|W0]; [destruct (Z.eq_dec (bmp_height l) 0) as [H0|H0]|].
  all: try (exfalso; apply ND; unfold readable; rewrite W0, H0; destruct HB' as [-> | [-> | ->] ]; cbn; unfold int_max; lia).
  all: try (rewrite T4 in E by (try exact M; lia); injection E as <-; left; split; [reflexivity|lia]).
  all: rewrite T5 in E by (try exact M; try exact HB'; try exact ND; lia); injection E as <-; right; split; [reflexivity|exact ND].
Qed.
Lemma head54_ok w h b : bytes_ok (head54 w h b).
Proof. unfold head54. repeat apply bytes_app; first [apply le_ok | apply bytes_zero]. Qed.
Lemma large_header : bytes_ok (head54 30000 30000 32) /\ vsize (head54 30000 30000 32) = 54 /\ bmp_read (head54 30000 30000 32) (mkImg 0 0 0 []) = Err FOverflow.
Proof.
  split; [apply head54_ok|]. split; [reflexivity|]. destruct (bmp_read_total (head54 30000 30000 32) (mkImg 0 0 0 []) (head54_ok _ _ _) (Forall_nil _)) as [_ [_ [_ [_ [T _]]]]]. cbv zeta in T.
  assert (bmp_width (head54 30000 30000 32) = 30000) as EW by reflexivity. assert (bmp_height (head54 30000 30000 32) = 30000) as EH by reflexivity. assert (bmp_bits (head54 30000 30000 32) = 32) as EB by reflexivity.
  rewrite EW, EH, EB in T. apply T; [reflexivity|lia|lia|lia|]. unfold readable. intros [_ H]. revert H. apply Zlt_not_le. reflexivity.
Qed.
