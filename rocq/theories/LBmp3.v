(** Pixels after reading; the writer; round trips. *)
From Coq Require Import ZArith List Bool Lia Psatz.
From Verif Require Import Base MStream MImage MBmp SImage LBase LImage LImage2 LImage3 LBmp LBmp2.
Import ListNotations.
Open Scope Z_scope.

Lemma over_pos l im o adv n y i k : 0 <= o -> 0 <= adv -> 0 <= k -> 0 <= i < n ->
  over im (row_bytes l o adv n k) y i = from_file l (o + adv * k + i) (byte (im_data im) (im_p im * im_w im * y + i)).
Proof.
  intros O A K I. unfold over, row_bytes, from_file. assert (0 <= o + adv * k) by nia. rewrite chunk_size by lia.
  destruct (Z.ltb_spec i (Z.min n (Z.max 0 (vsize l - (o + adv * k))))), (Z.ltb_spec (o + adv * k + i) (vsize l)); try lia. apply chunk_byte; lia.
Qed.

Lemma bmp_pixels l im : bytes_ok l -> bytes_ok (im_data im) -> bmp_magic l -> 0 < bmp_width l -> 0 <= bmp_height l -> bmp_bits l = 8 \/ bmp_bits l = 24 \/ bmp_bits l = 32 -> readable (bmp_width l) (bmp_height l) (bmp_bits l) ->
  exists im', bmp_read l im = Ok (true, im') /\ wfi im' /\ im_w im' = bmp_width l /\ im_h im' = bmp_height l /\ im_p im' = bmp_bits l / 8 /\
    forall x y p, inside im' x y p -> im_get im' x y p = Ok (loaded l (im_data im) x y p).
Proof.
  intros OK OKI M HW HH HB RD. destruct (bmp_header l im) as [f [J E]]. rewrite E. cbv zeta. rewrite shiftr3. rewrite M. cbn [negb Z.eqb Pos.eqb]. unfold loaded.
  set (w := bmp_width l) in *. set (h := bmp_height l) in *. set (b := bmp_bits l) in *. clearbody w h b.
  destruct (resize_wf im w h (b / 8) ltac:(lia) ltac:(lia) ltac:(apply Z.div_pos; lia) (readable_addr w h b ltac:(lia) HB RD) OKI) as [i [Ei [D1 [D2 [D3 [_ [Di Wi]]]]]]]. rewrite Ei. cbn [bind].
  subst w h. destruct RD as [RD _]. destruct HB as [->|[->| ->]]; cbn [Z.eqb Pos.eqb] in *.
  - change (8 / 8) with 1 in *. destruct (read8_ok l i f OK Wi RD HW D3 J) as [r [Er R]]. rewrite Er. cbn [bind]. exists r. split; [reflexivity|]. destruct R as [Wr [[S1 [S2 S3]] G]].
    do 3 (split; [assumption|]). split; [lia|]. intros x y p I. assert (inside i x y p) as I' by (unfold inside in *; lia). rewrite (G x y p I'). destruct I' as [X [Y P]]. destruct (Z.ltb_spec (im_h i - 1 - y) (im_h i)); [|lia]. assert (p = 0) as -> by lia.
    pose proof (Z.mod_pos_bound (im_w i) 4 ltac:(lia)). rewrite over_pos by lia. rewrite D3. assert (0 <= im_w i * y) by (apply Z.mul_nonneg_nonneg; lia). assert (im_w i * (y + 1) <= im_w i * im_h i) by (apply Z.mul_le_mono_nonneg_l; lia). rewrite Di by lia. repeat (f_equal; try lia).
  - change (24 / 8) with 3 in *. destruct (read24_ok l i f OK Wi RD HW D3 J) as [r [Er R]]. rewrite Er. cbn [bind]. exists r. split; [reflexivity|]. destruct R as [Wr [[S1 [S2 S3]] G]].
    do 3 (split; [assumption|]). split; [lia|]. intros x y p I. assert (inside i x y p) as I' by (unfold inside in *; lia). rewrite (G x y p I'). destruct I' as [X [Y P]]. destruct (Z.ltb_spec (im_h i - 1 - y) (im_h i)); [|lia].
    pose proof (rb_range 3 p ltac:(lia) ltac:(lia)) as RB. assert (0 <= im_w i * y) by (apply Z.mul_nonneg_nonneg; lia). assert (im_w i * (y + 1) <= im_w i * im_h i) by (apply Z.mul_le_mono_nonneg_l; lia).
    destruct (Z.eqb_spec (im_h i - 1 - y) 0) as [EQ|NE]; destruct (Z.eqb_spec y (im_h i - 1)) as [EY|NY]; try lia.
    + change (chunk l 54 (im_w i * 3)) with (chunk l (54 + 0 * 0) (im_w i * 3)). fold (row_bytes l 54 0 (im_w i * 3) 0). rewrite over_pos by lia. rewrite D3. rewrite Di by lia. repeat (f_equal; try lia).
    + unfold over. rewrite D3. destruct (Z.ltb_spec (3 * x + rb p) (vsize (@nil Z))); [change (vsize (@nil Z)) with 0 in *; lia|]. rewrite Di by lia. repeat (f_equal; try lia).
  - change (32 / 8) with 4 in *. destruct (read32_ok l i f OK Wi HW D3 J) as [r [Er R]]. rewrite Er. cbn [bind]. exists r. split; [reflexivity|]. destruct R as [Wr [[S1 [S2 S3]] G]].
    do 3 (split; [assumption|]). split; [lia|]. intros x y p I. assert (inside i x y p) as I' by (unfold inside in *; lia). rewrite (G x y p I'). destruct I' as [X [Y P]]. destruct (Z.ltb_spec (im_h i - 1 - y) (im_h i)); [|lia].
    pose proof (rb_range 4 p ltac:(lia) ltac:(lia)) as RB. assert (0 <= im_w i * y) by (apply Z.mul_nonneg_nonneg; lia). assert (im_w i * (y + 1) <= im_w i * im_h i) by (apply Z.mul_le_mono_nonneg_l; lia).
    rewrite over_pos by lia. rewrite D3. rewrite Di by lia. repeat (f_equal; try lia).
Qed.

(** ** The writer *)
Lemma bytes_app u v : bytes_ok u -> bytes_ok v -> bytes_ok (u ++ v). Proof. intros A B. apply Forall_app. split; assumption. Qed.
Lemma append_rows (row : Z -> list Z) s h (body : Z -> list Z -> res (list Z)) out0 : 0 <= s -> 0 <= h -> bytes_ok out0 ->
  (forall y out, 0 <= y < h -> body y out = Ok (out ++ row y) /\ vsize (row y) = s /\ bytes_ok (row y)) ->
  exists out, for_ 0 h body out0 = Ok out /\ vsize out = vsize out0 + s * h /\ bytes_ok out /\ (forall j, 0 <= j < vsize out0 -> byte out j = byte out0 j) /\
    forall k i, 0 <= k < h -> 0 <= i < s -> byte out (vsize out0 + s * k + i) = byte (row k) i.
Proof.
  intros S H OK B. pose proof (vsize_nonneg out0) as V0.
  edestruct (for_inv (fun m out => vsize out = vsize out0 + s * m /\ bytes_ok out /\ (forall j, 0 <= j < vsize out0 -> byte out j = byte out0 j) /\
    forall k i, 0 <= k < m -> 0 <= i < s -> byte out (vsize out0 + s * k + i) = byte (row k) i) 0 h body out0) as [out [E K]].
  - exact H.
  - split; [lia|]. split; [exact OK|]. split; [reflexivity|]. intros k i Hk. lia.
  - intros m out Hm [K1 [K2 [K3 K4]]]. destruct (B m out Hm) as [E [V O]]. exists (out ++ row m). split; [exact E|]. assert (0 <= s * m) as SM by (apply Z.mul_nonneg_nonneg; lia).
    split; [rewrite vsize_app; lia|]. split; [apply bytes_app; assumption|]. split.
    + intros j Hj. rewrite byte_app_l by lia. apply K3. exact Hj.
    + intros k i Hk Hi. assert (0 <= s * k) by (apply Z.mul_nonneg_nonneg; lia). destruct (Z.eq_dec k m) as [->|NE].
      * rewrite byte_app_r by lia. f_equal. lia.
      * rewrite byte_app_l; [apply K4; lia|]. split; [lia|]. assert (s * (k + 1) <= s * m) by (apply Z.mul_le_mono_nonneg_l; lia). lia.
  - exists out. split; [exact E|exact K].
Qed.

(** Byte [r] of a written pixel. *)
Definition outb (p r : Z) : Z := if (p =? 1) then 0 else rb r.
Lemma line_out_ok d a w p : p = 3 \/ p = 4 -> 0 <= w -> 0 <= a -> a + w * p <= vsize d -> exists out, line_out d a (w * p) p = Ok out /\ vsize out = w * p + 3 /\
  forall c r, 0 <= c < w -> 0 <= r < p -> byte out (p * c + r) = if r =? 3 then 0 else byte d (a + p * c + rb r).
Proof.
  intros HP W A L. unfold line_out. assert ((w * p + p - 1) / p = w) as -> by (replace (w * p + p - 1) with (w * p + (p - 1)) by ring; rewrite Z.div_add_l by lia; rewrite (Z.div_small (p - 1) p) by lia; lia).
  assert (0 <= w * p) as WP by (apply Z.mul_nonneg_nonneg; lia).
  match goal with |- context [for_ 0 w ?bd ?i0] => destruct (for_inv (fun k out => vsize out = w * p + 3 /\ forall c r, 0 <= c < k -> 0 <= r < p -> byte out (p * c + r) = if r =? 3 then 0 else byte d (a + p * c + rb r)) 0 w bd i0) as [out [E [K1 K2]]] end.
  - exact W.
  - split; [rewrite vsize_repeat; lia|]. intros c r Hc. lia.
  - intros k out Hk [S K]. cbv zeta. assert (0 <= p * k) as PK by (apply Z.mul_nonneg_nonneg; lia). assert (p * (k + 1) <= p * w) as PW by (apply Z.mul_le_mono_nonneg_l; lia).
    rewrite (vget_byte d (a + p * k + 2)) by lia. cbn [bind].
    destruct (vset_byte out (p * k) (byte d (a + p * k + 2)) ltac:(lia)) as [o1 [E1 [S1 B1]]]. rewrite E1. cbn [bind]. rewrite (vget_byte d (a + p * k + 1)) by lia. cbn [bind].
    destruct (vset_byte o1 (p * k + 1) (byte d (a + p * k + 1)) ltac:(lia)) as [o2 [E2 [S2 B2]]]. rewrite E2. cbn [bind]. rewrite (vget_byte d (a + p * k)) by lia. cbn [bind].
    destruct (vset_byte o2 (p * k + 2) (byte d (a + p * k)) ltac:(lia)) as [o3 [E3 [S3 B3]]]. rewrite E3. cbn [bind].
    assert (exists o4, (if p =? 4 then vset o3 (p * k + 3) 0 else Ok o3) = Ok o4 /\ vsize o4 = vsize o3 /\ forall j, 0 <= j -> byte o4 j = if (p =? 4) && (j =? p * k + 3) then 0 else byte o3 j) as [o4 [E4 [S4 B4]]].
    { destruct (Z.eqb_spec p 4).
      - destruct (vset_byte o3 (p * k + 3) 0 ltac:(lia)) as [o4 [E4 [S4 B4]]]. exists o4. auto.
      - exists o3. auto. }
    exists o4. split; [exact E4|]. split; [lia|]. intros c r Hc Hr. assert (0 <= p * c) by (apply Z.mul_nonneg_nonneg; lia). rewrite B4, B3, B2, B1 by lia.
    destruct (Z.eq_dec c k) as [->|NE].
    + unfold rb. destruct (Z.eqb_spec r 3) as [->|N3].
      * destruct (Z.eqb_spec p 4); [|lia]. rewrite Z.eqb_refl. reflexivity.
      * destruct (Z.eqb_spec (p * k + r) (p * k + 3)); [lia|]. rewrite andb_false_r.
        destruct (Z.eqb_spec (p * k + r) (p * k + 2)). { assert (r = 2) as -> by lia. cbn [Z.eqb Pos.eqb]. rewrite Z.add_0_r. reflexivity. }
        destruct (Z.eqb_spec (p * k + r) (p * k + 1)). { assert (r = 1) as -> by lia. reflexivity. }
        destruct (Z.eqb_spec (p * k + r) (p * k)). { assert (r = 0) as -> by lia. reflexivity. } lia.
    + assert (p * (c + 1) <= p * k) by (apply Z.mul_le_mono_nonneg_l; lia).
      destruct (Z.eqb_spec (p * c + r) (p * k + 3)); [lia|]. rewrite andb_false_r. destruct (Z.eqb_spec (p * c + r) (p * k + 2)); [lia|]. destruct (Z.eqb_spec (p * c + r) (p * k + 1)); [lia|]. destruct (Z.eqb_spec (p * c + r) (p * k)); [lia|].
      apply K; lia.
  - exists out. split; [exact E|]. split; [exact K1|exact K2].
Qed.

Lemma bytes_at_ok d a n : 0 <= a -> 0 <= n -> a + n <= vsize d -> exists l, bytes_at d a n = Ok l /\ vsize l = n /\ forall i, 0 <= i < n -> byte l i = byte d (a + i).
Proof.
  intros A N L. unfold bytes_at. destruct (Z.ltb_spec a 0); [lia|]. destruct (Z.ltb_spec n 0); [lia|]. destruct (Z.ltb_spec (vsize d) (a + n)); [lia|]. cbn [orb]. eexists. split; [reflexivity|]. fold (chunk d a n).
  split; [rewrite chunk_size by lia; lia|]. intros i Hi. apply chunk_byte; lia.
Qed.

Lemma stride_ok n : 0 <= n -> (n + 3) - Z.rem (n + 3) 4 = stride n /\ n <= stride n <= n + 3.
Proof. intros H. rewrite Z.rem_mod_nonneg by lia. unfold stride. pose proof (Z.div_mod (n + 3) 4 ltac:(lia)). pose proof (Z.mod_pos_bound (n + 3) 4 ltac:(lia)). lia. Qed.
Lemma four_bytes v : 0 <= v < 2147483648 -> as_signed 2147483648 (v mod 256 + 256 * (v / 256 mod 256) + 65536 * (v / 256 / 256 mod 256) + 16777216 * (v / 256 / 256 / 256 mod 256)) = v.
Proof.
  intros H. set (a := v / 256). set (b := a / 256). set (c := b / 256).
  pose proof (Z.div_mod v 256 ltac:(lia)) as E1. pose proof (Z.div_mod a 256 ltac:(lia)) as E2. pose proof (Z.div_mod b 256 ltac:(lia)) as E3. fold a in E1. fold b in E2. fold c in E3.
  pose proof (Z.mod_pos_bound v 256 ltac:(lia)). pose proof (Z.mod_pos_bound a 256 ltac:(lia)). pose proof (Z.mod_pos_bound b 256 ltac:(lia)).
  assert (c mod 256 = c) as -> by (apply Z.mod_small; lia). unfold as_signed. destruct (Z.ltb_spec (v mod 256 + 256 * (a mod 256) + 65536 * (b mod 256) + 16777216 * c) 2147483648); lia.
Qed.

Definition bmp_head (w h p : Z) : list Z :=
  le 2 0x4D42 ++ le 4 (14 + 40 + (if p =? 1 then 256 * 4 else 0) + stride (w * p) * h) ++ le 2 0 ++ le 2 0 ++ le 4 (14 + 40 + (if p =? 1 then 256 * 4 else 0))
    ++ le 4 40 ++ le 4 w ++ le 4 h ++ le 2 1 ++ le 2 (if p =? 4 then 32 else if p =? 1 then 8 else 24)
    ++ le 4 0 ++ le 4 (stride (w * p) * h) ++ le 4 0xb12 ++ le 4 0xb12 ++ le 4 0 ++ le 4 0.
Lemma head_ok w h p : 0 <= w < 2147483648 -> 0 <= h < 2147483648 -> p = 1 \/ p = 3 \/ p = 4 -> forall l, (forall j, 0 <= j < 54 -> byte l j = byte (bmp_head w h p) j) ->
  bmp_magic l /\ bmp_width l = w /\ bmp_height l = h /\ bmp_bits l = 8 * p /\ field4 l 10 = 54 + palette_size p.
Proof.
  intros W H P l E. unfold bmp_magic, bmp_width, bmp_height, bmp_bits, field2, field4. rewrite !E by lia.
  unfold bmp_head. remember (14 + 40 + (if p =? 1 then 256 * 4 else 0) + stride (w * p) * h) as fs. remember (stride (w * p) * h) as bs.
  cbn [le app]. unfold byte, Z.to_nat, Z.add, Pos.add, Pos.succ, Pos.to_nat. cbn [Pos.iter_op Nat.add nth].
  split; [reflexivity|]. split; [exact (four_bytes w W)|]. split; [exact (four_bytes h H)|]. destruct P as [->|[->| ->]]; split; reflexivity.
Qed.
