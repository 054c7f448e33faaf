(** The writer and the round trips. *)
From Coq Require Import ZArith List Bool Lia Psatz.
From Verif Require Import Base MStream MImage MBmp SImage LBase LImage LImage2 LImage3 LBmp LBmp2 LBmp3.
Import ListNotations.
Open Scope Z_scope.

Lemma head_size w h p : vsize (bmp_head w h p) = 54. Proof. unfold bmp_head. rewrite !vsize_app, !vsize_le. reflexivity. Qed.
Lemma head_bytes w h p : bytes_ok (bmp_head w h p). Proof. unfold bmp_head. repeat apply bytes_app; apply le_ok. Qed.
Lemma bytes_zero n : bytes_ok (repeat 0 n). Proof. apply Forall_forall. intros b Hb. apply repeat_spec in Hb. lia. Qed.
Lemma byte_zero n i : byte (repeat 0 n) i = 0. Proof. unfold byte. apply nth_repeat. Qed.

(** The palette of an 8-bit file. *)
Lemma palette_ok head : vsize head = 54 -> bytes_ok head ->
  exists out, for_ 0 256 (fun i out => Ok (out ++ [i; i; i; 0])) head = Ok out /\ vsize out = 1078 /\ bytes_ok out /\ forall j, 0 <= j < 54 -> byte out j = byte head j.
Proof.
  intros S OK. destruct (append_rows (fun i => [i; i; i; 0]) 4 256 (fun i out => Ok (out ++ [i; i; i; 0])) head ltac:(lia) ltac:(lia) OK) as [out [E [V [O [K _]]]]].
  - intros i out Hi. split; [reflexivity|]. split; [reflexivity|]. repeat constructor; lia.
  - exists out. split; [exact E|]. split; [lia|]. split; [exact O|]. rewrite S in K. exact K.
Qed.

(** One written row: pixel bytes in file order, then zeros. *)
Lemma write_row im y : wfi im -> im_p im = 1 \/ im_p im = 3 \/ im_p im = 4 -> 0 < im_w im -> 0 <= y < im_h im ->
  let n := im_w im * im_p im in let pad := repeat 0 (Z.to_nat (stride n - n)) in
  exists row, vsize row = stride n /\ bytes_ok row /\
    (im_p im = 1 -> forall out, (do a <- im_addr im 0 y 0; do l <- bytes_at (im_data im) a n; Ok (out ++ l ++ pad)) = Ok (out ++ row)) /\
    (im_p im <> 1 -> forall out, (do a <- im_addr im 0 y 0; do line <- line_out (im_data im) a n (im_p im); do l <- bytes_at line 0 n; Ok (out ++ l ++ pad)) = Ok (out ++ row)) /\
    (forall x q, inside im x y q -> byte row (im_p im * x + (if im_p im =? 1 then 0 else rb q)) = if q =? 3 then 0 else byte (im_data im) (q + im_p im * im_w im * y + x * im_p im)) /\
    (forall i, n <= i -> byte row i = 0).
Proof.
  intros W P HW Y n pad. pose proof W as [_ [_ [_ [SZ [OK _]]]]]. assert (0 <= n) as N0 by (unfold n; apply Z.mul_nonneg_nonneg; lia). destruct (stride_ok n N0) as [_ SB].
  rewrite (im_addr_ok im 0 y 0 (wf_addr im W)) by (unfold inside; lia). cbn [bind]. set (a := 0 + im_p im * im_w im * y + 0 * im_p im).
  assert (0 <= a /\ a + n <= vsize (im_data im)) as [A0 A1].
  { assert (0 <= im_p im * im_w im * y) by (repeat apply Z.mul_nonneg_nonneg; lia). assert (im_p im * im_w im * (y + 1) <= im_p im * im_w im * im_h im) by (apply Z.mul_le_mono_nonneg_l; [apply Z.mul_nonneg_nonneg|]; lia). unfold a, n. rewrite SZ. lia. }
  assert (exists l, vsize l = n /\ bytes_ok l /\ (im_p im = 1 -> bytes_at (im_data im) a n = Ok l) /\ (im_p im <> 1 -> (do line <- line_out (im_data im) a n (im_p im); bytes_at line 0 n) = Ok l) /\
    (forall x q, 0 <= x < im_w im -> 0 <= q < im_p im -> byte l (im_p im * x + q) = if q =? 3 then 0 else byte (im_data im) (a + im_p im * x + (if im_p im =? 1 then 0 else rb q)))) as [l [SL [OL [E1 [E2 B]]]]].
  { destruct (Z.eq_dec (im_p im) 1) as [P1|P1].
    - destruct (bytes_at_ok (im_data im) a n A0 N0 A1) as [l [E [S B]]]. exists l. split; [exact S|]. split; [apply bytes_ok_nth; intros i Hi; rewrite B by lia; apply byte_ok, OK|]. split; [auto|]. split; [intros; contradiction|].
      intros x q Hx Hq. assert (q = 0) as -> by lia. unfold n in B. rewrite P1 in *. rewrite B by lia. rewrite Z.eqb_refl. cbn [Z.eqb]. f_equal. lia.
    - destruct (line_out_ok (im_data im) a (im_w im) (im_p im) ltac:(lia) ltac:(lia) A0 A1) as [out [E [S B]]]. fold n in E, S. destruct (bytes_at_ok out 0 n ltac:(lia) N0 ltac:(lia)) as [l [E' [S' B']]]. exists l. split; [exact S'|]. 
      assert (forall x q, 0 <= x < im_w im -> 0 <= q < im_p im -> byte l (im_p im * x + q) = if q =? 3 then 0 else byte (im_data im) (a + im_p im * x + rb q)) as BB.
      { intros x q Hx Hq. rewrite B' by (unfold n; nia). cbn [Z.add]. apply B; assumption. }
      split.
      { apply bytes_ok_nth. intros i Hi. rewrite S' in Hi. pose proof (Z.div_mod i (im_p im) ltac:(lia)) as DM. pose proof (Z.mod_pos_bound i (im_p im) ltac:(lia)) as MB. rewrite DM. rewrite BB; [|split; [apply Z.div_pos; lia|apply Z.div_lt_upper_bound; [lia|unfold n in Hi; lia]]|exact MB].
        destruct (_ =? 3); [lia|]. apply byte_ok, OK. }
      split; [intros; contradiction|]. split; [intros _; rewrite E; cbn [bind]; exact E'|]. intros x q Hx Hq. rewrite BB by assumption. destruct (Z.eqb_spec (im_p im) 1); [contradiction|reflexivity]. }
  exists (l ++ pad). assert (vsize pad = stride n - n) as SP by (unfold pad; rewrite vsize_repeat; lia).
  split; [rewrite vsize_app; lia|]. split; [apply bytes_app; [exact OL|apply bytes_zero]|]. split; [|split; [|split]].
  - intros P1 out. rewrite (E1 P1). reflexivity.
  - intros P1 out. specialize (E2 P1). destruct (line_out (im_data im) a n (im_p im)) as [line|]; [|discriminate]. cbn [bind] in *. rewrite E2. reflexivity.
  - intros x q [X [_ Q]]. assert (0 <= im_p im * x /\ im_p im * (x + 1) <= im_p im * im_w im) as [X0 X1] by (split; [apply Z.mul_nonneg_nonneg|apply Z.mul_le_mono_nonneg_l]; lia).
    destruct (Z.eqb_spec (im_p im) 1) as [P1|P1].
    + rewrite byte_app_l by (rewrite SL; unfold n; lia). rewrite B by lia. assert (q = 0) as -> by lia. cbn [Z.eqb]. unfold a. f_equal. lia.
    + pose proof (rb_range (im_p im) q ltac:(lia) Q) as RB. rewrite byte_app_l by (rewrite SL; unfold n; lia). rewrite B by lia. 
      assert (rb (rb q) = q) as RR by (unfold rb; destruct (Z.eqb_spec q 0) as [->|]; [reflexivity|]; destruct (Z.eqb_spec q 2) as [->|]; [reflexivity|]; destruct (Z.eqb_spec q 0); [contradiction|]; destruct (Z.eqb_spec q 2); [contradiction|reflexivity]).
      rewrite RR. replace (rb q =? 3) with (q =? 3). 2: { unfold rb. destruct (Z.eqb_spec q 0) as [->|]; [reflexivity|]. destruct (Z.eqb_spec q 2) as [->|]; reflexivity. }
      destruct (q =? 3); [reflexivity|]. unfold a. f_equal. lia.
  - intros i Hi. rewrite byte_app_r by lia. apply byte_zero.
Qed.

(** The sizes the writer computes. *)
Lemma storable_facts im : wfi im -> im_p im = 1 \/ im_p im = 3 \/ im_p im = 4 -> 0 < im_w im \/ im_h im = 0 -> storable (im_w im) (im_h im) (im_p im) ->
  let n := im_w im * im_p im in 0 <= n /\ n <= stride n <= n + 3 /\ im_w im < 2147483648 /\ im_h im < 2147483648 /\ readable (im_w im) (im_h im) (8 * im_p im) /\
  iint n = Ok n /\ iint (n + 3) = Ok (n + 3) /\ iint (stride n * im_h im) = Ok (stride n * im_h im) /\
  iint (14 + 40 + (if im_p im =? 1 then 256 * 4 else 0) + stride n * im_h im) = Ok (14 + 40 + (if im_p im =? 1 then 256 * 4 else 0) + stride n * im_h im).
Proof.
  intros [W0 [H0 _]] P HW [S1 S2] n. fold n in S1, S2. assert (0 <= n) as N0 by (apply Z.mul_nonneg_nonneg; lia). destruct (stride_ok n N0) as [_ SB]. assert (0 <= stride n * im_h im) as SH by (apply Z.mul_nonneg_nonneg; lia).
  assert (0 <= palette_size (im_p im)) as PS by (unfold palette_size; destruct (_ =? 1); lia). unfold int_max in *.
  split; [exact N0|]. split; [exact SB|]. split; [unfold n in *; lia|]. split.
  { destruct HW as [HW|HW]; [|lia]. assert (im_w im * 1 <= n) by (apply Z.mul_le_mono_nonneg_l; lia). assert (1 * im_h im <= stride n * im_h im) by (apply Z.mul_le_mono_nonneg_r; lia). lia. }
  split.
  { unfold readable. replace (8 * im_p im / 8) with (im_p im) by (rewrite Z.mul_comm, Z.div_mul; lia). pose proof (Z.mod_pos_bound (im_w im) 4 ltac:(lia)). split.
    - unfold n, int_max in *. destruct P as [P1|[P1|P1]]; rewrite P1 in *; change (8 * 1 =? 8) with true; change (8 * 3 =? 8) with false; change (8 * 3 =? 24) with true; change (8 * 4 =? 8) with false; change (8 * 4 =? 24) with false; cbv iota; lia.
    - replace (im_p im * im_w im) with n by (unfold n; ring). assert (n * (im_h im - 1) <= stride n * im_h im); [|unfold int_max; lia].
      assert (n * im_h im <= stride n * im_h im) by (apply Z.mul_le_mono_nonneg_r; lia). lia. }
  assert ((if im_p im =? 1 then 256 * 4 else 0) = palette_size (im_p im)) as -> by reflexivity.
  repeat split; apply iint_ok; unfold int_min, int_max; lia.
Qed.
Lemma bmp_write_big im : wfi im -> im_p im = 1 \/ im_p im = 3 \/ im_p im = 4 -> ~ storable (im_w im) (im_h im) (im_p im) -> bmp_write im = Err FOverflow.
Proof.
  intros [W0 [H0 _]] P N. unfold bmp_write. set (n := im_w im * im_p im). assert (0 <= n) as N0 by (apply Z.mul_nonneg_nonneg; lia). destruct (stride_ok n N0) as [SE SB]. assert (0 <= stride n * im_h im) as SH by (apply Z.mul_nonneg_nonneg; lia).
  assert (forall z, 0 <= z -> iint z = Ok z /\ z <= int_max \/ iint z = Err FOverflow /\ int_max < z) as II. { intros z Hz. destruct (Z_le_gt_dec z int_max); [left; split; [apply iint_ok; unfold int_min; lia|assumption]|right; split; [apply iint_big|]; lia]. }
  assert (0 <= palette_size (im_p im)) as PS by (unfold palette_size; destruct (_ =? 1); lia). assert ((if im_p im =? 1 then 256 * 4 else 0) = palette_size (im_p im)) as EP by reflexivity.
  destruct (II n N0) as [[-> L1]|[-> L1]]; cbn [bind]; [|reflexivity]. destruct (II (n + 3) ltac:(lia)) as [[-> L2]|[-> L2]]; cbn [bind]; [|reflexivity]. rewrite SE. rewrite EP. cbv zeta.
  destruct (II (stride n * im_h im) SH) as [[-> L3]|[-> L3]]; cbn [bind]; [|reflexivity]. destruct (II (14 + 40 + palette_size (im_p im) + stride n * im_h im) ltac:(lia)) as [[-> L4]|[-> L4]]; cbn [bind]; [|reflexivity].
  exfalso. apply N. split; fold n; lia.
Qed.
Lemma bmp_write_ok im : wfi im -> im_p im = 1 \/ im_p im = 3 \/ im_p im = 4 -> 0 < im_w im \/ im_h im = 0 -> storable (im_w im) (im_h im) (im_p im) ->
  exists l, bmp_write im = Ok l /\ bytes_ok l /\ bmp_magic l /\ bmp_width l = im_w im /\ bmp_height l = im_h im /\ bmp_bits l = 8 * im_p im /\ field4 l 10 = 54 + palette_size (im_p im) /\
    vsize l = 54 + palette_size (im_p im) + stride (im_w im * im_p im) * im_h im /\
    forall x y q v, inside im x y q -> im_get im x y q = Ok v ->
      byte l (54 + palette_size (im_p im) + stride (im_w im * im_p im) * (im_h im - 1 - y) + im_p im * x + (if im_p im =? 1 then 0 else rb q)) = if q =? 3 then 0 else v.
Proof.
  intros W P HW SR. pose proof W as [W0 [H0 _]]. destruct (storable_facts im W P HW SR) as [N0 [SB [W31 [H31 [_ [I1 [I2 [I3 I4]]]]]]]]. cbv zeta in *. destruct (stride_ok _ N0) as [SE _]. unfold bmp_write.
  rewrite I1. cbn [bind]. rewrite I2. cbn [bind]. rewrite SE. cbv zeta. rewrite I3. cbn [bind]. rewrite I4. cbn [bind]. fold (bmp_head (im_w im) (im_h im) (im_p im)).
  set (head := bmp_head (im_w im) (im_h im) (im_p im)).
  assert (exists out0, (if im_p im =? 1 then for_ 0 256 (fun i out => Ok (out ++ [i; i; i; 0])) head else Ok head) = Ok out0 /\ vsize out0 = 54 + palette_size (im_p im) /\ bytes_ok out0 /\ forall j, 0 <= j < 54 -> byte out0 j = byte head j) as [out0 [E0 [S0 [OK0 B0]]]].
  { unfold palette_size. destruct (Z.eqb_spec (im_p im) 1).
    - destruct (palette_ok head (head_size _ _ _) (head_bytes _ _ _)) as [o [E [S [O B]]]]. exists o. auto.
    - exists head. split; [reflexivity|]. split; [apply head_size|]. split; [apply head_bytes|reflexivity]. }
  rewrite E0. cbn [bind]. set (n := im_w im * im_p im) in *. set (pad := repeat 0 (Z.to_nat (stride n - n))).
  set (body1 := fun (y : Z) (out : list Z) => do a <- im_addr im 0 (im_h im - y - 1) 0; do line <- line_out (im_data im) a n (im_p im); do l <- bytes_at line 0 n; Ok (out ++ l ++ pad)).
  set (body2 := fun (y : Z) (out : list Z) => do a <- im_addr im 0 (im_h im - y - 1) 0; do l <- bytes_at (im_data im) a n; Ok (out ++ l ++ pad)).
  assert (exists l, for_ 0 (im_h im) (if im_p im =? 1 then body2 else body1) out0 = Ok l /\ vsize l = vsize out0 + stride n * im_h im /\ bytes_ok l /\ (forall j, 0 <= j < vsize out0 -> byte l j = byte out0 j) /\
    forall x y q, inside im x y q -> byte l (vsize out0 + stride n * (im_h im - 1 - y) + im_p im * x + (if im_p im =? 1 then 0 else rb q)) = if q =? 3 then 0 else byte (im_data im) (q + im_p im * im_w im * y + x * im_p im)) as [l [El [Sl [Ol [Bl Pl]]]]].
  { destruct HW as [HW|HZ].
    2: { rewrite HZ. exists out0. rewrite for_empty by lia. split; [reflexivity|]. split; [lia|]. split; [exact OK0|]. split; [reflexivity|]. unfold inside. intros x y q ?. lia. }
    assert (forall k, exists row, 0 <= k < im_h im -> vsize row = stride n /\ bytes_ok row /\ (forall out, (if im_p im =? 1 then body2 else body1) k out = Ok (out ++ row)) /\
      forall x q, inside im x (im_h im - 1 - k) q -> byte row (im_p im * x + (if im_p im =? 1 then 0 else rb q)) = if q =? 3 then 0 else byte (im_data im) (q + im_p im * im_w im * (im_h im - 1 - k) + x * im_p im)) as AR.
    { intros k. destruct (Z_le_dec 0 k) as [K0|K0]; [|exists []; intros; lia]. destruct (Z_lt_dec k (im_h im)) as [K1|K1]; [|exists []; intros; lia].
      destruct (write_row im (im_h im - 1 - k) W P HW ltac:(lia)) as [row [R1 [R2 [R3 [R4 [R5 _]]]]]]. exists row. intros _. split; [exact R1|]. split; [exact R2|]. split; [|exact R5].
      intros out. replace (im_h im - 1 - k) with (im_h im - k - 1) in R3, R4 by lia. destruct (Z.eqb_spec (im_p im) 1) as [P1|P1]; [apply (R3 P1)|apply (R4 P1)]. }
    (* rows as a function, by their bytes *)
    assert (exists rowf : Z -> list Z, forall k, 0 <= k < im_h im -> vsize (rowf k) = stride n /\ bytes_ok (rowf k) /\ (forall out, (if im_p im =? 1 then body2 else body1) k out = Ok (out ++ rowf k)) /\
      forall x q, inside im x (im_h im - 1 - k) q -> byte (rowf k) (im_p im * x + (if im_p im =? 1 then 0 else rb q)) = if q =? 3 then 0 else byte (im_data im) (q + im_p im * im_w im * (im_h im - 1 - k) + x * im_p im)) as [rowf RF].
    { exists (fun k => match (if im_p im =? 1 then body2 else body1) k [] with Ok r => r | Err _ => [] end). intros k Hk. destruct (AR k) as [row HR]. destruct (HR Hk) as [R1 [R2 [R3 R4]]]. rewrite R3. cbn [app]. auto. }
    destruct (append_rows rowf (stride n) (im_h im) (if im_p im =? 1 then body2 else body1) out0 ltac:(lia) H0 OK0) as [l [E [S [O [B1 B2]]]]].
    - intros y out Hy. destruct (RF y Hy) as [R1 [R2 [R3 R4]]]. auto.
    - exists l. do 4 (split; [assumption|]). intros x y q I. pose proof I as [X [Y Q]]. destruct (RF (im_h im - 1 - y) ltac:(lia)) as [R1 [R2 [R3 R4]]]. replace (im_h im - 1 - (im_h im - 1 - y)) with y in R4 by lia. rewrite <- (R4 x q I).
      rewrite <- Z.add_assoc. apply B2; [lia|]. assert (0 <= im_p im * x /\ im_p im * (x + 1) <= im_p im * im_w im) as [X0 X1] by (split; [apply Z.mul_nonneg_nonneg|apply Z.mul_le_mono_nonneg_l]; lia).
      destruct (Z.eqb_spec (im_p im) 1); [lia|]. pose proof (rb_range (im_p im) q ltac:(lia) Q). lia. }
  exists l. split.
  { destruct P as [P1|[P1|P1]]; rewrite P1 in *; cbn [Z.eqb Pos.eqb orb bind] in *; [exact El| |]; rewrite El; reflexivity. }
  split; [exact Ol|]. destruct (head_ok (im_w im) (im_h im) (im_p im) ltac:(lia) ltac:(lia) P l) as [M [BW [BH [BB BP]]]].
  { intros j Hj. rewrite Bl; [apply B0; exact Hj|]. rewrite S0. unfold palette_size. destruct (_ =? 1); lia. }
  do 5 (split; [assumption|]). split; [lia|]. intros x y q v I E. rewrite <- S0. rewrite (Pl x y q I). rewrite im_get_ok in E by assumption. apply ok_inj in E. rewrite E. reflexivity.
Qed.
