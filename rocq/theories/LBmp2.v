(** The three readers, the reader as a whole. *)
From Coq Require Import ZArith List Bool Lia Psatz.
From Verif Require Import Base MStream MImage MBmp SImage LBase LImage LImage2 LImage3 LBmp.
Import ListNotations.
Open Scope Z_scope.

Lemma read_into_ok l pos f buf a n : 0 <= pos -> 0 <= n -> posn l pos f -> 0 <= a -> a + n <= vsize buf ->
  exists f', is_read_into buf a n f = Ok (put_bytes buf a (chunk l pos n), f') /\ posn l (pos + n) f'.
Proof.
  intros HP HN H A L. destruct (posn_read l pos f n HP HN H) as [f' [E H']]. exists f'. split; [|exact H']. unfold is_read_into.
  destruct (Z.ltb_spec a 0); [lia|]. destruct (Z.ltb_spec (vsize buf) (a + n)); [lia|]. cbn [orb]. rewrite E. reflexivity.
Qed.

(** Bytes of row [k] from the bottom: [n] bytes at [o + adv*k]. *)
Definition row_bytes (l : list Z) (o adv n k : Z) : list Z := chunk l (o + adv * k) n.

Lemma read32_ok l im f : bytes_ok l -> wfi im -> 0 < im_w im -> im_p im = 4 -> posn l 54 f ->
  exists im', read32 im (im_w im) (im_h im) 4 f = Ok im' /\ rows_done im (row_bytes l 54 (im_w im * 4) (im_w im * 4)) rb (im_h im) im'.
Proof.
  intros OK W HW P H. unfold read32. rewrite (iint_ok (im_w im * 4)) by (destruct (wf_addr im W); rewrite P in *; unfold int_min; lia). cbn [bind].
  edestruct (for_inv (fun k s => rows_done im (row_bytes l 54 (im_w im * 4) (im_w im * 4)) rb k (fst s) /\ posn l (54 + im_w im * 4 * k) (snd s)) 0 (im_h im)) as [[im' f'] [E [R _]]].
  4: { rewrite E. cbn [bind fst]. exists im'. split; [reflexivity|exact R]. }
  - apply W.
  - cbn [fst snd]. split; [apply rows_start; exact W|]. rewrite Z.mul_0_r, Z.add_0_r. exact H.
  - intros k [imk fk] Hk [R J]. cbn [fst snd] in *. set (got := row_bytes l 54 (im_w im * 4) (im_w im * 4)) in *.
    assert (0 < im_p im) as HP by lia.
    assert (vsize (got k) <= im_w im * im_p im) as GS by (unfold got, row_bytes; rewrite chunk_size by nia; lia).
    assert (bytes_ok (got k)) as GO by (apply chunk_ok; [exact OK|nia|lia]).
    replace (im_h im - k - 1) with (im_h im - 1 - k) by lia. rewrite (row_addr im got rb k imk Hk HW HP R). cbn [bind].
    destruct (row_bounds im got rb k imk Hk HW HP R) as [A0 A1].
    destruct (read_into_ok l (54 + im_w im * 4 * k) fk (im_data imk) (im_p im * im_w im * (im_h im - 1 - k)) (im_w im * 4) ltac:(nia) ltac:(lia) J A0 ltac:(lia)) as [f' [E J']]. rewrite E. cbn [bind fst snd].
    destruct (row_swapped im got rb k imk W Hk HW HP R GS GO 4 P ltac:(lia) ltac:(reflexivity)) as [d' [Ed R']]. change (chunk l (54 + im_w im * 4 * k) (im_w im * 4)) with (got k). rewrite Ed. cbn [bind].
    eexists. split; [reflexivity|]. cbn [fst snd]. split; [exact R'|]. replace (54 + im_w im * 4 * (k + 1)) with (54 + im_w im * 4 * k + im_w im * 4) by ring. exact J'.
Qed.

Lemma read8_ok l im f : bytes_ok l -> wfi im -> im_w im + im_w im mod 4 <= int_max -> 0 < im_w im -> im_p im = 1 -> posn l 54 f ->
  exists im', read8 im (im_w im) (im_h im) f = Ok im' /\ rows_done im (row_bytes l 1078 (im_w im + im_w im mod 4) (im_w im)) (fun p => p) (im_h im) im'.
Proof.
  intros OK W IM HW P H. unfold read8. rewrite Z.rem_mod_nonneg by lia. pose proof (Z.mod_pos_bound (im_w im) 4 ltac:(lia)) as MB. rewrite iint_ok by (unfold int_min; lia). cbn [bind]. set (adv := im_w im + im_w im mod 4).
  edestruct (for_inv (fun k f => posn l (54 + k) f) 0 (256 * 4)) as [f1 [E1 J1]].
  4: { rewrite E1. cbn [bind].
    edestruct (for_inv (fun k s => rows_done im (row_bytes l 1078 adv (im_w im)) (fun p => p) k (fst s) /\ posn l (1078 + adv * k) (snd s)) 0 (im_h im)) as [[im' f'] [E [R _]]].
    4: { rewrite E. cbn [bind fst]. exists im'. split; [reflexivity|exact R]. }
    - apply W.
    - cbn [fst snd]. split; [apply rows_start; exact W|]. rewrite Z.mul_0_r, Z.add_0_r. exact J1.
    - intros k [imk fk] Hk [R J]. cbn [fst snd] in *. set (got := row_bytes l 1078 adv (im_w im)) in *.
      assert (0 < im_p im) as HP by lia. assert (0 <= 1078 + adv * k) as HO by (unfold adv; nia).
      assert (vsize (got k) <= im_w im * im_p im) as GS by (unfold got, row_bytes; rewrite chunk_size by lia; lia).
      assert (bytes_ok (got k)) as GO by (apply chunk_ok; [exact OK|lia|lia]).
      rewrite (row_addr im got (fun p => p) k imk Hk HW HP R). cbn [bind].
      destruct (row_bounds im got (fun p => p) k imk Hk HW HP R) as [A0 A1].
      destruct (read_into_ok l (1078 + adv * k) fk (im_data imk) (im_p im * im_w im * (im_h im - 1 - k)) (im_w im) HO ltac:(lia) J A0 ltac:(lia)) as [f' [E J']]. rewrite E. cbn [bind fst snd].
      destruct (read_into_ok l (1078 + adv * k + im_w im) f' [0; 0; 0] 0 (adv - im_w im) ltac:(lia) ltac:(unfold adv; lia) J' ltac:(lia) ltac:(change (vsize [0; 0; 0]) with 3; unfold adv; lia)) as [f2 [E2 J2]]. rewrite E2. cbn [bind fst snd].
      eexists. split; [reflexivity|]. cbn [fst snd]. split.
      + apply (row_plain im got (fun p => p) k imk W Hk HW HP R GS GO). reflexivity.
      + replace (1078 + adv * (k + 1)) with (1078 + adv * k + im_w im + (adv - im_w im)) by ring. exact J2. }
  - lia.
  - exact H.
  - intros i fi Hi J. cbv beta. eexists. split; [reflexivity|]. replace (54 + (i + 1)) with (54 + i + 1) by ring. apply posn_skip; [lia|lia|exact J].
Qed.

(** The pad size of the 24-bit reader is negative: after the bottom row nothing more is read. *)
Lemma read24_ok l im f : bytes_ok l -> wfi im -> 3 * im_w im + 3 <= int_max -> 0 < im_w im -> im_p im = 3 -> posn l 54 f ->
  exists im', read24 im (im_w im) (im_h im) 3 f = Ok im' /\ rows_done im (fun k => if k =? 0 then chunk l 54 (im_w im * 3) else []) rb (im_h im) im'.
Proof.
  intros OK W IM HW P H. unfold read24. rewrite (iint_ok (im_w im * 3)) by (unfold int_min; lia). cbn [bind]. rewrite (iint_ok (im_w im * 3 + 3)) by (unfold int_min; lia). cbn [bind]. set (got := fun k => if k =? 0 then chunk l 54 (im_w im * 3) else []).
  assert (Z.rem (im_w im * 3 + 3) 4 - im_w im * 3 < 0) as NP. { rewrite Z.rem_mod_nonneg by lia. destruct (Z.eq_dec (im_w im) 1) as [->|]; [reflexivity|]. pose proof (Z.mod_pos_bound (im_w im * 3 + 3) 4 ltac:(lia)). lia. }
  set (pk := Z.rem (im_w im * 3 + 3) 4 - im_w im * 3) in *.
  edestruct (for_inv (fun k s => rows_done im got rb k (fst s) /\ if k =? 0 then posn l 54 (snd s) else is_good (snd s) = false) 0 (im_h im)) as [[im' f'] [E [R _]]].
  4: { rewrite E. cbn [bind fst]. exists im'. split; [reflexivity|exact R]. }
  - apply W.
  - cbn [fst snd]. split; [apply rows_start; exact W|]. exact H.
  - intros k [imk fk] Hk [R J]. cbn [fst snd] in *. assert (0 < im_p im) as HP by lia.
    assert (vsize (got k) <= im_w im * im_p im) as GS. { unfold got. destruct (k =? 0); [rewrite chunk_size by lia; lia|cbn; nia]. }
    assert (bytes_ok (got k)) as GO. { unfold got. destruct (k =? 0); [apply chunk_ok; [exact OK|lia|lia]|constructor]. }
    replace (im_h im - k - 1) with (im_h im - 1 - k) by lia. rewrite (row_addr im got rb k imk Hk HW HP R). cbn [bind].
    destruct (row_bounds im got rb k imk Hk HW HP R) as [A0 A1].
    assert (exists f', is_read_into (im_data imk) (im_p im * im_w im * (im_h im - 1 - k)) (im_w im * 3) fk = Ok (put_bytes (im_data imk) (im_p im * im_w im * (im_h im - 1 - k)) (got k), f')) as [f' E].
    { unfold got. destruct (k =? 0).
      - destruct (read_into_ok l 54 fk (im_data imk) (im_p im * im_w im * (im_h im - 1 - k)) (im_w im * 3) ltac:(lia) ltac:(lia) J A0 ltac:(lia)) as [f' [E _]]. exists f'. exact E.
      - exists fk. unfold is_read_into, is_read. rewrite J. cbn [negb]. destruct (Z.ltb_spec (im_p im * im_w im * (im_h im - 1 - k)) 0); [lia|]. destruct (Z.ltb_spec (vsize (im_data imk)) (im_p im * im_w im * (im_h im - 1 - k) + im_w im * 3)); [lia|]. reflexivity. }
    rewrite E. cbn [bind fst snd].
    destruct (row_swapped im got rb k imk W Hk HW HP R GS GO 3 P ltac:(lia) ltac:(reflexivity)) as [d' [Ed R']]. rewrite Ed. cbn [bind].
    assert (exists f2, is_read_into [0; 0; 0] 0 pk f' = Ok ([0; 0; 0], f2) /\ is_good f2 = false) as [f2 [E2 J2]].
    { unfold is_read_into, is_read. destruct (Z.ltb_spec 0 0); [lia|]. destruct (Z.ltb_spec (vsize [0; 0; 0]) (0 + pk)); [cbn in *; lia|]. cbn [orb]. destruct (is_good f') eqn:G; cbn [negb].
      - destruct (Z.ltb_spec pk 0); [|lia]. eexists. split; reflexivity.
      - exists f'. split; [reflexivity|exact G]. }
    rewrite E2. cbn [bind fst snd]. eexists. split; [reflexivity|]. cbn [fst snd]. split; [exact R'|]. destruct (Z.eqb_spec (k + 1) 0); [lia|exact J2].
Qed.

Lemma shiftr3 b : Z.shiftr b 3 = b / 8.
Proof. rewrite Z.shiftr_div_pow2 by lia. reflexivity. Qed.
Lemma done_wf im got s n im' : rows_done im got s n im' -> wfi im'. Proof. intros [W _]. exact W. Qed.

(** A height or row loop that meets an empty row asserts. *)
Lemma zero_width im h n f : im_w im = 0 -> 0 < h -> im_h im = h ->
  read32 im 0 h n f = Err FAssert /\ read24 im 0 h n f = Err FAssert /\ (posn [] 54 f \/ True -> read8 im 0 h f = Err FAssert).
Proof.
  intros Z0 Hh HH. assert (forall y, im_addr im 0 y 0 = Err FAssert) as A by (intros y; apply im_addr_outside; unfold inside; lia).
  unfold read32, read24, read8. rewrite !Z.mul_0_l. change (iint 0) with (Ok 0). change (iint (0 + Z.rem 0 4)) with (Ok 0). cbn [bind]. change (iint (0 + 3)) with (Ok 3). cbn [bind]. split; [|split].
  - rewrite for_step by lia. cbn [fst snd]. rewrite A. reflexivity.
  - rewrite for_step by lia. cbn [fst snd]. rewrite A. reflexivity.
  - intros _. edestruct (for_inv (fun (_ : Z) (_ : istream) => True) 0 (256 * 4)) as [f1 [E1 _]]; [| | |rewrite E1; cbn [bind]; rewrite for_step by lia; cbn [fst snd]; rewrite A; reflexivity].
    + lia.
    + exact I.
    + intros i x _ _. eexists. split; [reflexivity|exact I].
Qed.

Lemma bits_cases b : b = 8 \/ b = 24 \/ b = 32 -> 0 <= b / 8 <= 4. Proof. intros [->|[->| ->]]; cbn; lia. Qed.
Lemma readable_addr w h b : 0 <= w -> b = 8 \/ b = 24 \/ b = 32 -> readable w h b -> addressable w h (b / 8).
Proof.
  intros W B [H1 H2]. split; [|exact H2]. pose proof (Z.mod_pos_bound w 4 ltac:(lia)). destruct B as [->|[->| ->]]; cbn [Z.eqb Pos.eqb] in *; [change (8 / 8) with 1|change (24 / 8) with 3|change (32 / 8) with 4]; lia.
Qed.
(** A header whose sizes are not ints. *)
Lemma not_readable im w h b f : 0 < w -> 0 <= h -> b = 8 \/ b = 24 \/ b = 32 -> im_w im = w -> im_h im = h -> im_p im = b / 8 -> ~ readable w h b ->
  (if b =? 32 then (do im <- read32 im w h (b / 8) f; Ok (true, im)) else if b =? 24 then (do im <- read24 im w h (b / 8) f; Ok (true, im)) else if b =? 8 then (do im <- read8 im w h f; Ok (true, im)) else Ok (false, im)) = Err FOverflow.
Proof.
  intros W H B D1 D2 D3 N.
  assert (forall z, 0 <= z -> iint z = Ok z /\ z <= int_max \/ iint z = Err FOverflow /\ int_max < z) as II. { intros z Hz. destruct (Z_le_gt_dec z int_max); [left; split; [apply iint_ok; unfold int_min; lia|assumption]|right; split; [apply iint_big|]; lia]. }
  pose proof (Z.mod_pos_bound w 4 ltac:(lia)) as MB.
  assert (int_max < b / 8 * w * (h - 1) -> 0 < h /\ im_addr im 0 (h - 1) 0 = Err FOverflow) as AE.
  { intros L. assert (0 < h). { destruct (Z.eq_dec h 0) as [->|]; [|lia]. pose proof (bits_cases b B). assert (0 <= b / 8 * w) by (apply Z.mul_nonneg_nonneg; lia). unfold int_max in L. lia. }
    split; [assumption|]. apply im_addr_big; [unfold inside; rewrite D1, D2, D3; destruct B as [->|[->| ->]]; cbn; lia|]. rewrite D1, D3. exact L. }
  unfold readable in N. destruct B as [->|[->| ->]]; cbn [Z.eqb Pos.eqb] in *.
  - unfold read8. rewrite Z.rem_mod_nonneg by lia. destruct (II (w + w mod 4) ltac:(lia)) as [[-> L]|[-> L]]; cbn [bind]; [|reflexivity].
    edestruct (for_inv (fun (_ : Z) (_ : istream) => True) 0 (256 * 4)) as [f1 [E1 _]]; [| | |rewrite E1; cbn [bind]].
    + lia.
    + exact I.
    + intros j x _ _. eexists. split; [reflexivity|exact I].
    + destruct (AE ltac:(lia)) as [Hh EA]. rewrite for_step by lia. cbn [fst snd]. rewrite Z.sub_0_r, EA. reflexivity.
  - unfold read24. change (24 / 8) with 3 in *. destruct (II (w * 3) ltac:(lia)) as [[-> L]|[-> L]]; cbn [bind]; [|reflexivity]. destruct (II (w * 3 + 3) ltac:(lia)) as [[-> L']|[-> L']]; cbn [bind]; [|reflexivity].
    destruct (AE ltac:(lia)) as [Hh EA]. rewrite for_step by lia. cbn [fst snd]. rewrite Z.sub_0_r, EA. reflexivity.
  - unfold read32. change (32 / 8) with 4 in *. destruct (II (w * 4) ltac:(lia)) as [[-> L]|[-> L]]; cbn [bind]; [|reflexivity].
    destruct (AE ltac:(lia)) as [Hh EA]. rewrite for_step by lia. cbn [fst snd]. rewrite Z.sub_0_r, EA. reflexivity.
Qed.

(** The reader on any list of bytes, into any image. *)
Lemma bmp_read_total l im : bytes_ok l -> bytes_ok (im_data im) ->
  let w := bmp_width l in let h := bmp_height l in let b := bmp_bits l in
  (~ bmp_magic l -> bmp_read l im = Ok (false, im)) /\
  (bmp_magic l -> w < 0 \/ h < 0 \/ b < 0 -> bmp_read l im = Err FAssert) /\
  (bmp_magic l -> 0 <= w -> 0 <= h -> 0 <= b -> b <> 8 -> b <> 24 -> b <> 32 ->
     exists im', bmp_read l im = Ok (false, im') /\ im_w im' = w /\ im_h im' = h /\ im_p im' = b / 8 /\ (addressable w h (b / 8) -> wfi im')) /\
  (bmp_magic l -> w = 0 -> 0 < h -> b = 8 \/ b = 24 \/ b = 32 -> bmp_read l im = Err FAssert) /\
  (bmp_magic l -> 0 < w -> 0 <= h -> b = 8 \/ b = 24 \/ b = 32 -> ~ readable w h b -> bmp_read l im = Err FOverflow) /\
  (bmp_magic l -> (0 < w /\ 0 <= h \/ w = 0 /\ h = 0) -> b = 8 \/ b = 24 \/ b = 32 -> readable w h b ->
     exists im', bmp_read l im = Ok (true, im') /\ wfi im' /\ im_w im' = w /\ im_h im' = h /\ im_p im' = b / 8).
Proof.
  intros OK OKI w h b. destruct (bmp_header l im) as [f [J E]]. rewrite E. cbv zeta. fold w h b. rewrite shiftr3. unfold bmp_magic.
  split; [|split; [|split; [|split; [|split]]]].
  - intros N. destruct (Z.eqb_spec (field2 l 0) 19778); [contradiction|reflexivity].
  - intros -> H. cbn [negb Z.eqb Pos.eqb]. rewrite im_resize_bad; [reflexivity|]. destruct H as [H|[H|H]]; [auto|auto|]. right. right. pose proof (Z.div_mod b 8 ltac:(lia)). pose proof (Z.mod_pos_bound b 8 ltac:(lia)). lia.
  - intros -> Hw Hh Hb N1 N2 N3. cbn [negb Z.eqb Pos.eqb]. assert (0 <= b / 8) as HP by (apply Z.div_pos; lia). destruct (im_resize_total im w h (b / 8) Hw Hh HP) as [i [Ei [D1 [D2 D3]]]]. rewrite Ei. cbn [bind].
    destruct (Z.eqb_spec b 32); [contradiction|]. destruct (Z.eqb_spec b 24); [contradiction|]. destruct (Z.eqb_spec b 8); [contradiction|]. exists i. split; [reflexivity|]. do 3 (split; [assumption|]).
    intros A. destruct (resize_wf im w h (b / 8) Hw Hh HP A OKI) as [i' [Ei' [_ [_ [_ [_ [_ Wi]]]]]]]. rewrite Ei in Ei'. injection Ei' as <-. exact Wi.
  - intros -> Hw Hh HB. cbn [negb Z.eqb Pos.eqb]. destruct (im_resize_total im w h (b / 8) ltac:(lia) ltac:(lia) ltac:(apply Z.div_pos; lia)) as [i [Ei [D1 [D2 D3]]]]. rewrite Ei. cbn [bind]. rewrite Hw in *.
    destruct (zero_width i h (b / 8) f ltac:(lia) Hh D2) as [Z1 [Z2 Z3]]. rewrite Z1, Z2, (Z3 (or_intror I)). destruct HB as [->|[->| ->]]; reflexivity.
  - intros -> HW HH HB NR. cbn [negb Z.eqb Pos.eqb]. destruct (im_resize_total im w h (b / 8) ltac:(lia) ltac:(lia) ltac:(apply Z.div_pos; lia)) as [i [Ei [D1 [D2 D3]]]]. rewrite Ei. cbn [bind]. apply not_readable; assumption.
  - intros -> HS HB RD. cbn [negb Z.eqb Pos.eqb]. destruct (resize_wf im w h (b / 8) ltac:(lia) ltac:(lia) ltac:(apply Z.div_pos; lia) (readable_addr w h b ltac:(lia) HB RD) OKI) as [i [Ei [D1 [D2 [D3 [_ [_ Wi]]]]]]]. rewrite Ei. cbn [bind].
    destruct HS as [[HW HH]|[HW HH]].
    + rewrite <- D1 in *. rewrite <- D2 in *. destruct RD as [RD _]. destruct HB as [->|[->| ->]]; cbn [Z.eqb Pos.eqb] in *.
      * destruct (read8_ok l i f OK Wi RD HW D3 J) as [r [Er R]]. change (8 / 8) with 1 in *. rewrite Er. cbn [bind]. exists r. split; [reflexivity|]. split; [exact (done_wf _ _ _ _ _ R)|]. destruct R as [_ [[S1 [S2 S3]] _]]. lia.
      * destruct (read24_ok l i f OK Wi RD HW D3 J) as [r [Er R]]. change (24 / 8) with 3 in *. rewrite Er. cbn [bind]. exists r. split; [reflexivity|]. split; [exact (done_wf _ _ _ _ _ R)|]. destruct R as [_ [[S1 [S2 S3]] _]]. lia.
      * destruct (read32_ok l i f OK Wi HW D3 J) as [r [Er R]]. change (32 / 8) with 4 in *. rewrite Er. cbn [bind]. exists r. split; [reflexivity|]. split; [exact (done_wf _ _ _ _ _ R)|]. destruct R as [_ [[S1 [S2 S3]] _]]. lia.
    + exists i. unfold read32, read24, read8. rewrite HH, HW. rewrite !Z.mul_0_l. change (iint 0) with (Ok 0). change (iint (0 + Z.rem 0 4)) with (Ok 0). cbn [bind]. change (iint (0 + 3)) with (Ok 3). cbn [bind]. rewrite !(for_empty 0 0) by lia. cbn [bind fst].
      edestruct (for_inv (fun (_ : Z) (_ : istream) => True) 0 (256 * 4)) as [f1 [E1 _]]; [| | |rewrite E1; cbn [bind]; rewrite for_empty by lia; cbn [bind fst]].
      * lia.
      * exact I.
      * intros j x _ _. eexists. split; [reflexivity|exact I].
      * split; [destruct HB as [->|[->| ->]]; reflexivity|]. split; [exact Wi|]. lia.
Qed.
