(** Reading bitmap files. *)
From Coq Require Import ZArith List Bool Lia Psatz.
From Verif Require Import Base MStream MImage MBmp SImage LBase LImage LImage3.
Import ListNotations.
Open Scope Z_scope.

(** The stream after [pos] bytes of [l] were requested. *)
Definition posn (l : list Z) (pos : Z) (f : istream) : Prop :=
  (is_good f = true /\ is_rest f = skipn (Z.to_nat pos) l /\ pos <= vsize l) \/ (is_good f = false /\ vsize l < pos).
Definition chunk (l : list Z) (pos n : Z) : list Z := firstn (Z.to_nat n) (skipn (Z.to_nat pos) l).

Lemma chunk_size l pos n : 0 <= pos -> 0 <= n -> vsize (chunk l pos n) = Z.min n (Z.max 0 (vsize l - pos)).
Proof. intros H1 H2. unfold chunk. rewrite vsize_firstn, vsize_skipn by assumption. reflexivity. Qed.
Lemma chunk_byte l pos n i : 0 <= pos -> 0 <= i < n -> byte (chunk l pos n) i = byte l (pos + i).
Proof. intros H1 H2. unfold chunk. rewrite byte_firstn, byte_skipn by lia. reflexivity. Qed.
Lemma chunk_ok l pos n : bytes_ok l -> 0 <= pos -> 0 <= n -> bytes_ok (chunk l pos n).
Proof. intros H H1 H2. apply bytes_ok_nth. intros i Hi. rewrite chunk_size in Hi by assumption. rewrite chunk_byte by lia. apply byte_ok, H. Qed.
Lemma posn_read l pos f n : 0 <= pos -> 0 <= n -> posn l pos f -> exists f', is_read n f = (chunk l pos n, f') /\ posn l (pos + n) f'.
Proof.
  intros HP HN [[G [R L]]|[G L]]; unfold is_read; rewrite G; cbn [negb].
  - destruct (Z.ltb_spec n 0); [lia|]. rewrite R. rewrite vsize_skipn by lia. destruct (Z.ltb_spec (Z.max 0 (vsize l - pos)) n).
    + eexists. split; [f_equal|right; cbn; split; [reflexivity|lia]]. unfold chunk. rewrite firstn_all2; [reflexivity|]. pose proof (vsize_skipn l pos HP) as S. unfold vsize in *. lia.
    + eexists. split; [reflexivity|]. left. cbn. split; [reflexivity|]. split; [|lia]. replace (Z.to_nat (pos + n)) with (Z.to_nat n + Z.to_nat pos)%nat by lia.
      clear. generalize (Z.to_nat n) (Z.to_nat pos). intros a b. revert l. induction b as [|b IH]; intros l; [rewrite Nat.add_0_r; reflexivity|]. rewrite Nat.add_succ_r. destruct l as [|x l]; [cbn; rewrite skipn_nil; reflexivity|]. cbn. apply IH.
  - exists f. split; [|right; split; [exact G|lia]]. f_equal. unfold chunk. rewrite skipn_all2 by (unfold vsize in L; lia). symmetry. apply firstn_nil.
Qed.
Lemma posn_skip l pos f n : 0 <= pos -> 0 <= n -> posn l pos f -> posn l (pos + n) (is_skip n f).
Proof. intros HP HN H. destruct (posn_read l pos f n HP HN H) as [f' [E H']]. unfold is_skip. rewrite E. exact H'. Qed.

Lemma padded l pos n : 0 <= pos -> let g := chunk l pos (Z.of_nat n) in
  vsize (g ++ skipn (length g) (le n 0)) = Z.of_nat n /\ forall i, 0 <= i < Z.of_nat n -> byte (g ++ skipn (length g) (le n 0)) i = byte l (pos + i).
Proof.
  intros HP g. assert (vsize g = Z.min (Z.of_nat n) (Z.max 0 (vsize l - pos))) as S by (apply chunk_size; lia).
  assert (length g = Z.to_nat (vsize g)) as EL by (unfold vsize; lia). rewrite EL.
  split.
  - rewrite vsize_app, vsize_skipn, vsize_le by (unfold vsize; lia). lia.
  - intros i Hi. destruct (Z_lt_dec i (vsize g)).
    + rewrite byte_app_l by lia. apply chunk_byte; lia.
    + rewrite byte_app_r by lia. rewrite byte_skipn by (unfold vsize in *; lia). rewrite byte_le by lia. rewrite Z.div_0_l by (apply Z.pow_nonzero; lia). rewrite byte_over by lia. reflexivity.
Qed.
Lemma unle2 l : vsize l = 2 -> unle l = byte l 0 + 256 * byte l 1.
Proof. destruct l as [|a [|b [|c l]]]; unfold vsize; cbn [length]; try lia. intros _. unfold byte, Z.to_nat, Pos.to_nat. cbn [unle nth Pos.iter_op Nat.add]. lia. Qed.
Lemma unle4 l : vsize l = 4 -> unle l = byte l 0 + 256 * byte l 1 + 65536 * byte l 2 + 16777216 * byte l 3.
Proof. destruct l as [|a [|b [|c [|d [|e l]]]]]; unfold vsize; cbn [length]; try lia. intros _. unfold byte, Z.to_nat, Pos.to_nat. cbn [unle nth Pos.iter_op Nat.add]. lia. Qed.
Lemma read_int2 l pos f : 0 <= pos -> posn l pos f -> exists f', is_read_int 2 0 f = (field2 l pos, f') /\ posn l (pos + 2) f'.
Proof.
  intros HP H. destruct (posn_read l pos f 2 HP ltac:(lia) H) as [f' [E H']]. exists f'. split; [|exact H']. unfold is_read_int. change (Z.of_nat 2) with 2. rewrite E. f_equal.
  destruct (padded l pos 2 HP) as [S B]. change (Z.of_nat 2) with 2 in S, B. rewrite unle2 by exact S. rewrite !B by lia. rewrite Z.add_0_r. reflexivity.
Qed.
Lemma read_int4 l pos f : 0 <= pos -> posn l pos f -> exists f', is_read_int 4 0 f = (field4 l pos, f') /\ posn l (pos + 4) f'.
Proof.
  intros HP H. destruct (posn_read l pos f 4 HP ltac:(lia) H) as [f' [E H']]. exists f'. split; [|exact H']. unfold is_read_int. change (Z.of_nat 4) with 4. rewrite E. f_equal.
  destruct (padded l pos 4 HP) as [S B]. change (Z.of_nat 4) with 4 in S, B. rewrite unle4 by exact S. rewrite !B by lia. rewrite Z.add_0_r. reflexivity.
Qed.

(** The header, for any file. *)
Lemma bmp_header l im : exists f, posn l 54 f /\ bmp_read l im =
  if negb (field2 l 0 =? 19778) then Ok (false, im) else
  let w := bmp_width l in let h := bmp_height l in let b := bmp_bits l in
  do im <- im_resize im w h (Z.shiftr b 3);
  if b =? 32 then (do im <- read32 im w h (Z.shiftr b 3) f; Ok (true, im))
  else if b =? 24 then (do im <- read24 im w h (Z.shiftr b 3) f; Ok (true, im))
  else if b =? 8 then (do im <- read8 im w h f; Ok (true, im))
  else Ok (false, im).
Proof.
  assert (posn l 0 (is_open l)) as H0 by (left; cbn; repeat split; apply vsize_nonneg).
  destruct (read_int2 l 0 _ ltac:(lia) H0) as [f1 [E1 H1]]. cbn in H1.
  pose proof (posn_skip l 2 _ 4 ltac:(lia) ltac:(lia) H1) as H2. cbn in H2.
  pose proof (posn_skip l 6 _ 2 ltac:(lia) ltac:(lia) H2) as H3. cbn in H3.
  pose proof (posn_skip l 8 _ 2 ltac:(lia) ltac:(lia) H3) as H4. cbn in H4.
  pose proof (posn_skip l 10 _ 4 ltac:(lia) ltac:(lia) H4) as H5. cbn in H5.
  pose proof (posn_skip l 14 _ 4 ltac:(lia) ltac:(lia) H5) as H6. cbn in H6.
  destruct (read_int4 l 18 _ ltac:(lia) H6) as [f2 [E2 H7]]. cbn in H7.
  destruct (read_int4 l 22 _ ltac:(lia) H7) as [f3 [E3 H8]]. cbn in H8.
  pose proof (posn_skip l 26 _ 2 ltac:(lia) ltac:(lia) H8) as H9. cbn in H9.
  destruct (read_int2 l 28 _ ltac:(lia) H9) as [f4 [E4 H10]]. cbn in H10.
  pose proof (posn_skip l 30 _ 4 ltac:(lia) ltac:(lia) H10) as K1. cbn in K1.
  pose proof (posn_skip l 34 _ 4 ltac:(lia) ltac:(lia) K1) as K2. cbn in K2.
  pose proof (posn_skip l 38 _ 4 ltac:(lia) ltac:(lia) K2) as K3. cbn in K3.
  pose proof (posn_skip l 42 _ 4 ltac:(lia) ltac:(lia) K3) as K4. cbn in K4.
  pose proof (posn_skip l 46 _ 4 ltac:(lia) ltac:(lia) K4) as K5. cbn in K5.
  pose proof (posn_skip l 50 _ 4 ltac:(lia) ltac:(lia) K5) as K6. cbn in K6.
  eexists. split; [exact K6|]. unfold bmp_read. rewrite E1. destruct (negb (field2 l 0 =? 19778)); [reflexivity|]. rewrite E2, E3, E4. reflexivity.
Qed.

(** ** Rows *)
Lemma swap_ok d a : 0 <= a -> a + 2 < vsize d -> exists d', swap_rb d a = Ok d' /\ vsize d' = vsize d /\
  forall j, 0 <= j -> byte d' j = if j =? a then byte d (a + 2) else if j =? a + 2 then byte d a else byte d j.
Proof.
  intros H1 H2. unfold swap_rb. rewrite !vget_byte by lia. cbn [bind].
  destruct (vset_byte d (a + 2) (byte d a) ltac:(lia)) as [d1 [E1 [S1 B1]]]. rewrite E1. cbn [bind]. destruct (vset_byte d1 a (byte d (a + 2)) ltac:(lia)) as [d2 [E2 [S2 B2]]]. exists d2. split; [exact E2|]. split; [lia|].
  intros j Hj. rewrite B2, B1 by lia. reflexivity.
Qed.
Lemma swap_row d a q w : 3 <= q -> 0 <= w -> 0 <= a -> a + q * w <= vsize d -> exists d', for_ 0 w (fun c d => swap_rb d (a + q * c)) d = Ok d' /\ vsize d' = vsize d /\
  (forall c r, 0 <= c < w -> 0 <= r < q -> byte d' (a + q * c + r) = byte d (a + q * c + rb r)) /\ (forall j, 0 <= j -> j < a \/ a + q * w <= j -> byte d' j = byte d j).
Proof.
  intros Q W A L.
  edestruct (for_inv (fun k d' => vsize d' = vsize d /\ (forall c r, 0 <= c < w -> 0 <= r < q -> byte d' (a + q * c + r) = byte d (a + q * c + if c <? k then rb r else r)) /\ (forall j, 0 <= j -> j < a \/ a + q * w <= j -> byte d' j = byte d j)) 0 w (fun c d => swap_rb d (a + q * c)) d) as [d' [E [S [K1 K2]]]].
  - exact W.
  - split; [reflexivity|]. split; [|reflexivity]. intros c r Hc Hr. destruct (Z.ltb_spec c 0); [lia|reflexivity].
  - intros k dk Hk [S [K1 K2]]. destruct (swap_ok dk (a + q * k)) as [d' [E [S' B]]]; [nia|rewrite S; nia|]. exists d'. split; [exact E|]. split; [lia|]. split.
    + intros c r Hc Hr. assert (0 <= a + q * c + r) as P by nia. rewrite (B _ P).
      destruct (Z.eq_dec c k) as [->|NE].
      * destruct (Z.ltb_spec k (k + 1)); [|lia]. unfold rb. destruct (Z.eqb_spec (a + q * k + r) (a + q * k)).
        { assert (r = 0) as -> by lia. cbn [Z.eqb]. rewrite (K1 k 2) by lia. rewrite Z.ltb_irrefl. reflexivity. }
        destruct (Z.eqb_spec (a + q * k + r) (a + q * k + 2)).
        { assert (r = 2) as -> by lia. cbn. replace (a + q * k) with (a + q * k + 0) at 1 by lia. rewrite (K1 k 0) by lia. rewrite Z.ltb_irrefl. reflexivity. }
        rewrite (K1 k r) by lia. rewrite Z.ltb_irrefl. destruct (Z.eqb_spec r 0); [lia|]. destruct (Z.eqb_spec r 2); [lia|]. reflexivity.
      * assert (a + q * c + r <> a + q * k /\ a + q * c + r <> a + q * k + 2) as [N1 N2] by (split; intros EQ; apply NE; nia).
        destruct (Z.eqb_spec (a + q * c + r) (a + q * k)); [tauto|]. destruct (Z.eqb_spec (a + q * c + r) (a + q * k + 2)); [tauto|]. rewrite K1 by assumption.
        destruct (Z.ltb_spec c k), (Z.ltb_spec c (k + 1)); try reflexivity; lia.
    + intros j Hj Hout. rewrite B by exact Hj. assert (a + q * k + q <= a + q * w) as LE by nia. assert (a <= a + q * k) by nia. destruct (Z.eqb_spec j (a + q * k)); [lia|]. destruct (Z.eqb_spec j (a + q * k + 2)); [lia|]. apply K2; assumption.
  - exists d'. split; [exact E|]. split; [exact S|]. split; [|exact K2]. intros c r Hc Hr. rewrite K1 by assumption. destruct (Z.ltb_spec c w); [reflexivity|lia].
Qed.
Lemma rb_range q r : 3 <= q -> 0 <= r < q -> 0 <= rb r < q.
Proof. intros Q H. unfold rb. destruct (Z.eqb_spec r 0); [lia|]. destruct (Z.eqb_spec r 2); lia. Qed.

(** What is in a row after the bytes [got] were read over it: the bytes read, then the old content. *)
Definition over (im : Image) (got : list Z) (y i : Z) : Z :=
  if i <? vsize got then byte got i else byte (im_data im) (im_p im * im_w im * y + i).
(** After k rows from the bottom. *)
Definition rows_done (im : Image) (got : Z -> list Z) (s : Z -> Z) (k : Z) (imk : Image) : Prop :=
  wfi imk /\ same_size im imk /\
  forall x y p, inside im x y p -> im_get imk x y p = if im_h im - 1 - y <? k then Ok (over im (got (im_h im - 1 - y)) y (im_p im * x + s p)) else im_get im x y p.

Lemma rows_start im got s : wfi im -> rows_done im got s 0 im.
Proof. intros W. split; [exact W|]. split; [repeat split|]. intros x y p [X [Y P]]. destruct (Z.ltb_spec (im_h im - 1 - y) 0); [lia|reflexivity]. Qed.
Lemma rows_step im got s k imk d : wfi im -> 0 <= k < im_h im -> rows_done im got s k imk -> vsize d = vsize (im_data imk) -> bytes_ok d ->
  (forall x p, 0 <= x < im_w im -> 0 <= p < im_p im -> byte d (p + im_p im * im_w im * (im_h im - 1 - k) + x * im_p im) = over im (got k) (im_h im - 1 - k) (im_p im * x + s p)) ->
  (forall j, 0 <= j -> j < im_p im * im_w im * (im_h im - 1 - k) \/ im_p im * im_w im * (im_h im - 1 - k) + im_p im * im_w im <= j -> byte d j = byte (im_data imk) j) ->
  rows_done im got s (k + 1) (with_data imk d).
Proof.
  intros W Hk [Wk [Sk Gk]] Sd OK B1 B2. pose proof Wk as [W1 [W2 [W3 [W4 W5]]]]. pose proof Sk as [S1 [S2 S3]].
  assert (wfi (with_data imk d)) as W'. { unfold wfi, with_data. cbn. do 3 (split; [assumption|]). split; [lia|]. split; [exact OK|apply W5]. }
  split; [exact W'|]. split; [exact Sk|]. intros x y p I. rewrite im_get_ok; [|exact W'|unfold inside, with_data in *; cbn; lia]. unfold with_data. cbn [im_w im_p im_data]. rewrite S1, S3.
  destruct I as [X [Y P]]. destruct (Z.eq_dec (im_h im - 1 - y) k) as [E|NE].
  - destruct (Z.ltb_spec (im_h im - 1 - y) (k + 1)); [|lia]. assert (y = im_h im - 1 - k) as -> by lia. rewrite B1 by assumption. replace (im_h im - 1 - (im_h im - 1 - k)) with k by lia. reflexivity.
  - rewrite B2.
    + specialize (Gk x y p ltac:(unfold inside; lia)). rewrite im_get_ok in Gk; [|exact Wk|unfold inside; lia]. rewrite S1, S3 in Gk. rewrite Gk. destruct (Z.ltb_spec (im_h im - 1 - y) k), (Z.ltb_spec (im_h im - 1 - y) (k + 1)); try reflexivity; lia.
    + pose proof (addr_range _ _ _ _ _ _ X Y P). lia.
    + assert (0 <= im_p im * im_w im) by (apply Z.mul_nonneg_nonneg; lia). assert (0 <= p + x * im_p im < im_p im * im_w im) by nia.
      destruct (Z_lt_dec y (im_h im - 1 - k)).
      * left. assert (im_p im * im_w im * (y + 1) <= im_p im * im_w im * (im_h im - 1 - k)) by (apply Z.mul_le_mono_nonneg_l; lia). lia.
      * right. assert (im_p im * im_w im * (im_h im - 1 - k + 1) <= im_p im * im_w im * y) by (apply Z.mul_le_mono_nonneg_l; lia). lia.
Qed.
(** The bytes of a row that was not visited yet are those of the original image. *)
Lemma rows_old im got s k imk : wfi im -> 0 <= k < im_h im -> rows_done im got s k imk -> forall i, 0 <= i < im_p im * im_w im ->
  byte (im_data imk) (im_p im * im_w im * (im_h im - 1 - k) + i) = byte (im_data im) (im_p im * im_w im * (im_h im - 1 - k) + i).
Proof.
  intros W Hk [Wk [[S1 [S2 S3]] Gk]] i Hi. assert (0 < im_p im) as HP by (destruct W as [? [? [? _]]]; nia).
  pose proof (Z.div_mod i (im_p im) ltac:(lia)) as DM. pose proof (Z.mod_pos_bound i (im_p im) HP) as MB. assert (0 <= i / im_p im < im_w im) as DB by (split; [apply Z.div_pos; lia|apply Z.div_lt_upper_bound; lia]).
  assert (inside im (i / im_p im) (im_h im - 1 - k) (i mod im_p im)) as I by (unfold inside; lia).
  specialize (Gk _ _ _ I). rewrite !im_get_ok in Gk; [|exact W|exact I|exact Wk|unfold inside in *; lia]. replace (im_h im - 1 - (im_h im - 1 - k)) with k in Gk by lia. rewrite Z.ltb_irrefl in Gk. injection Gk as Gk. rewrite S1, S3 in Gk.
  replace (im_p im * im_w im * (im_h im - 1 - k) + i) with (i mod im_p im + im_p im * im_w im * (im_h im - 1 - k) + i / im_p im * im_p im) by lia. exact Gk.
Qed.

Section OneRow.
Variables (im : Image) (got : Z -> list Z) (s : Z -> Z) (k : Z) (imk : Image).
Hypotheses (W : wfi im) (Hk : 0 <= k < im_h im) (HW : 0 < im_w im) (HP : 0 < im_p im) (RD : rows_done im got s k imk) (GS : vsize (got k) <= im_w im * im_p im) (GO : bytes_ok (got k)).
Let a := im_p im * im_w im * (im_h im - 1 - k).

Lemma row_bounds : 0 <= a /\ a + im_w im * im_p im <= vsize (im_data imk).
Proof.
  destruct RD as [[_ [_ [_ [S _]]]] [[S1 [S2 S3]] _]]. rewrite S, S1, S2, S3. unfold a. assert (0 <= im_p im * im_w im) by (apply Z.mul_nonneg_nonneg; lia). split; [apply Z.mul_nonneg_nonneg; lia|].
  assert (im_p im * im_w im * (im_h im - 1 - k + 1) <= im_p im * im_w im * im_h im) by (apply Z.mul_le_mono_nonneg_l; lia). lia.
Qed.
Lemma row_addr : im_addr imk 0 (im_h im - 1 - k) 0 = Ok a.
Proof. destruct RD as [Wk [[S1 [S2 S3]] _]]. rewrite im_addr_ok by (first [apply wf_addr; exact Wk | unfold inside; lia]). f_equal. unfold a. rewrite S1, S3. ring. Qed.
Let d := put_bytes (im_data imk) a (got k).
Lemma row_put : vsize d = vsize (im_data imk) /\ bytes_ok d /\ (forall i, 0 <= i < im_p im * im_w im -> byte d (a + i) = over im (got k) (im_h im - 1 - k) i) /\
  (forall j, 0 <= j -> j < a \/ a + im_p im * im_w im <= j -> byte d j = byte (im_data imk) j).
Proof.
  destruct row_bounds as [A0 A1]. pose proof (vsize_nonneg (got k)) as G0. assert (vsize d = vsize (im_data imk)) as S by (apply put_bytes_size; lia). split; [exact S|].
  assert (bytes_ok (im_data imk)) as OK by (destruct RD as [[_ [_ [_ [_ [OK _]]]]] _]; exact OK). split; [|split].
  - apply bytes_ok_nth. intros i Hi. unfold d. rewrite put_bytes_byte by lia. destruct (_ && _); apply byte_ok; assumption.
  - intros i Hi. unfold d. rewrite put_bytes_byte by lia. unfold over. destruct (Z.leb_spec a (a + i)); [|lia]. cbn [andb]. destruct (Z.ltb_spec i (vsize (got k))), (Z.ltb_spec (a + i) (a + vsize (got k))); try lia.
    + f_equal. lia.
    + apply (rows_old im got s k imk W Hk RD). exact Hi.
  - intros j Hj H. unfold d. rewrite put_bytes_byte by lia. destruct (Z.leb_spec a j); [|reflexivity]. destruct (Z.ltb_spec j (a + vsize (got k))); [lia|]. reflexivity.
Qed.
Lemma row_plain : (forall p, s p = p) -> rows_done im got s (k + 1) (with_data imk d).
Proof.
  intros Hs. destruct row_put as [S [OK [B1 B2]]]. apply rows_step; auto. intros x p Hx Hp. rewrite Hs, <- B1.
  - f_equal. unfold a. ring.
  - assert (0 <= p + x * im_p im < im_p im * im_w im) by nia. lia.
Qed.
Lemma row_swapped q : im_p im = q -> 3 <= q -> (forall p, s p = rb p) -> exists d', for_ 0 (im_w im) (fun c d => swap_rb d (a + q * c)) d = Ok d' /\ rows_done im got s (k + 1) (with_data imk d').
Proof.
  intros Eq Q Hs. destruct row_put as [S [OK [B1 B2]]]. destruct row_bounds as [A0 A1].
  destruct (swap_row d a q (im_w im) Q ltac:(lia) A0) as [d' [E [S' [C1 C2]]]]; [rewrite S; nia|]. exists d'. split; [exact E|].
  assert (forall x p, 0 <= x < im_w im -> 0 <= p < q -> byte d' (a + q * x + p) = over im (got k) (im_h im - 1 - k) (im_p im * x + s p)) as K.
  { intros x p Hx Hp. rewrite C1 by assumption. rewrite Hs, <- B1; [f_equal; lia|]. pose proof (rb_range q p Q Hp). rewrite Eq. nia. }
  apply rows_step; auto.
  - lia.
  - apply bytes_ok_nth. intros j Hj. destruct (Z_lt_dec j a) as [L|L]; [rewrite C2 by lia; apply byte_ok, OK|]. destruct (Z_le_dec (a + q * im_w im) j) as [L'|L']; [rewrite C2 by lia; apply byte_ok, OK|].
    pose proof (Z.div_mod (j - a) q ltac:(lia)) as DM. pose proof (Z.mod_pos_bound (j - a) q ltac:(lia)) as MB. assert (0 <= (j - a) / q < im_w im) as DB by (split; [apply Z.div_pos; lia|apply Z.div_lt_upper_bound; lia]).
    replace j with (a + q * ((j - a) / q) + (j - a) mod q) by lia. rewrite C1 by assumption. apply byte_ok, OK.
  - intros x p Hx Hp. rewrite <- K by lia. f_equal. unfold a. rewrite Eq. ring.
  - intros j Hj H. fold a in H. rewrite C2; [|exact Hj|rewrite <- Eq; lia]. apply B2; [exact Hj|exact H].
Qed.
End OneRow.
