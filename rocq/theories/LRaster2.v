(** Filled triangles. *)
From Coq Require Import ZArith List Bool Reals Lia Lra Psatz.
From Verif Require Import Base Num MGeometry MKernel MMesh MTransform MRender SMesh SReach SGeom SRender SRaster LBase LGeom LRender LRender2 LRender3 LRender5 LRender6 LRaster.
Import ListNotations.
Open Scope Z_scope.
#[local] Existing Instance exact_flt.

Lemma project_int (c : Camera R) p x y w : project c p = Ok (x, y, w) -> int_min <= x <= int_max /\ int_min <= y <= int_max.
Proof.
  intros E. destruct (project_w c p x y w E) as [D _]. rewrite project_R in E by exact D.
  assert (forall (v : R) z, ntrunc v = Ok z -> int_min <= z <= int_max) as T.
  { intros v z. cbn. destruct (_ && _) eqn:B; [|discriminate]. intros H. injection H as <-. apply andb_true_iff in B as [B1 B2]. apply Z.leb_le in B1, B2. lia. }
  destruct (ntrunc _) as [sx|] eqn:E1 in E; [|discriminate]. cbn [bind] in E. destruct (ntrunc _) as [sy|] eqn:E2 in E; [|discriminate]. cbn [bind] in E. injection E as <- <- _.
  split; eapply T; eassumption.
Qed.
Definition perm3 {A} (a b c a' b' c' : A) : Prop :=
  (a', b', c') = (a, b, c) \/ (a', b', c') = (a, c, b) \/ (a', b', c') = (b, a, c) \/ (a', b', c') = (b, c, a) \/ (a', b', c') = (c, a, b) \/ (a', b', c') = (c, b, a).
Definition hy (a : Z * Z * R) : Z := snd (fst a).
Lemma sort_y_spec (a b c : Z * Z * R) : exists a' b' c', sort_y a b c = (a', b', c') /\ perm3 a b c a' b' c' /\ hy a' <= hy b' <= hy c'.
Proof.
  destruct a as [[ax ay] aw], b as [[bx by_] bw], c as [[cx cy] cw]. unfold sort_y.
  destruct (Z.leb_spec by_ ay); destruct (Z.leb_spec by_ cy); destruct (Z.leb_spec cy ay); destruct (Z.leb_spec cy by_); cbn [andb fst snd];
    match goal with |- context [?u <? ?v] => destruct (Z.ltb_spec u v) end; do 3 eexists; (split; [reflexivity|]); unfold perm3, hy; cbn [fst snd]; (split; [tauto|lia]).
Qed.

Definition trap (Y : Z) (l1 h1 : R) (y1 : Z) (l2 h2 : R) (y2 : Z) (x y : Z) : Prop :=
  y1 <= y < y2 /\ y < Y - 1 /\ rnd (lin l1 l2 y1 y2 y) <= x <= rnd (lin h1 h2 y1 y2 y).
(** Where the long edge is at the height of the middle corner. *)
Definition mid (a b c : Z * Z * R) : R := if hy c =? hy a then IZR (fst (fst a)) else lin (IZR (fst (fst a))) (IZR (fst (fst c))) (hy a) (hy c) (hy b).
Definition tri_px (Y : Z) (a b c : Z * Z * R) (x y : Z) : Prop :=
  let d := rnd (mid a b c) in let bx := fst (fst b) in
  let by' := if d <? bx then rnd (IZR (hy b)) else hy b in
  let l := IZR (Z.min bx d) in let h := IZR (Z.max bx d) in
  trap Y (IZR (fst (fst a))) (IZR (fst (fst a))) (hy a) l h by' x y \/ trap Y l h by' (IZR (fst (fst c))) (IZR (fst (fst c))) (hy c) x y.

Section Tri.
Variables X Y : Z.
Hypothesis X1 : 1 <= X.
Hypothesis Y1 : 1 <= Y.

Lemma lin_between (lo hi : R) a b ay cy y : (lo <= a <= hi)%R -> (lo <= b <= hi)%R -> ay <= y <= cy -> ay < cy -> (lo <= lin a b ay cy y <= hi)%R.
Proof.
  intros A B H L. assert (0 < IZR (cy - ay))%R as D by (apply IZR_lt; lia). assert (0 <= IZR (y - ay) / IZR (cy - ay) <= 1)%R as T by (apply frac01; [split; apply IZR_le; lia|exact D]).
  set (t := (IZR (y - ay) / IZR (cy - ay))%R) in *. replace (lin a b ay cy y) with (b * t + a * (1 - t))%R; [apply convex; assumption|].
  unfold lin, t. rewrite !minus_IZR in *. field. lra.
Qed.

Lemma triangle_cover r A B C color two a b c n col : framed r X Y ->
  project (rd_cam r) A = Ok a -> project (rd_cam r) B = Ok b -> project (rd_cam r) C = Ok c ->
  (two = true \/ 0 < turn (fst a) (fst b) (fst c)) -> ~ outside X Y (fst a) (fst b) (fst c) -> spans_int (fst a) (fst b) (fst c) ->
  tri_normal (mkTri A B C) = Ok n -> compute_color (rd_lights r) color n = Ok col ->
  exists s a' b' c', perm3 a b c a' b' c' /\ hy a' <= hy b' <= hy c' /\ draw_triangle r A B C color two = Ok (s, true) /\
    cover X Y (low3 (snd a) (snd b) (snd c)) (high3 (snd a) (snd b) (snd c)) col (tri_px Y a' b' c') r (Ok s).
Proof.
  intros F EA EB EC CULL OUT SP EN ECO. destruct a as [[ax ay] aw], b as [[bx by_] bw], c as [[cx cy] cw].
  destruct (project_int _ _ _ _ _ EA) as [IA1 IA2]. destruct (project_int _ _ _ _ _ EB) as [IB1 IB2]. destruct (project_int _ _ _ _ _ EC) as [IC1 IC2].
  unfold draw_triangle. rewrite EA, EB, EC. cbn [bind]. cbv zeta.
  assert (pz (cross (mkP (nofZ (ax - bx)) (nofZ (ay - by_)) n0) (mkP (nofZ (ax - cx)) (nofZ (ay - cy)) n0)) = IZR (turn (ax, ay) (bx, by_) (cx, cy)))%R as ET.
  { unfold turn, cross. cbn. rewrite !minus_IZR, !mult_IZR, !minus_IZR. ring. }
  cbn [fst snd] in CULL, OUT |- *. unfold spans_int, bottom3, top3 in SP. cbn [fst snd] in SP. destruct SP as [SPx SPy].
  rewrite !iint_ok by (unfold int_min, int_max in *; lia). cbn [bind]. rewrite ET.
  replace (if two then Ok false else Ok (nleb (IZR (turn (ax, ay) (bx, by_) (cx, cy))) n0)) with (Ok false).
  2: { destruct CULL as [->|CULL]; [reflexivity|]. destruct two; [reflexivity|]. f_equal. symmetry. apply Rleb_gt. apply IZR_lt. exact CULL. }
  cbn [bind].
  unfold outside, bottom3, top3 in OUT. cbn [fst snd] in OUT. destruct (F) as (EX & EY & _). rewrite EX, EY.
  replace ((ax <=? 0) && (bx <=? 0) && (cx <=? 0)) with false. 2: { symmetry. destruct (Z.leb_spec ax 0), (Z.leb_spec bx 0), (Z.leb_spec cx 0); cbn; try reflexivity. lia. }
  replace ((ay <=? 0) && (by_ <=? 0) && (cy <=? 0)) with false. 2: { symmetry. destruct (Z.leb_spec ay 0), (Z.leb_spec by_ 0), (Z.leb_spec cy 0); cbn; try reflexivity. lia. }
  replace ((X <=? ax) && (X <=? bx) && (X <=? cx)) with false. 2: { symmetry. destruct (Z.leb_spec X ax), (Z.leb_spec X bx), (Z.leb_spec X cx); cbn; try reflexivity. lia. }
  replace ((Y <=? ay) && (Y <=? by_) && (Y <=? cy)) with false. 2: { symmetry. destruct (Z.leb_spec Y ay), (Z.leb_spec Y by_), (Z.leb_spec Y cy); cbn; try reflexivity. lia. }
  destruct (sort_y_spec (ax, ay, aw) (bx, by_, bw) (cx, cy, cw)) as (a' & b' & c' & -> & PE & SO).
  set (LO := low3 aw bw cw). set (HI := high3 aw bw cw).
  set (XL := Z.min ax (Z.min bx cx)) in *. set (XH := Z.max ax (Z.max bx cx)) in *. set (YL := Z.min ay (Z.min by_ cy)) in *. set (YH := Z.max ay (Z.max by_ cy)) in *.
  assert (int_min <= XL /\ 0 < XH <= int_max /\ int_min <= YL /\ YH <= int_max) as (LX & GX & LY & GY) by (unfold XL, XH, YL, YH; lia).
  assert (forall q, q = a' \/ q = b' \/ q = c' -> XL <= fst (fst q) <= XH /\ YL <= hy q <= YH /\ int_min <= hy q <= int_max /\ (LO <= snd q <= HI)%R) as IN.
  { assert (LO <= aw <= HI /\ LO <= bw <= HI /\ LO <= cw <= HI)%R as (W1 & W2 & W3).
    { unfold LO, HI, low3, high3. pose proof (Rmin_l aw (Rmin bw cw)). pose proof (Rmin_r aw (Rmin bw cw)). pose proof (Rmin_l bw cw). pose proof (Rmin_r bw cw).
      pose proof (Rmax_l aw (Rmax bw cw)). pose proof (Rmax_r aw (Rmax bw cw)). pose proof (Rmax_l bw cw). pose proof (Rmax_r bw cw). lra. }
    unfold hy. destruct PE as [E|[E|[E|[E|[E|E]]]]]; injection E as -> -> ->; intros q [-> | [-> | ->] ]; cbn [fst snd]; unfold XL, XH, YL, YH; (split; [lia|]); (split; [lia|]); auto. }
  assert (0 < hy c' /\ hy a' < Y) as [CP AP].
  { unfold hy in *. destruct PE as [E|[E|[E|[E|[E|E]]]]]; injection E as -> -> ->; cbn [fst snd] in *; lia. }
  destruct (IN a' (or_introl eq_refl)) as (Ax & Ya & Ay & Aw). destruct (IN b' (or_intror (or_introl eq_refl))) as (Bx & Yb & By & Bw). destruct (IN c' (or_intror (or_intror eq_refl))) as (Cx & Yc & Cy & Cw). clear IN.
  pose (s0 := (a', b', c')). assert (perm3 (ax, ay, aw) (bx, by_, bw) (cx, cy, cw) a' b' c' /\ hy a' <= hy b' <= hy c') as PS by (split; assumption). clear PE. clear s0.
  cut (exists s, (let '(ax, ay, aw) := a' in let '(bx, by_, bw) := b' in let '(cx, cy, cw) := c' in
      do t <- (if negb (cy =? ay) then do aby <- iint (by_ - ay); do acy <- iint (cy - ay); ndiv (nofZ aby) (nofZ acy) else Ok n0);
      do _ <- unit_t t;
      do dx <- ntrunc (nofZ cx * t + (n1 - t) * nofZ ax + nlit 1 2)%num;
      do dy <- ntrunc (nofZ cy * t + (n1 - t) * nofZ ay + nlit 1 2)%num;
      let dw := mix cw aw t in
      let '(bx, by_, bw, dx, dw) := if dx <? bx then (dx, dy, dw, bx, bw) else (bx, by_, bw, dx, dw) in
      do _ <- massert (bx <=? dx); do _ <- massert (ay <=? by_); do _ <- massert (by_ <=? cy);
      do normal <- tri_normal (mkTri A B C);
      do col <- compute_color (rd_lights r) color normal;
      do r1 <- draw_trapeze r (nofZ ax) aw (nofZ ax) aw ay (nofZ bx) bw (nofZ dx) dw by_ col;
      do r2 <- draw_trapeze (fst r1) (nofZ bx) bw (nofZ dx) dw by_ (nofZ cx) cw (nofZ cx) cw cy col;
      Ok (fst r2, snd r1 || snd r2)) = Ok (s, true) /\ cover X Y LO HI col (tri_px Y a' b' c') r (Ok s)).
  { intros (s & E & CO). exists s, a', b', c'. split; [apply PS|]. split; [apply PS|]. split; [exact E|exact CO]. }
  clear PS. destruct a' as [[ax' ay'] aw'], b' as [[bx' by'] bw'], c' as [[cx' cy'] cw']. unfold hy in *. cbn [fst snd] in *.
  clearbody XL XH YL YH. clear CULL OUT IA1 IA2 IB1 IB2 IC1 IC2 ET EA EB EC. rename ax' into xa, ay' into ya, bx' into xb, by' into yb, cx' into xc, cy' into yc, aw' into wa, bw' into wb, cw' into wc. clear ax ay bx by_ cx cy.
  match goal with |- exists s, bind ?e _ = _ /\ _ => assert (exists t, e = Ok t /\ (0 <= t <= 1)%R /\ (IZR xc * t + (1 - t) * IZR xa = mid (xa, ya, wa) (xb, yb, wb) (xc, yc, wc))%R /\ (IZR yc * t + (1 - t) * IZR ya = IZR yb)%R) as (t & -> & T & M & H) end.
  { unfold mid, hy. cbn [fst snd]. destruct (Z.eqb_spec yc ya) as [E|E]; cbn [negb].
    - exists 0%R. split; [reflexivity|]. split; [lra|]. split; [lra|]. assert (yb = ya) as -> by lia. rewrite E. lra.
    - rewrite !iint_ok by (unfold int_min, int_max in *; lia). cbn [bind]. change (nofZ (yb - ya)) with (IZR (yb - ya)). change (nofZ (yc - ya)) with (IZR (yc - ya)). assert (0 < IZR (yc - ya))%R as D by (apply IZR_lt; lia). rewrite div_R by lra.
      eexists. split; [reflexivity|]. split; [apply frac01; [split; apply IZR_le; lia|exact D]|]. unfold lin. rewrite !minus_IZR in *. split; field; lra. }
  cbn [bind]. rewrite (unit_ok t T). cbn [bind]. change (nofZ ?z) with (IZR z).
  change (nadd (nmul (IZR xc) t) (nmul (nsub n1 t) (IZR xa))) with (IZR xc * t + (1 - t) * IZR xa)%R. change (nadd (nmul (IZR yc) t) (nmul (nsub n1 t) (IZR ya))) with (IZR yc * t + (1 - t) * IZR ya)%R. rewrite M, H.
  set (m := mid _ _ _) in *. assert (IZR XL <= IZR xa <= IZR XH /\ IZR XL <= IZR xc <= IZR XH)%R as [RA RC] by (split; split; apply IZR_le; lia).
  assert (IZR XL <= m <= IZR XH)%R as RM by (rewrite <- M, (Rmult_comm (1 - t)); apply convex; assumption).
  destruct (rnd_between m XL XH ltac:(lia) ltac:(lia) RM) as [-> RDm]. destruct (rnd_between (IZR yb) yb yb ltac:(lia) ltac:(lia) ltac:(lra)) as [-> RDy]. cbn [bind].
  set (d := rnd m) in *. assert (LO <= mix wc wa t <= HI)%R as Dw by (unfold mix; cbn; rewrite (Rmult_comm (1 - t)); apply convex; assumption).
  set (y' := if d <? xb then rnd (IZR yb) else yb).
  assert (ya <= y' <= yc) as Hy' by (unfold y'; destruct (d <? xb); lia).
  assert (exists wl wh, (if d <? xb then (d, rnd (IZR yb), mix wc wa t, xb, wb) else (xb, yb, wb, d, mix wc wa t)) = (Z.min xb d, y', wl, Z.max xb d, wh) /\ (LO <= wl <= HI)%R /\ (LO <= wh <= HI)%R) as (wl & wh & -> & WL & WH).
  { unfold y'. destruct (Z.ltb_spec d xb); [rewrite Z.min_r, Z.max_l by lia|rewrite Z.min_l, Z.max_r by lia]; do 2 eexists; (split; [reflexivity|split; assumption]). }
  rewrite (proj2 (Z.leb_le (Z.min xb d) (Z.max xb d))) by lia. rewrite (proj2 (Z.leb_le ya y')) by lia. rewrite (proj2 (Z.leb_le y' yc)) by lia. cbn [massert bind]. rewrite EN. cbn [bind]. rewrite ECO. cbn [bind].
  change (nofZ ?z) with (IZR z). set (l := IZR (Z.min xb d)). set (h := IZR (Z.max xb d)).
  assert (l <= h)%R as LH by (apply IZR_le; lia). assert (inint XL XH l /\ inint XL XH h /\ inint XL XH (IZR xa) /\ inint XL XH (IZR xc)) as (Il & Ih & Ia & Ic) by (unfold inint, l, h; repeat split; apply IZR_le; unfold int_max in *; lia).
  assert (ok X Y (settings r) r) as O by (split; [exact F|reflexivity]).
  destruct (cover_trapeze X Y X1 Y1 (settings r) LO HI col XL XH LX ltac:(lia) SPx r (IZR xa) wa (IZR xa) wa ya l wl h wh y') as (s1 & -> & C1); try assumption; [lra|lia|lia|]. cbn [bind fst snd].
  assert (ok X Y (settings r) s1) as O1. { destruct (cover_ok _ _ _ _ _ _ _ _ _ O C1) as (s' & E & O'). injection E as <-. exact O'. }
  destruct (cover_trapeze X Y X1 Y1 (settings r) LO HI col XL XH LX ltac:(lia) SPx s1 l wl h wh y' (IZR xc) wc (IZR xc) wc yc) as (s2 & -> & C2); try assumption; [lra|lia|lia|]. cbn [bind fst snd].
  exists s2. split.
  - f_equal. f_equal. destruct (Z.ltb_spec y' 0), (Z.leb_spec Y ya), (Z.ltb_spec yc 0), (Z.leb_spec Y y'); cbn; try reflexivity; lia.
  - eapply cover_weak; [exact (cover_seq _ _ _ _ _ _ _ _ _ _ C1 C2)|]. intros x y _ _. reflexivity.
Qed.

(** ** The section of a triangle at a given height *)
Lemma in_tri2_perm a b c a' b' c' u v : perm3 a b c a' b' c' -> in_tri2 a' b' c' u v -> in_tri2 a b c u v.
Proof.
  intros P (p & q & r & A & B & C & D & E & F).
  destruct P as [H|[H|[H|[H|[H|H]]]]]; injection H as -> -> ->.
  - exists p, q, r. repeat split; lra. - exists p, r, q. repeat split; lra. - exists q, p, r. repeat split; lra.
  - exists r, p, q. repeat split; lra. - exists q, r, p. repeat split; lra. - exists r, q, p. repeat split; lra.
Qed.
(** A wedge with apex [a]: between the two edges. *)
Lemma wedge (ax ay bx by_ cx cy u v be ga : R) : (0 < (by_ - ay) * (cy - ay) -> 0 <= be <= 1 -> 0 <= ga <= 1 -> be * (by_ - ay) = v - ay -> ga * (cy - ay) = v - ay ->
  let xb := ax + (bx - ax) * be in let xc := ax + (cx - ax) * ga in
  (Rmin xb xc <= u <= Rmax xb xc <-> exists p q r, 0 <= p /\ 0 <= q /\ 0 <= r /\ p + q + r = 1 /\ u = p * ax + q * bx + r * cx /\ v = p * ay + q * by_ + r * cy))%R.
Proof.
  intros S Hb Hc Eb Ec xb xc. split.
  - intros H. assert (exists s, 0 <= s <= 1 /\ u = (1 - s) * xb + s * xc)%R as (s & Hs & ->).
    { destruct (Req_dec xb xc) as [E|E]; [exists 0%R; split; [lra|]; rewrite E, Rmin_left, Rmax_left in H by lra; lra|].
      exists ((u - xb) / (xc - xb))%R. split; [|field; lra]. destruct (Rlt_dec xb xc) as [L|L].
      - rewrite Rmin_left, Rmax_right in H by lra. apply frac01; lra.
      - rewrite Rmin_right, Rmax_left in H by lra. replace ((u - xb) / (xc - xb))%R with ((xb - u) / (xb - xc))%R by (field; lra). apply frac01; lra. }
    exists (1 - (1 - s) * be - s * ga)%R, ((1 - s) * be)%R, (s * ga)%R. assert (0 <= (1 - s) * be <= 1 - s)%R by nra. assert (0 <= s * ga <= s)%R by nra.
    split; [lra|]. split; [lra|]. split; [lra|]. split; [lra|]. split; [unfold xb, xc; ring|].
    replace v with (ay + ((1 - s) * (be * (by_ - ay)) + s * (ga * (cy - ay))))%R by (rewrite Eb, Ec; ring). ring.
  - intros (p & q & r & P & Q & R & SU & EU & EV). assert (v - ay = q * (by_ - ay) + r * (cy - ay))%R as EV' by (rewrite EV; replace p with (1 - q - r)%R by lra; ring).
    assert (u = ax + q * (bx - ax) + r * (cx - ax))%R as EU' by (rewrite EU; replace p with (1 - q - r)%R by lra; ring).
    assert (by_ - ay <> 0)%R as Nb by (intros E; rewrite E in S; lra). assert (cy - ay <> 0)%R as Nc by (intros E; rewrite E in S; lra).
    destruct (Req_dec (v - ay) 0) as [Z|Z].
    + assert (be = 0)%R as B0 by (rewrite Z in Eb; apply Rmult_integral in Eb as [E|E]; [exact E|contradiction]). assert (ga = 0)%R as C0 by (rewrite Z in Ec; apply Rmult_integral in Ec as [E|E]; [exact E|contradiction]).
      assert (q = 0 /\ r = 0)%R as [Q0 R0].
      { rewrite Z in EV'. assert (q * ((by_ - ay) * (by_ - ay)) + r * ((by_ - ay) * (cy - ay)) = 0)%R as E by (replace 0%R with ((by_ - ay) * 0)%R by ring; rewrite EV'; ring).
        assert (0 < (by_ - ay) * (by_ - ay))%R by nra. split; nra. }
      assert (u = ax)%R as -> by (rewrite EU', Q0, R0; ring). unfold xb, xc. rewrite B0, C0, !Rmult_0_r, Rplus_0_r, Rmin_left, Rmax_left by lra. lra.
    + assert (0 < be)%R as B0 by (destruct (Req_dec be 0) as [E|E]; [rewrite E in Eb; lra|lra]). assert (0 < ga)%R as C0 by (destruct (Req_dec ga 0) as [E|E]; [rewrite E in Ec; lra|lra]).
      assert (q / be + r / ga = 1)%R as SS.
      { apply (Rmult_eq_reg_r (v - ay)); [|exact Z]. rewrite Rmult_plus_distr_r. rewrite <- Eb at 1. rewrite <- Ec at 1. rewrite Rmult_1_l, EV'. field. lra. }
      assert (0 <= q / be)%R by (apply Rmult_le_pos; [exact Q|left; apply Rinv_0_lt_compat; exact B0]). assert (0 <= r / ga)%R by (apply Rmult_le_pos; [exact R|left; apply Rinv_0_lt_compat; exact C0]).
      assert (u = q / be * xb + r / ga * xc)%R as ->. { rewrite EU'. unfold xb, xc. replace (q / be * (ax + (bx - ax) * be) + r / ga * (ax + (cx - ax) * ga))%R with ((q / be + r / ga) * ax + q * (bx - ax) + r * (cx - ax))%R by (field; lra). rewrite SS. ring. }
      set (x := (q / be)%R) in *. set (z := (r / ga)%R) in *. replace z with (1 - x)%R by lra.
      pose proof (Rmin_l xb xc). pose proof (Rmin_r xb xc). pose proof (Rmax_l xb xc). pose proof (Rmax_r xb xc). nra.
Qed.
Lemma Rabs_le_inv' x k : (Rabs x <= k -> - k <= x <= k)%R.
Proof. intros H. unfold Rabs in H. destruct (Rcase_abs x); lra. Qed.
Lemma min_near b d m : (Rabs (d - m) <= 1 / 2 -> Rabs (Rmin b d - Rmin b m) <= 1 / 2 /\ Rabs (Rmax b d - Rmax b m) <= 1 / 2)%R.
Proof. intros H. unfold Rmin, Rmax. destruct (Rle_dec b d), (Rle_dec b m); unfold Rabs in *; repeat destruct (Rcase_abs _); lra. Qed.
(** One row: rounding the ends of the section. *)
Lemma row_near (e b m be : R) (d : Z) (x : Z) : (0 <= e -> 0 <= b -> 0 <= be <= 1 -> 0 <= m -> d = rnd m ->
  let l := e + (Rmin b (IZR d) - e) * be in let h := e + (Rmax b (IZR d) - e) * be in
  let l0 := e + (Rmin b m - e) * be in let h0 := e + (Rmax b m - e) * be in
  ((rnd l <= x <= rnd h)%Z -> exists u, Rabs (u - IZR x) <= 1 /\ l0 <= u <= h0) /\
  ((forall u, Rabs (u - IZR x) <= 1 -> l0 <= u <= h0) -> (rnd l <= x <= rnd h)%Z))%R.
Proof.
  intros He Hb Hbe Hm Ed l h l0 h0. pose proof (rnd_near m Hm) as [D1 D2]. rewrite <- Ed in D1, D2.
  destruct (min_near b (IZR d) m) as [N1 N2]; [unfold Rabs; destruct (Rcase_abs _); lra|].
  assert (0 <= IZR d)%R as Hd by (rewrite Ed; apply IZR_le; unfold rnd, Rtrunc; destruct (Rlt_dec _ 0); [lra|]; apply Int_part_le; lra).
  assert (0 <= l)%R as Hl. { unfold l. assert (0 <= Rmin b (IZR d))%R by (apply Rmin_glb; assumption). nra. }
  assert (0 <= h)%R as Hh. { unfold h. pose proof (Rmax_l b (IZR d)). nra. }
  assert (Rabs (l - l0) <= 1 / 2)%R as L. { replace (l - l0)%R with ((Rmin b (IZR d) - Rmin b m) * be)%R by (unfold l, l0; ring). rewrite Rabs_mult, (Rabs_right be) by lra. pose proof (Rabs_pos (Rmin b (IZR d) - Rmin b m)). nra. }
  assert (Rabs (h - h0) <= 1 / 2)%R as H. { replace (h - h0)%R with ((Rmax b (IZR d) - Rmax b m) * be)%R by (unfold h, h0; ring). rewrite Rabs_mult, (Rabs_right be) by lra. pose proof (Rabs_pos (Rmax b (IZR d) - Rmax b m)). nra. }
  assert (l0 <= h0)%R as LH. { unfold l0, h0. pose proof (Rmin_l b m). pose proof (Rmax_l b m). nra. }
  pose proof (rnd_near l Hl) as [Pl1 Pl2]. pose proof (rnd_near h Hh) as [Ph1 Ph2]. apply Rabs_le_inv' in L, H. split.
  - intros [A B]. apply IZR_le in A, B. destruct (Rlt_dec (IZR x) l0) as [C|C]; [exists l0; split; [rewrite Rabs_right; lra|lra]|].
    destruct (Rlt_dec h0 (IZR x)) as [C'|C']; [exists h0; split; [rewrite Rabs_left; lra|lra]|]. exists (IZR x). split; [rewrite Rminus_diag_eq, Rabs_R0; lra|lra].
  - intros A. destruct (A (IZR x - 1)%R) as [A1 _]; [rewrite Rabs_left; lra|]. destruct (A (IZR x + 1)%R) as [_ A2]; [rewrite Rabs_right; lra|].
    split; [apply le_IZR; lra|]. apply Z.lt_succ_r. apply lt_IZR. unfold Z.succ. rewrite plus_IZR. lra.
Qed.
Lemma IZR_min a b : IZR (Z.min a b) = Rmin (IZR a) (IZR b).
Proof. destruct (Z.min_spec a b) as [[L ->]|[L ->]]; [rewrite Rmin_left; [reflexivity|apply IZR_le; lia]|rewrite Rmin_right; [reflexivity|apply IZR_le; lia]]. Qed.
Lemma IZR_max a b : IZR (Z.max a b) = Rmax (IZR a) (IZR b).
Proof. destruct (Z.max_spec a b) as [[L ->]|[L ->]]; [rewrite Rmax_right; [reflexivity|apply IZR_le; lia]|rewrite Rmax_left; [reflexivity|apply IZR_le; lia]]. Qed.
Lemma tri_px_near a b c x y : hy a <= hy b <= hy c -> 0 <= hy a -> 0 <= fst (fst a) -> 0 <= fst (fst b) -> 0 <= fst (fst c) ->
  (tri_px Y a b c x y -> hy a <= y < hy c /\ y < Y - 1 /\ exists u, (Rabs (u - IZR x) <= 1)%R /\ in_tri2 (fst a) (fst b) (fst c) u (IZR y)) /\
  (hy a <= y < hy c -> y < Y - 1 -> (forall u, (Rabs (u - IZR x) <= 1)%R -> in_tri2 (fst a) (fst b) (fst c) u (IZR y)) -> tri_px Y a b c x y).
Proof.
  destruct a as [[xa ya] wa], b as [[xb yb] wb], c as [[xc yc] wc]. unfold tri_px. cbv zeta. set (m := mid _ _ _). unfold hy. cbn [fst snd]. intros SO A0 Xa Xb Xc.
  set (d := rnd m). assert ((if d <? xb then rnd (IZR yb) else yb) = yb) as -> by (rewrite rnd_Z by lia; destruct (d <? xb); reflexivity).
  apply IZR_le in Xa, Xb, Xc. rewrite IZR_min, IZR_max.
  assert ((ya < yc)%Z -> m = IZR xa + (IZR xc - IZR xa) * (IZR (yb - ya) / IZR (yc - ya)))%R as EM.
  { intros L. unfold m, mid, hy. cbn [fst snd]. destruct (Z.eqb_spec yc ya); [lia|]. assert (0 < IZR (yc - ya))%R by (apply IZR_lt; lia). unfold lin. rewrite !minus_IZR in *. field. lra. }
  assert (0 <= m)%R as M0.
  { unfold m, mid, hy. cbn [fst snd]. destruct (Z.eqb_spec yc ya); [exact Xa|]. destruct (lin_between 0 (Rmax (IZR xa) (IZR xc)) (IZR xa) (IZR xc) ya yc yb) as [H _]; try lia; [split; [lra|apply Rmax_l]|split; [lra|apply Rmax_r]|exact H]. }
  assert (forall y, (ya <= y < yb)%Z -> exists be, (0 <= be <= 1 /\ (forall v, lin (IZR xa) v ya yb y = IZR xa + (v - IZR xa) * be) /\
     forall u, (in_tri2 (xa, ya) (xb, yb) (xc, yc) u (IZR y) <-> IZR xa + (Rmin (IZR xb) m - IZR xa) * be <= u <= IZR xa + (Rmax (IZR xb) m - IZR xa) * be)))%R as UP.
  { intros y' Hy. assert (0 < IZR (yb - ya))%R as D by (apply IZR_lt; lia). assert (0 < IZR (yc - ya))%R as D' by (apply IZR_lt; lia). exists (IZR (y' - ya) / IZR (yb - ya))%R.
    split; [apply frac01; [split; apply IZR_le; lia|exact D]|]. split; [intros v; unfold lin; rewrite !minus_IZR in *; field; lra|]. intros u.
    pose proof (wedge (IZR xa) (IZR ya) (IZR xb) (IZR yb) (IZR xc) (IZR yc) u (IZR y') (IZR (y' - ya) / IZR (yb - ya)) (IZR (y' - ya) / IZR (yc - ya))) as W. cbv zeta in W.
    assert (0 <= IZR (y' - ya) / IZR (yb - ya) <= 1)%R as T1 by (apply frac01; [split; apply IZR_le; lia|exact D]). assert (0 <= IZR (y' - ya) / IZR (yc - ya) <= 1)%R as T2 by (apply frac01; [split; apply IZR_le; lia|exact D']).
    unfold in_tri2. cbn [fst snd]. rewrite <- W; [|rewrite !minus_IZR in *; nra|exact T1|exact T2|rewrite !minus_IZR in *; field; lra|rewrite !minus_IZR in *; field; lra].
    set (be := (IZR (y' - ya) / IZR (yb - ya))%R) in *.
    assert (IZR xa + (IZR xc - IZR xa) * (IZR (y' - ya) / IZR (yc - ya)) = IZR xa + (m - IZR xa) * be)%R as ->. { rewrite EM by lia. unfold be. rewrite !minus_IZR in *. field. lra. }
    assert (forall p q, Rmin (IZR xa + (p - IZR xa) * be) (IZR xa + (q - IZR xa) * be) = IZR xa + (Rmin p q - IZR xa) * be /\ Rmax (IZR xa + (p - IZR xa) * be) (IZR xa + (q - IZR xa) * be) = IZR xa + (Rmax p q - IZR xa) * be)%R as MM.
    { intros p q. destruct (Rle_dec p q) as [L|L]; [rewrite (Rmin_left p q), (Rmax_right p q), Rmin_left, Rmax_right by nra; split; reflexivity|rewrite (Rmin_right p q), (Rmax_left p q), Rmin_right, Rmax_left by nra; split; reflexivity]. }
    destruct (MM (IZR xb) m) as [-> ->]. reflexivity. }
  assert (forall y, (yb <= y < yc)%Z -> exists be, (0 <= be <= 1 /\ (forall v, lin v (IZR xc) yb yc y = IZR xc + (v - IZR xc) * be) /\
     forall u, (in_tri2 (xa, ya) (xb, yb) (xc, yc) u (IZR y) <-> IZR xc + (Rmin (IZR xb) m - IZR xc) * be <= u <= IZR xc + (Rmax (IZR xb) m - IZR xc) * be)))%R as DOWN.
  { intros y' Hy. assert (0 < IZR (yc - yb))%R as D by (apply IZR_lt; lia). assert (0 < IZR (yc - ya))%R as D' by (apply IZR_lt; lia). exists (IZR (yc - y') / IZR (yc - yb))%R.
    split; [apply frac01; [split; apply IZR_le; lia|exact D]|]. split; [intros v; unfold lin; rewrite !minus_IZR in *; field; lra|]. intros u.
    pose proof (wedge (IZR xc) (IZR yc) (IZR xb) (IZR yb) (IZR xa) (IZR ya) u (IZR y') (IZR (yc - y') / IZR (yc - yb)) (IZR (yc - y') / IZR (yc - ya))) as W. cbv zeta in W.
    assert (0 <= IZR (yc - y') / IZR (yc - yb) <= 1)%R as T1 by (apply frac01; [split; apply IZR_le; lia|exact D]). assert (0 <= IZR (yc - y') / IZR (yc - ya) <= 1)%R as T2 by (apply frac01; [split; apply IZR_le; lia|exact D']).
    assert (in_tri2 (xa, ya) (xb, yb) (xc, yc) u (IZR y') <-> in_tri2 (xc, yc) (xb, yb) (xa, ya) u (IZR y')) as -> by (split; apply in_tri2_perm; unfold perm3; tauto).
    unfold in_tri2. cbn [fst snd]. rewrite <- W; [|rewrite !minus_IZR in *; nra|exact T1|exact T2|rewrite !minus_IZR in *; field; lra|rewrite !minus_IZR in *; field; lra].
    set (be := (IZR (yc - y') / IZR (yc - yb))%R) in *.
    assert (IZR xc + (IZR xa - IZR xc) * (IZR (yc - y') / IZR (yc - ya)) = IZR xc + (m - IZR xc) * be)%R as ->. { rewrite EM by lia. unfold be. rewrite !minus_IZR in *. field. lra. }
    assert (forall p q, Rmin (IZR xc + (p - IZR xc) * be) (IZR xc + (q - IZR xc) * be) = IZR xc + (Rmin p q - IZR xc) * be /\ Rmax (IZR xc + (p - IZR xc) * be) (IZR xc + (q - IZR xc) * be) = IZR xc + (Rmax p q - IZR xc) * be)%R as MM.
    { intros p q. destruct (Rle_dec p q) as [L|L]; [rewrite (Rmin_left p q), (Rmax_right p q), Rmin_left, Rmax_right by nra; split; reflexivity|rewrite (Rmin_right p q), (Rmax_left p q), Rmin_right, Rmax_left by nra; split; reflexivity]. }
    destruct (MM (IZR xb) m) as [-> ->]. reflexivity. }
  unfold trap. split.
  - intros [(Hy & HY & Hx)|(Hy & HY & Hx)]; (split; [lia|]); (split; [exact HY|]).
    + destruct (UP y Hy) as (be & Hbe & EL & TR). rewrite !EL in Hx. destruct (row_near (IZR xa) (IZR xb) m be d x Xa Xb Hbe M0 eq_refl) as [S _]. destruct (S Hx) as (u & Hu & Su). exists u. split; [exact Hu|apply TR; exact Su].
    + destruct (DOWN y Hy) as (be & Hbe & EL & TR). rewrite !EL in Hx. destruct (row_near (IZR xc) (IZR xb) m be d x Xc Xb Hbe M0 eq_refl) as [S _]. destruct (S Hx) as (u & Hu & Su). exists u. split; [exact Hu|apply TR; exact Su].
  - intros Hy HY H. destruct (Z_lt_ge_dec y yb) as [L|L]; [left|right].
    + destruct (UP y ltac:(lia)) as (be & Hbe & EL & TR). split; [lia|]. split; [exact HY|]. rewrite !EL. destruct (row_near (IZR xa) (IZR xb) m be d x Xa Xb Hbe M0 eq_refl) as [_ S]. apply S. intros u Hu. apply TR. apply H. exact Hu.
    + destruct (DOWN y ltac:(lia)) as (be & Hbe & EL & TR). split; [lia|]. split; [exact HY|]. rewrite !EL. destruct (row_near (IZR xc) (IZR xb) m be d x Xc Xb Hbe M0 eq_refl) as [_ S]. apply S. intros u Hu. apply TR. apply H. exact Hu.
Qed.

(** ** Pixels *)
Lemma index_inj x y x' y' : 0 <= x < X -> 0 <= x' < X -> y * X + x = y' * X + x' -> x = x' /\ y = y'.
Proof. intros A B E. assert (y = y') by nia. subst y'. lia. Qed.
Lemma cover_pixel lo hi c (P : Z -> Z -> Prop) r s : framed r X Y -> cover X Y lo hi c P r (Ok s) -> forall x y, 0 <= x < X -> 0 <= y < Y ->
  let k := y * X + x in
  (pixel s k = pixel r k \/ P x y /\ colour s k = c /\ (lo <= depth s k <= hi)%R /\ (depth r k < depth s k)%R) /\
  (P x y -> (depth r k < lo)%R -> colour s k = c /\ (lo <= depth s k <= hi)%R /\ (depth r k < depth s k)%R).
Proof.
  intros F (fs & E & G & A & B) x y Hx Hy k. injection E as ->.
  assert (ok X Y (settings r) r) as O by (split; [exact F|reflexivity]). assert (0 <= k) as K by (unfold k; nia).
  pose proof (pixel_paint X Y (settings r) r fs k O G K) as EP.
  assert (forall q, In q (at_ k fs) -> snd q = c /\ (lo <= fst q <= hi)%R /\ P x y) as IN.
  { intros q I. unfold at_ in I. apply in_map_iff in I as ([k' [w d]] & <- & I). apply filter_In in I as [I EK]. cbn [fst snd] in *. apply Z.eqb_eq in EK. subst k'.
    destruct (A k w d I) as (-> & W & x' & y' & Pxy & Hx' & Hy' & EK). destruct (index_inj x y x' y' Hx Hx' EK) as [-> ->]. auto. }
  assert (pixel (paint r fs) k = pixel r k \/ P x y /\ colour (paint r fs) k = c /\ (lo <= depth (paint r fs) k <= hi)%R /\ (depth r k < depth (paint r fs) k)%R) as S.
  { destruct (nearest_grows ordered_R (at_ k fs) (pixel r k)) as [H|H]; [left; rewrite EP; exact H|]. destruct (nearest_In (at_ k fs) (pixel r k)) as [H'|H']; [left; rewrite EP; exact H'|].
    right. unfold colour, depth. rewrite EP. destruct (IN _ H') as (C1 & C2 & C3). split; [exact C3|]. split; [exact C1|]. split; [exact C2|]. apply Rltb_lt. exact H. }
  split; [exact S|]. intros Pxy L. destruct S as [S|S]; [exfalso|apply S]. destruct (B x y Pxy Hx Hy) as [w I].
  assert (In (w, c) (at_ k fs)) as I' by (apply in_map_iff; exists (k, (w, c)); split; [reflexivity|]; apply filter_In; split; [exact I|apply Z.eqb_refl]).
  assert (forall p : R * Z, om p) as OM by (intros p; unfold om; apply Reqb_eq; reflexivity).
  pose proof (nearest_max ordered_R (at_ k fs) (pixel r k) (w, c) (OM _) (OM _) I') as NM. rewrite <- EP, S in NM. apply NM. apply Rltb_lt. cbn [fst].
  destruct (IN _ I') as (_ & W & _). cbn [fst] in W. unfold depth in L. lra.
Qed.
End Tri.
