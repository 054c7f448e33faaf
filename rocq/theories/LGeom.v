(** Lemmas about the geometry model over the reals. *)
From Coq Require Import Reals List Bool Lra Lia Psatz ZArith.
From Verif Require Import Base Num MGeometry SGeom LBase.
Import ListNotations.
Open Scope R_scope.

Ltac rnum := cbn [nofZ nlit nadd nsub nmul nneg nabs nltb nleb neqb RNum px py pz t1 t2 t3 s1 s2 pa pb pc pd
  bx1 by1 bz1 bx2 by2 bz2 binit] in *; unfold n0, n1, n2 in *; cbn [nofZ RNum] in *.

Lemma P_eq (a b c a' b' c' : R) : a = a' -> b = b' -> c = c' -> mkP a b c = mkP a' b' c'.
Proof. intros -> -> ->. reflexivity. Qed.

Lemma pt_eta (p : pt3) : p = mkP (px p) (py p) (pz p).
Proof. destruct p; reflexivity. Qed.

Ltac pring := unfold add3, sub3, scal3, cross3, lerp3, O3; cbn [px py pz]; apply P_eq; ring.

Lemma Rltb_lt x y : Rltb x y = true <-> x < y.
Proof. unfold Rltb. destruct (Rlt_dec x y); split; intros; try discriminate; try reflexivity; contradiction || assumption. Qed.
Lemma Rltb_ge x y : Rltb x y = false <-> y <= x.
Proof. unfold Rltb. destruct (Rlt_dec x y); split; intros; try discriminate; try reflexivity; lra. Qed.
Lemma Rleb_le x y : Rleb x y = true <-> x <= y.
Proof. unfold Rleb. destruct (Rle_dec x y); split; intros; try discriminate; try reflexivity; contradiction || assumption. Qed.
Lemma Rleb_gt x y : Rleb x y = false <-> y < x.
Proof. unfold Rleb. destruct (Rle_dec x y); split; intros; try discriminate; try reflexivity; lra. Qed.
Lemma Reqb_eq x y : Reqb x y = true <-> x = y.
Proof. unfold Reqb. destruct (Req_EM_T x y); split; intros; try discriminate; try reflexivity; contradiction || assumption. Qed.
Lemma Reqb_neq x y : Reqb x y = false <-> x <> y.
Proof. unfold Reqb. destruct (Req_EM_T x y); split; intros; try discriminate; try reflexivity; contradiction || assumption. Qed.

Lemma ndiv_R (x y : R) : y <> 0 -> ndiv x y = Ok (x / y).
Proof. intros. cbn. destruct (Req_EM_T y 0); [contradiction|reflexivity]. Qed.
Lemma ndiv_R0 (x : R) : ndiv x 0 = Err FDivZero.
Proof. cbn. destruct (Req_EM_T 0 0); [reflexivity|contradiction]. Qed.
Lemma nsqrt_R (x : R) : 0 <= x -> nsqrt x = Ok (sqrt x).
Proof. intros. cbn. destruct (Rlt_dec x 0); [lra|reflexivity]. Qed.

(** The model operations are the mathematical ones. *)
Lemma padd_R p q : padd p q = add3 p q. Proof. reflexivity. Qed.
Lemma psub_R p q : psub p q = sub3 p q. Proof. reflexivity. Qed.
Lemma pmul_R p k : pmul p k = scal3 k p. Proof. reflexivity. Qed.
Lemma pmul_eq_R p k : pmul_eq p k = scal3 k p.
Proof. unfold pmul_eq, scal3. rnum. apply P_eq; ring. Qed.
Lemma dot_R p q : dot p q = dot3 p q. Proof. reflexivity. Qed.
Lemma cross_R p q : cross p q = cross3 p q. Proof. reflexivity. Qed.
Lemma norm_square_R p : norm_square p = dot3 p p. Proof. reflexivity. Qed.
Lemma distance_square_R p q : distance_square p q = dot3 (sub3 p q) (sub3 p q). Proof. reflexivity. Qed.

Lemma dot3_nonneg p : 0 <= dot3 p p.
Proof. unfold dot3. nra. Qed.
Lemma dot3_zero p : dot3 p p = 0 -> p = O3.
Proof.
  unfold dot3. intros H. rewrite (pt_eta p). unfold O3. apply P_eq; nra.
Qed.
Lemma dot3_sym p q : dot3 p q = dot3 q p.
Proof. unfold dot3. ring. Qed.
Lemma norm_R p : norm p = Ok (len3 p).
Proof. unfold norm. apply nsqrt_R. apply (dot3_nonneg p). Qed.
Lemma len3_nonneg p : 0 <= len3 p. Proof. apply sqrt_pos. Qed.
Lemma len3_sq p : len3 p * len3 p = dot3 p p.
Proof. apply sqrt_sqrt, dot3_nonneg. Qed.
Lemma len3_zero p : len3 p = 0 <-> p = O3.
Proof.
  split.
  - intros H. apply dot3_zero. rewrite <- len3_sq, H. ring.
  - intros ->. unfold len3, dot3, O3. cbn. replace (0*0+0*0+0*0) with 0 by ring. apply sqrt_0.
Qed.
Lemma len3_scal k p : len3 (scal3 k p) = Rabs k * len3 p.
Proof.
  unfold len3. replace (dot3 (scal3 k p) (scal3 k p)) with (k * k * dot3 p p) by (unfold dot3, scal3; cbn; ring).
  rewrite sqrt_mult_alt by nra. f_equal. apply sqrt_Rsqr_abs.
Qed.

Lemma lagrange p q : dot3 (cross3 p q) (cross3 p q) = dot3 p p * dot3 q q - dot3 p q * dot3 p q.
Proof. unfold dot3, cross3. cbn. ring. Qed.

Lemma cauchy_schwarz p q : Rabs (dot3 p q) <= len3 p * len3 q.
Proof.
  unfold len3. rewrite <- sqrt_mult by apply dot3_nonneg. rewrite <- sqrt_Rsqr_abs. apply sqrt_le_1_alt.
  unfold Rsqr. pose proof (lagrange p q). pose proof (dot3_nonneg (cross3 p q)). lra.
Qed.

Lemma len3_triangle p q : len3 (add3 p q) <= len3 p + len3 q.
Proof.
  apply Rsqr_incr_0_var; [|pose proof (len3_nonneg p); pose proof (len3_nonneg q); lra].
  unfold Rsqr. rewrite len3_sq.
  replace (dot3 (add3 p q) (add3 p q)) with (dot3 p p + 2 * dot3 p q + dot3 q q) by (unfold dot3, add3; cbn; ring).
  pose proof (cauchy_schwarz p q). pose proof (len3_sq p). pose proof (len3_sq q).
  pose proof (Rle_abs (dot3 p q)). nra.
Qed.

Lemma dist3_sym p q : dist3 p q = dist3 q p.
Proof.
  unfold dist3, len3. f_equal. unfold dot3, sub3. cbn. ring.
Qed.
Lemma dist3_triangle p q r : dist3 p r <= dist3 p q + dist3 q r.
Proof.
  unfold dist3. replace (sub3 p r) with (add3 (sub3 p q) (sub3 q r)) by pring. apply len3_triangle.
Qed.

Lemma normalized_R p : p <> O3 -> normalized p = Ok (scal3 (1 / len3 p) p).
Proof.
  intros H. unfold normalized. rewrite norm_R. cbn [bind].
  rewrite ndiv_R by (rewrite len3_zero; exact H). reflexivity.
Qed.
Lemma normalized_O : normalized O3 = Err FDivZero.
Proof.
  unfold normalized. rewrite norm_R. cbn [bind]. replace (len3 O3) with 0 by (symmetry; apply len3_zero; reflexivity).
  rewrite ndiv_R0. reflexivity.
Qed.
Lemma len3_pos p : p <> O3 -> 0 < len3 p.
Proof. intros H. pose proof (len3_nonneg p). destruct (Req_dec (len3 p) 0) as [E|E]; [apply len3_zero in E; contradiction|lra]. Qed.

Lemma len3_normalized p : p <> O3 -> len3 (scal3 (1 / len3 p) p) = 1.
Proof.
  intros H. pose proof (len3_pos p H). rewrite len3_scal, Rabs_right; [field; lra|].
  apply Rle_ge, Rlt_le, Rdiv_lt_0_compat; lra.
Qed.

Lemma normalize_R p : p <> O3 -> normalize p = Ok (scal3 (1 / len3 p) p).
Proof.
  intros H. unfold normalize. rewrite norm_R. cbn [bind].
  rewrite ndiv_R by (rewrite len3_zero; exact H). cbn [bind]. rewrite pmul_eq_R. reflexivity.
Qed.

Lemma O3_dec (p : pt3) : {p = O3} + {p <> O3}.
Proof.
  destruct (Req_EM_T (len3 p) 0) as [E|E]; [left|right]; rewrite <- len3_zero; assumption.
Qed.

Lemma point_algebra (p q : pt3) :
  dot3 (cross p q) p = 0 /\ dot3 (cross p q) q = 0 /\
  dot3 (cross p q) (cross p q) = dot3 p p * dot3 q q - dot3 p q * dot3 p q /\
  cross p q = scal3 (-1) (cross q p) /\
  norm p = Ok (len3 p) /\ norm_square p = len3 p * len3 p /\
  distance_square p q = dist3 p q * dist3 p q /\
  (exists n s, norm p = Ok n /\ norm q = Ok s /\ exists k, norm (padd p q) = Ok k /\ k <= n + s) /\
  (forall k, norm (pmul p k) = Ok (Rabs k * len3 p)) /\
  (norm p = Ok 0 <-> p = P0) /\
  (p <> P0 -> exists u, normalized p = Ok u /\ normalize p = Ok u /\ norm u = Ok 1 /\ p = scal3 (len3 p) u) /\
  (normalized P0 = Err FDivZero).
Proof.
  split; [rewrite cross_R; unfold dot3, cross3; cbn; ring|].
  split; [rewrite cross_R; unfold dot3, cross3; cbn; ring|].
  split; [rewrite cross_R; apply lagrange|].
  split; [unfold cross; rnum; unfold scal3; cbn [px py pz]; apply P_eq; ring|].
  split; [apply norm_R|].
  split; [rewrite norm_square_R, len3_sq; reflexivity|].
  split; [rewrite distance_square_R; unfold dist3; rewrite len3_sq; reflexivity|].
  split; [exists (len3 p), (len3 q); rewrite !norm_R; split; [reflexivity|split; [reflexivity|]];
          exists (len3 (add3 p q)); split; [reflexivity|apply len3_triangle]|].
  split; [intros k; rewrite norm_R, pmul_R, len3_scal; reflexivity|].
  split; [rewrite norm_R; change P0 with O3; rewrite <- len3_zero; split; [intros H; injection H; auto|intros ->; reflexivity]|].
  split; [|exact normalized_O].
  intros H. change P0 with O3 in H. exists (scal3 (1 / len3 p) p). pose proof (len3_pos p H).
  split; [apply normalized_R, H|]. split; [apply normalize_R, H|]. split; [rewrite norm_R, len3_normalized by exact H; reflexivity|].
  rewrite (pt_eta p) at 1. unfold scal3. cbn. apply P_eq; field; lra.
Qed.

(** ** Planes *)

Lemma plane_distance_R pl x : plane_distance pl x = side pl x.
Proof. reflexivity. Qed.

Lemma collinear_cross p q r : cross3 (sub3 p q) (sub3 p r) = cross3 (sub3 q p) (sub3 r p).
Proof. pring. Qed.


Lemma plane_of_points_R p q r : ~ collinear p q r ->
  exists pl, plane_of_points p q r = Ok pl /\ unit_plane pl /\
    on_plane pl p /\ on_plane pl q /\ on_plane pl r /\
    exists k, 0 < k /\ plane_normal pl = scal3 k (cross3 (sub3 q p) (sub3 r p)).
Proof.
  intros H. unfold plane_of_points. change (cross (psub p q) (psub p r)) with (cross3 (sub3 p q) (sub3 p r)).
  unfold collinear in H. rewrite <- collinear_cross in H.
  set (n := cross3 (sub3 p q) (sub3 p r)) in *.
  rewrite (normalized_R n H). cbn [bind]. eexists. split; [reflexivity|].
  pose proof (len3_pos n H) as L. pose proof (len3_sq n) as S. set (l := len3 n) in *.
  assert (dot3 n (sub3 p q) = 0) as D1 by (unfold n, dot3, cross3; cbn; ring).
  assert (dot3 n (sub3 p r) = 0) as D2 by (unfold n, dot3, cross3; cbn; ring).
  assert (cross3 (sub3 q p) (sub3 r p) = n) as HN by (symmetry; apply collinear_cross).
  clearbody l n.
  split; [|split; [|split; [|split]]].
  - unfold unit_plane. cbn. unfold dot3 in S.
    replace (1 / l * px n * (1 / l * px n) + 1 / l * py n * (1 / l * py n) + 1 / l * pz n * (1 / l * pz n))
      with ((px n * px n + py n * py n + pz n * pz n) / (l * l)) by (field; lra).
    rewrite <- S. field. lra.
  - unfold on_plane, side. cbn. ring.
  - unfold on_plane, side. cbn. unfold dot3, sub3 in D1. cbn in D1.
    transitivity (- (1 / l) * (px n * (px p - px q) + py n * (py p - py q) + pz n * (pz p - pz q))); [ring|]. rewrite D1. ring.
  - unfold on_plane, side. cbn. unfold dot3, sub3 in D2. cbn in D2.
    transitivity (- (1 / l) * (px n * (px p - px r) + py n * (py p - py r) + pz n * (pz p - pz r))); [ring|]. rewrite D2. ring.
  - exists (1 / l). split; [apply Rdiv_lt_0_compat; lra|]. rewrite HN. reflexivity.
Qed.

Lemma plane_of_points_collinear p q r : collinear p q r -> plane_of_points p q r = Err FDivZero.
Proof.
  intros H. unfold plane_of_points. change (cross (psub p q) (psub p r)) with (cross3 (sub3 p q) (sub3 p r)).
  rewrite collinear_cross, H, normalized_O. reflexivity.
Qed.

Definition pnormal (pl : Plane3 R) : pt3 := mkP (pa pl) (pb pl) (pc pl).

(** |side| is the Euclidean distance to a unit plane. *)
Lemma side_is_distance pl x : unit_plane pl ->
  (forall y, on_plane pl y -> Rabs (side pl x) <= dist3 x y) /\
  (exists f, on_plane pl f /\ dist3 x f = Rabs (side pl x) /\ x = add3 f (scal3 (side pl x) (pnormal pl))).
Proof.
  intros U. split.
  - intros y Hy.
    replace (side pl x) with (dot3 (pnormal pl) (sub3 x y)).
    2:{ unfold on_plane, side in *. unfold dot3, pnormal, sub3. cbn. lra. }
    eapply Rle_trans; [apply cauchy_schwarz|].
    replace (len3 (pnormal pl)) with 1.
    2:{ unfold len3. unfold unit_plane in U. unfold dot3, pnormal. cbn. rewrite U. symmetry. apply sqrt_1. }
    unfold dist3. lra.
  - exists (sub3 x (scal3 (side pl x) (pnormal pl))). split; [|split].
    + unfold on_plane, side, sub3, scal3, pnormal. cbn. unfold unit_plane in U.
      set (s := pa pl * px x + pb pl * py x + pc pl * pz x + pd pl).
      transitivity (s - s * (pa pl * pa pl + pb pl * pb pl + pc pl * pc pl)); [unfold s; ring|]. rewrite U. ring.
    + unfold dist3. replace (sub3 x (sub3 x (scal3 (side pl x) (pnormal pl)))) with (scal3 (side pl x) (pnormal pl)).
      2:{ unfold sub3, scal3, pnormal; cbn; apply P_eq; ring. }
      rewrite len3_scal. replace (len3 (pnormal pl)) with 1; [ring|].
      unfold len3. unfold unit_plane in U. unfold dot3, pnormal. cbn. rewrite U. symmetry. apply sqrt_1.
    + rewrite (pt_eta x) at 1. unfold add3, sub3, scal3, pnormal; cbn; apply P_eq; ring.
Qed.

Lemma plane_three_points p q r : 
  if O3_dec (cross3 (sub3 q p) (sub3 r p)) then plane_of_points p q r = Err FDivZero
  else exists pl, plane_of_points p q r = Ok pl /\
    len3 (plane_normal pl) = 1 /\
    plane_distance pl p = 0 /\ plane_distance pl q = 0 /\ plane_distance pl r = 0 /\
    0 < dot3 (plane_normal pl) (cross3 (sub3 q p) (sub3 r p)) /\
    forall x, (forall y, on_plane pl y -> Rabs (plane_distance pl x) <= dist3 x y) /\
              (exists f, on_plane pl f /\ dist3 x f = Rabs (plane_distance pl x) /\
                         x = add3 f (scal3 (plane_distance pl x) (plane_normal pl))).
Proof.
  destruct (O3_dec _) as [C|C]; [apply plane_of_points_collinear, C|].
  destruct (plane_of_points_R p q r C) as [pl [E [U [H1 [H2 [H3 [k [K HN]]]]]]]].
  exists pl. split; [exact E|]. split.
  { unfold len3. unfold unit_plane in U. unfold dot3, plane_normal. cbn. rewrite U. apply sqrt_1. }
  split; [exact H1|]. split; [exact H2|]. split; [exact H3|]. split.
  { rewrite HN. set (n := cross3 _ _) in *.
    replace (dot3 (scal3 k n) n) with (k * dot3 n n) by (unfold dot3, scal3; cbn; ring).
    rewrite <- len3_sq. pose proof (len3_pos n C). apply Rmult_lt_0_compat; [exact K|]. nra. }
  intros x. apply (side_is_distance pl x U).
Qed.

(** ** Projection *)

Lemma plane_project_R pl x : plane_project pl x = sub3 x (scal3 (side pl x) (pnormal pl)).
Proof. reflexivity. Qed.

Lemma plane_project_correct pl x : unit_plane pl ->
  on_plane pl (plane_project pl x) /\
  plane_project pl (plane_project pl x) = plane_project pl x /\
  (on_plane pl x -> plane_project pl x = x) /\
  (forall y, on_plane pl y -> dist3 x (plane_project pl x) <= dist3 x y) /\
  (forall y, on_plane pl y -> dist3 x y <= dist3 x (plane_project pl x) -> y = plane_project pl x).
Proof.
  intros U. rewrite !plane_project_R.
  destruct (side_is_distance pl x U) as [D1 _].
  assert (on_plane pl (sub3 x (scal3 (side pl x) (pnormal pl)))) as H1.
  { unfold on_plane, side, sub3, scal3, pnormal. cbn. unfold unit_plane in U.
    set (s := pa pl * px x + pb pl * py x + pc pl * pz x + pd pl).
    transitivity (s - s * (pa pl * pa pl + pb pl * pb pl + pc pl * pc pl)); [unfold s; ring|]. rewrite U. ring. }
  assert (forall z, on_plane pl z -> sub3 z (scal3 (side pl z) (pnormal pl)) = z) as H2.
  { intros z Hz. unfold on_plane in Hz. rewrite Hz. rewrite (pt_eta z) at 2. unfold sub3, scal3, pnormal. cbn. apply P_eq; ring. }
  assert (dist3 x (sub3 x (scal3 (side pl x) (pnormal pl))) = Rabs (side pl x)) as H3.
  { unfold dist3. replace (sub3 x (sub3 x (scal3 (side pl x) (pnormal pl)))) with (scal3 (side pl x) (pnormal pl)).
    2:{ unfold sub3, scal3, pnormal; cbn; apply P_eq; ring. }
    rewrite len3_scal. replace (len3 (pnormal pl)) with 1; [ring|].
    unfold len3. unfold unit_plane in U. unfold dot3, pnormal. cbn. rewrite U. symmetry. apply sqrt_1. }
  split; [exact H1|]. split; [apply H2, H1|]. split; [apply H2|]. split.
  - intros y Hy. rewrite H3. apply D1, Hy.
  - intros y Hy Hd. rewrite H3 in Hd. set (s := side pl x) in *.
    assert (dot3 (sub3 x y) (sub3 x y) <= s * s) as HS.
    { rewrite <- len3_sq. unfold dist3 in Hd. pose proof (len3_nonneg (sub3 x y)).
      replace (s * s) with (Rabs s * Rabs s) by (rewrite <- Rabs_mult, Rabs_right; nra). nra. }
    assert (s = dot3 (pnormal pl) (sub3 x y)) as HD.
    { unfold s, on_plane, side in *. unfold dot3, pnormal, sub3. cbn. lra. }
    set (e := sub3 (sub3 x y) (scal3 s (pnormal pl))).
    assert (dot3 e e = 0) as HE.
    { assert (dot3 e e = dot3 (sub3 x y) (sub3 x y) - 2 * s * dot3 (pnormal pl) (sub3 x y) + s * s * (pa pl * pa pl + pb pl * pb pl + pc pl * pc pl)) as EQ
        by (unfold e, dot3, sub3, scal3, pnormal; cbn; ring).
      rewrite U, <- HD in EQ. pose proof (dot3_nonneg e). lra. }
    apply dot3_zero in HE. unfold e, sub3, scal3, pnormal, O3 in HE. cbn in HE. injection HE as E1 E2 E3.
    rewrite (pt_eta y). unfold sub3, scal3, pnormal. cbn. apply P_eq; lra.
Qed.

(** ** Plane / segment *)

Lemma side_lerp pl p q t : side pl (lerp3 p q t) = (1 - t) * side pl p + t * side pl q.
Proof. unfold side, lerp3, add3, scal3, sub3. cbn. ring. Qed.

Lemma plane_seg_exact pl p q :
  exists o, plane_intersect_seg pl (mkSeg p q) = Ok o /\
  match o with
  | Some x => side pl p * side pl q < 0 /\ on_plane pl x /\ exists t, 0 < t < 1 /\ x = lerp3 p q t
  | None => ~ (side pl p * side pl q < 0)
  end.
Proof.
  unfold plane_intersect_seg. cbn [s1 s2]. rnum.
  set (k := pa pl * px p + pb pl * py p + pc pl * pz p + pd pl).
  set (u := pa pl * (px q - px p) + pb pl * (py q - py p) + pc pl * (pz q - pz p)).
  assert (side pl p = k) as Ek by reflexivity.
  assert (side pl q = k + u) as Eq by (unfold side, k, u; ring).
  rewrite Ek, Eq.
  destruct (Reqb u 0) eqn:B.
  - apply Reqb_eq in B. exists None. split; [reflexivity|]. rewrite B. nra.
  - apply Reqb_neq in B. rewrite (ndiv_R (- k) u B). cbn [bind].
    set (t := - k / u). assert (k = - t * u) as Kt by (unfold t; field; exact B).
    destruct (Rleb t 0) eqn:C1; cbn [orb].
    + apply Rleb_le in C1. exists None. split; [reflexivity|]. rewrite Kt. intros H.
      assert (0 < u * u) by nra. nra.
    + apply Rleb_gt in C1. destruct (Rleb 1 t) eqn:C2.
      * apply Rleb_le in C2. exists None. split; [reflexivity|]. rewrite Kt. intros H. assert (0 < u * u) by nra.
        assert (0 <= (t - 1) * t * (u * u)) by (apply Rmult_le_pos; nra). nra.
      * apply Rleb_gt in C2. eexists. split; [reflexivity|]. split; [|split].
        -- rewrite Kt. assert (0 < u * u) by nra.
           assert (0 < (1 - t) * t * (u * u)) by (apply Rmult_lt_0_compat; nra). nra.
        -- unfold on_plane, side. cbn.
           transitivity (k + t * u); [unfold k, u; ring|]. rewrite Kt. ring.
        -- exists t. split; [lra|]. unfold lerp3, add3, scal3, sub3. cbn. reflexivity.
Qed.

(** ** Bounding boxes *)

Definition box_of (l : list pt3) : BBox3 R := fold_left box_add l box_empty.

Definition box_fits (b : BBox3 R) (l : list pt3) : Prop :=
  binit b = true /\
  (forall x, In x l -> in_box (box_lo b) (box_hi b) x) /\
  (exists x, In x l /\ px x = bx1 b) /\ (exists x, In x l /\ px x = bx2 b) /\
  (exists x, In x l /\ py x = by1 b) /\ (exists x, In x l /\ py x = by2 b) /\
  (exists x, In x l /\ pz x = bz1 b) /\ (exists x, In x l /\ pz x = bz2 b).

Lemma axis_add_spec x lo hi : lo <= hi ->
  let '(lo', hi') := axis_add x lo hi in
  lo' <= lo /\ hi <= hi' /\ lo' <= x <= hi' /\ (lo' = x \/ lo' = lo) /\ (hi' = x \/ hi' = hi).
Proof.
  intros H. unfold axis_add. rnum.
  destruct (Rltb x lo) eqn:A; [apply Rltb_lt in A|apply Rltb_ge in A; destruct (Rltb hi x) eqn:B; [apply Rltb_lt in B|apply Rltb_ge in B]]; intuition lra.
Qed.

Lemma box_fits_add b l p : box_fits b l -> box_fits (box_add b p) (l ++ [p]).
Proof.
  intros [I [H [X1 [X2 [Y1 [Y2 [Z1 Z2]]]]]]].
  unfold box_add. rewrite I. cbn [negb].
  assert (bx1 b <= bx2 b /\ by1 b <= by2 b /\ bz1 b <= bz2 b) as [HX [HY HZ]].
  { destruct X1 as [x [Hx _]]. specialize (H x Hx). unfold in_box, box_lo, box_hi in H. cbn in H. lra. }
  pose proof (axis_add_spec (px p) _ _ HX) as AX. destruct (axis_add (px p) (bx1 b) (bx2 b)) as [x1 x2].
  pose proof (axis_add_spec (py p) _ _ HY) as AY. destruct (axis_add (py p) (by1 b) (by2 b)) as [y1 y2].
  pose proof (axis_add_spec (pz p) _ _ HZ) as AZ. destruct (axis_add (pz p) (bz1 b) (bz2 b)) as [z1 z2].
  destruct AX as [AX1 [AX2 [AX3 [AX4 AX5]]]], AY as [AY1 [AY2 [AY3 [AY4 AY5]]]], AZ as [AZ1 [AZ2 [AZ3 [AZ4 AZ5]]]].
  assert (forall (f : pt3 -> R) v, (exists x, In x l /\ f x = v) -> exists x, In x (l ++ [p]) /\ f x = v) as K.
  { intros f v [x [Hx Ex]]. exists x. split; [apply in_or_app; left; exact Hx|exact Ex]. }
  assert (In p (l ++ [p])) as Ip by (apply in_or_app; right; left; reflexivity).
  split; [reflexivity|]. split.
  - intros x Hx. apply in_app_or in Hx. unfold in_box, box_lo, box_hi. cbn.
    destruct Hx as [Hx|[<-|[]]]; [|lra]. specialize (H x Hx). unfold in_box, box_lo, box_hi in H. cbn in H. lra.
  - cbn. repeat split; match goal with |- exists x, _ /\ ?f x = ?v => 
      first [ match goal with E : v = f p \/ v = _ |- _ => destruct E as [-> | ->] end; [exists p; auto | apply K; assumption] ] end.
Qed.

Lemma box_fold_fits l b l0 : box_fits b l0 -> box_fits (fold_left box_add l b) (l0 ++ l).
Proof.
  revert b l0. induction l as [|p l IH]; intros b l0 H.
  - rewrite app_nil_r. exact H.
  - cbn [fold_left]. replace (l0 ++ p :: l) with ((l0 ++ [p]) ++ l) by (rewrite <- app_assoc; reflexivity).
    apply IH, box_fits_add, H.
Qed.

Lemma box_of_fits l : l <> [] -> box_fits (box_of l) l.
Proof.
  destruct l as [|p l]; [contradiction|]. intros _. unfold box_of. cbn [fold_left].
  change (p :: l) with ([p] ++ l). apply box_fold_fits. unfold box_add. cbn.
  split; [reflexivity|]. split.
  - intros x [<-|[]]. unfold in_box, box_lo, box_hi. cbn. lra.
  - cbn. repeat split; exists p; auto.
Qed.

Lemma box_smallest l : l <> [] ->
  (forall x, In x l -> in_box (box_lo (box_of l)) (box_hi (box_of l)) x) /\
  (forall lo hi, (forall x, In x l -> in_box lo hi x) ->
     in_box lo hi (box_lo (box_of l)) /\ in_box lo hi (box_hi (box_of l))).
Proof.
  intros H. destruct (box_of_fits l H) as [_ [HI [[a [A1 A2]] [[b [B1 B2]] [[c [C1 C2]] [[d [D1 D2]] [[e [E1 E2]] [f [F1 F2]]]]]]]]].
  split; [exact HI|]. intros lo hi HL.
  pose proof (HL a A1). pose proof (HL b B1). pose proof (HL c C1). pose proof (HL d D1). pose proof (HL e E1). pose proof (HL f F1).
  unfold in_box in *. unfold box_lo, box_hi. cbn [px py pz]. lra.
Qed.

Lemma box_intersect_iff a b : box_intersect a b = true <->
  bx1 b <= bx2 a /\ by1 b <= by2 a /\ bz1 b <= bz2 a /\ bx1 a <= bx2 b /\ by1 a <= by2 b /\ bz1 a <= bz2 b.
Proof.
  assert (forall x y (c : bool) (P : Prop), (c = true <-> P) -> ((if Rltb x y then false else c) = true <-> y <= x /\ P)) as K.
  { intros x y c P H. destruct (Rltb x y) eqn:E; [apply Rltb_lt in E|apply Rltb_ge in E]; rewrite ?H; intuition (discriminate || lra). }
  unfold box_intersect. rnum. do 5 apply K.
  rewrite K with (P := True); [|tauto]. tauto.
Qed.

Lemma box_intersect_exact a b :
  in_box (box_lo a) (box_hi a) (box_lo a) -> in_box (box_lo b) (box_hi b) (box_lo b) ->
  box_intersect a b = box_intersect b a /\
  (box_intersect a b = true <->
   exists x, in_box (box_lo a) (box_hi a) x /\ in_box (box_lo b) (box_hi b) x).
Proof.
  intros Ha Hb. split.
  - apply eq_true_iff_eq. rewrite !box_intersect_iff. tauto.
  - rewrite box_intersect_iff. unfold in_box, box_lo, box_hi in *. cbn [px py pz] in *. split.
    + intros H. exists (mkP (Rmax (bx1 a) (bx1 b)) (Rmax (by1 a) (by1 b)) (Rmax (bz1 a) (bz1 b))).
      cbn [px py pz]. unfold Rmax. repeat destruct (Rle_dec _ _); lra.
    + intros [x Hx]. lra.
Qed.

Lemma box_of_same l l' : l <> [] -> (forall x, In x l <-> In x l') -> box_of l = box_of l'.
Proof.
  intros H HE. assert (l' <> []) as H'.
  { destruct l as [|p l]; [contradiction|]. intros ->. apply (proj1 (HE p)). left. reflexivity. }
  destruct (box_smallest l H) as [I1 M1]. destruct (box_smallest l' H') as [I2 M2].
  destruct (M1 _ _ (fun x Hx => I2 x (proj1 (HE x) Hx))) as [A1 A2].
  destruct (M2 _ _ (fun x Hx => I1 x (proj2 (HE x) Hx))) as [B1 B2].
  destruct (box_of_fits l H) as [J1 _]. destruct (box_of_fits l' H') as [J2 _].
  destruct (box_of l) as [a1 a2 a3 a4 a5 a6 a7], (box_of l') as [b1 b2 b3 b4 b5 b6 b7].
  unfold in_box, box_lo, box_hi in *. cbn in *. subst. f_equal; lra.
Qed.
