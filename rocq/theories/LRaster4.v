(** Filled triangles on the screen: pixels, culling, meshes, and where the picture is wrong. *)
From Coq Require Import ZArith List Bool Reals Lia Lra Psatz.
From Verif Require Import Base Num MF64 MGeometry MKernel MMesh MTransform MRender SMesh SReach SGeom SRender SRaster LBase LGeom LMesh LReach LMeasure LMeasureEx LTransform LRender LRender2 LRender3 LRender5 LRender6 LRaster LRaster2 LRaster3.
Import ListNotations.
Open Scope Z_scope.
#[local] Existing Instance exact_flt.

Lemma perm3_max a b c a' b' c' : perm3 a b c a' b' c' -> hy a' <= hy b' <= hy c' -> hy a' = top3 (hy a) (hy b) (hy c) /\ hy c' = bottom3 (hy a) (hy b) (hy c).
Proof. unfold perm3, top3, bottom3. intros H S. destruct H as [H|[H|[H|[H|[H|H]]]]]; injection H as -> -> ->; lia. Qed.
Lemma perm3_fst {A B} (a b c a' b' c' : A * B) : perm3 a b c a' b' c' -> perm3 (fst a) (fst b) (fst c) (fst a') (fst b') (fst c').
Proof. unfold perm3. intros H. destruct H as [H|[H|[H|[H|[H|H]]]]]; injection H as -> -> ->; tauto. Qed.
Lemma perm3_sym {A} (a b c a' b' c' : A) : perm3 a b c a' b' c' -> perm3 a' b' c' a b c.
Proof. unfold perm3. intros H. destruct H as [H|[H|[H|[H|[H|H]]]]]; injection H as -> -> ->; tauto. Qed.

Lemma filled_triangle X Y (r : Renderer R) A B C color two a b c n col : 1 <= X -> 1 <= Y -> framed r X Y ->
  project (rd_cam r) A = Ok a -> project (rd_cam r) B = Ok b -> project (rd_cam r) C = Ok c ->
  (two = true \/ 0 < turn (fst a) (fst b) (fst c)) -> ~ outside X Y (fst a) (fst b) (fst c) -> spans_int (fst a) (fst b) (fst c) ->
  tri_normal (mkTri A B C) = Ok n -> compute_color (rd_lights r) color n = Ok col ->
  exists s, draw_triangle r A B C color two = Ok (s, true) /\ forall x y, 0 <= x < X -> 0 <= y < Y ->
    let k := y * X + x in let lo := low3 (snd a) (snd b) (snd c) in let hi := high3 (snd a) (snd b) (snd c) in
    let at_row := top3 (snd (fst a)) (snd (fst b)) (snd (fst c)) <= y < bottom3 (snd (fst a)) (snd (fst b)) (snd (fst c)) /\ y < Y - 1 in
    let shows_it := colour s k = col /\ (lo <= depth s k <= hi)%R /\ (depth r k < depth s k)%R in
    (pixel s k = pixel r k \/ shows_it) /\
    (0 <= top3 (fst (fst a)) (fst (fst b)) (fst (fst c)) -> 0 <= top3 (snd (fst a)) (snd (fst b)) (snd (fst c)) ->
      (pixel s k = pixel r k \/ at_row /\ exists u, (Rabs (u - IZR x) <= 1)%R /\ in_tri2 (fst a) (fst b) (fst c) u (IZR y)) /\
      (at_row -> (forall u, (Rabs (u - IZR x) <= 1)%R -> in_tri2 (fst a) (fst b) (fst c) u (IZR y)) -> (depth r k < lo)%R -> shows_it)).
Proof.
  intros X1 Y1 F EA EB EC CULL OUT SP EN ECO. destruct (triangle_cover X Y X1 Y1 r A B C color two a b c n col F EA EB EC CULL OUT SP EN ECO) as (s & a' & b' & c' & PM & SO & ED & CV).
  exists s. split; [exact ED|]. intros x y Hx Hy. cbv zeta. destruct (perm3_max _ _ _ _ _ _ PM SO) as [ET EBT]. change (snd (fst a)) with (hy a). change (snd (fst b)) with (hy b). change (snd (fst c)) with (hy c).
  pose proof (cover_pixel X Y X1 _ _ _ _ r s F CV x y Hx Hy) as CP. cbv zeta in CP. destruct CP as [P1 P2].
  split; [destruct P1 as [P1|P1]; [left; exact P1|right; apply P1]|]. intros NX NY.
  assert (0 <= fst (fst a') /\ 0 <= fst (fst b') /\ 0 <= fst (fst c')) as (Xa & Xb & Xc) by (revert NX; unfold top3; clear - PM; unfold perm3 in PM; destruct PM as [H|[H|[H|[H|[H|H]]]]]; injection H as -> -> ->; lia).
  destruct (tri_px_near Y a' b' c' x y SO ltac:(lia) Xa Xb Xc) as [T1 T2]. rewrite <- ET, <- EBT.
  assert (forall u, in_tri2 (fst a') (fst b') (fst c') u (IZR y) <-> in_tri2 (fst a) (fst b) (fst c) u (IZR y)) as IT.
  { intros u. split; apply in_tri2_perm; [apply perm3_fst; exact PM|apply perm3_sym, perm3_fst; exact PM]. }
  split.
  - destruct P1 as [P1|[P1 _]]; [left; exact P1|right]. destruct (T1 P1) as (R1 & R2 & u & U1 & U2). split; [split; assumption|]. exists u. split; [exact U1|apply IT; exact U2].
  - intros [R1 R2] IN. apply P2. apply T2; [exact R1|exact R2|]. intros u Hu. apply IT, IN, Hu.
Qed.

Lemma culled (r : Renderer R) A B C color two a b c :
  project (rd_cam r) A = Ok a -> project (rd_cam r) B = Ok b -> project (rd_cam r) C = Ok c ->
  two = true \/ sides_int (fst a) (fst b) (fst c) ->
  two = false /\ turn (fst a) (fst b) (fst c) <= 0 \/ outside (rd_X r) (rd_Y r) (fst a) (fst b) (fst c) -> draw_triangle r A B C color two = Ok (r, false).
Proof.
  intros EA EB EC SI H. destruct a as [[ax ay] aw], b as [[bx by_] bw], c as [[cx cy] cw]. unfold draw_triangle. rewrite EA, EB, EC. cbn [bind]. cbv zeta.
  assert (pz (cross (mkP (nofZ (ax - bx)) (nofZ (ay - by_)) n0) (mkP (nofZ (ax - cx)) (nofZ (ay - cy)) n0)) = IZR (turn (ax, ay) (bx, by_) (cx, cy)))%R as ET.
  { unfold turn, cross. cbn. rewrite !minus_IZR, !mult_IZR, !minus_IZR. ring. }
  cbn [fst snd] in H. match goal with |- bind ?e _ = _ => assert (exists k, e = Ok k /\ k = (negb two && Rleb (IZR (turn (ax, ay) (bx, by_) (cx, cy))) 0)) as (k & -> & EK) end.
  { destruct two; [eexists; split; reflexivity|]. destruct SI as [SI|(S1 & S2 & S3 & S4)]; [discriminate|]. cbn [fst snd] in S1, S2, S3, S4.
    rewrite (iint_ok _ S1). cbn [bind]. rewrite (iint_ok _ S2). cbn [bind]. rewrite (iint_ok _ S3). cbn [bind]. rewrite (iint_ok _ S4). cbn [bind]. rewrite ET. eexists. split; reflexivity. }
  cbn [bind]. destruct k eqn:K; [reflexivity|]. rename EK into K'. symmetry in K'. clear K. rename K' into K. destruct H as [[-> H]|H].
  - exfalso. cbn [negb andb] in K. apply IZR_le in H. change (Rleb (IZR (turn (ax, ay) (bx, by_) (cx, cy))) 0 = false) in K. apply (proj2 (Rleb_le _ _)) in H. congruence.
  - unfold outside, bottom3, top3 in H. cbn [fst snd] in H.
    destruct ((ax <=? 0) && (bx <=? 0) && (cx <=? 0)) eqn:K1; [reflexivity|]. destruct ((ay <=? 0) && (by_ <=? 0) && (cy <=? 0)) eqn:K2; [reflexivity|].
    destruct ((rd_X r <=? ax) && (rd_X r <=? bx) && (rd_X r <=? cx)) eqn:K3; [reflexivity|]. destruct ((rd_Y r <=? ay) && (rd_Y r <=? by_) && (rd_Y r <=? cy)) eqn:K4; [reflexivity|].
    exfalso. repeat match goal with K : _ && _ = false |- _ => apply andb_false_iff in K end.
    repeat match goal with K : _ && _ = false \/ _ |- _ => destruct K as [K|K]; [apply andb_false_iff in K|] end;
    repeat match goal with K : (_ <=? _) = false \/ _ |- _ => destruct K end; repeat match goal with K : (_ <=? _) = false |- _ => apply Z.leb_gt in K end; lia.
Qed.

(** ** Meshes and polylines *)
Section Painter.
Context {T : Type} {N : Num T} {TR : Trig T} {FL : Flt T}.
Implicit Types r s : Renderer T.
Lemma get_triangle_gen (m : Mesh T) i t : wf m -> vget (ktris (mkern m)) i = Ok t ->
  get_triangle m i = Ok (mkTri (pt (abs m) (lv1 t) (mkP n0 n0 n0)) (pt (abs m) (lv2 t) (mkP n0 n0 n0)) (pt (abs m) (lv3 t) (mkP n0 n0 n0))).
Proof.
  intros W E. destruct (get_triangle_ok m i t W E) as [p [q [r [E1 [E2 [E3 ->]]]]]]. unfold pt. cbn [averts abs].
  rewrite (nth_vget _ _ _ _ E1), (nth_vget _ _ _ _ E2), (nth_vget _ _ _ _ E3). reflexivity.
Qed.
Lemma painted_app r col e fs gs : painted r col e (fs ++ gs) = do s <- painted r col e fs; painted s col e gs.
Proof.
  revert r. induction fs as [|[[p q] t] fs IH]; intros r; [reflexivity|]. cbn [app painted]. destruct (draw_triangle _ _ _ _ _ _) as [[u d]|]; [|reflexivity]. cbn [bind fst snd].
  destruct (if e && d then _ else _) as [v|]; [|reflexivity]. cbn [bind]. apply IH.
Qed.
Lemma mesh_painted (m : Mesh T) a r e c : reach m -> shows m a -> draw_mesh r m e c = painted r (if c =? -1 then acolor a else c) e (corners_of a).
Proof.
  intros Rm S. pose proof (reach_wf m Rm) as W. rewrite (shows_unique m a (abs m) S (shows_abs m)). unfold draw_mesh. cbv zeta.
  change (get_color m) with (acolor (abs m)). set (col := if c =? -1 then _ else _). set (L := ktris (mkern m)).
  set (f := fun t => (pt (abs m) (lv1 t) (mkP n0 n0 n0), pt (abs m) (lv2 t) (mkP n0 n0 n0), pt (abs m) (lv3 t) (mkP n0 n0 n0))).
  assert (corners_of (abs m) = map f (filter (fun t => negb (lunl t =? -1)) L)) as ->.
  { unfold corners_of, live. cbn [atris abs]. fold L. clear. induction L as [|t L IH]; [reflexivity|]. cbn [map filter]. unfold abs_tri at 1. cbn [snd]. destruct (lunl t =? -1); cbn [negb]; [exact IH|]. cbn [map fst]. f_equal. exact IH. }
  set (body := fun i r => _).
  assert (forall l2 l1, L = l1 ++ l2 -> forall r, for_ (vsize l1) (vsize L) body r = painted r col e (map f (filter (fun t => negb (lunl t =? -1)) l2))) as G.
  { induction l2 as [|t l2 IH]; intros l1 EL r'.
    - rewrite app_nil_r in EL. rewrite <- EL, for_empty by lia. reflexivity.
    - assert (vget L (vsize l1) = Ok t) as ET. { rewrite EL. unfold vget, vsize. destruct (Z.ltb_spec (Z.of_nat (length l1)) 0); [lia|]. rewrite Nat2Z.id, nth_error_app2, Nat.sub_diag by lia. reflexivity. }
      assert (vsize L = vsize l1 + 1 + vsize l2) as SL by (rewrite EL; unfold vsize; rewrite app_length; cbn [length]; lia). pose proof (vsize_nonneg l2).
      rewrite for_step by lia. specialize (IH (l1 ++ [t]) ltac:(rewrite <- app_assoc; exact EL)). replace (vsize (l1 ++ [t])) with (vsize l1 + 1) in IH by (unfold vsize; rewrite app_length; cbn [length]; lia).
      unfold body at 1. rewrite (is_unlinked_ok _ _ _ ET). cbn [bind]. cbn [filter]. destruct (lunl t =? -1); cbn [negb bind]; [apply IH|].
      rewrite (get_triangle_gen m _ _ W ET). cbn [bind t1 t2 t3 map painted]. unfold f at 1. destruct (draw_triangle _ _ _ _ _ _) as [[u d]|]; [|reflexivity]. cbn [bind fst snd].
      destruct (e && d).
      + cbn [rrun rstep]. do 3 (destruct (draw_line _ _ _ _) as [?|]; [|reflexivity]; cbn [bind]). apply IH.
      + cbn [bind]. apply IH. }
  apply (G L [] eq_refl).
Qed.
Lemma painted_plain r col fs : painted r col false fs = rrun r (map (fun f => let '(p, q, s) := f in RTriangle p q s col false) fs).
Proof.
  revert r. induction fs as [|[[p q] t] fs IH]; intros r; [reflexivity|]. cbn [map painted rrun rstep andb]. destruct (draw_triangle _ _ _ _ _ _) as [[u d]|]; [|reflexivity]. cbn [bind fst snd]. apply IH.
Qed.
Lemma mesh_plain (m : Mesh T) a r c : reach m -> shows m a ->
  draw_mesh r m false c = rrun r (map (fun f => let '(p, q, s) := f in RTriangle p q s (if c =? -1 then acolor a else c) false) (corners_of a)).
Proof. intros Rm S. rewrite (mesh_painted m a r false c Rm S). apply painted_plain. Qed.
Lemma polyline_lines (pl : list (Point3 T)) r c : draw_polyline r pl c = rrun r (map (fun g => RLine (fst g) (snd g) c) (sides pl)).
Proof.
  unfold draw_polyline. destruct pl as [|p pl]; [reflexivity|]. destruct (Z.ltb_spec (vsize (p :: pl)) 2) as [L|L]; [destruct pl; [reflexivity|unfold vsize in L; cbn [length] in L; lia]|]. clear L.
  set (PL := p :: pl). set (body := fun i r => _).
  assert (forall l2 l1 p, PL = l1 ++ p :: l2 -> forall r, for_ (vsize l1 + 1) (vsize PL) body r = rrun r (map (fun g => RLine (fst g) (snd g) c) (sides (p :: l2)))) as G; [|apply (G pl [] p eq_refl)].
  induction l2 as [|q l2 IH]; intros l1 p0 EL r'.
  - rewrite for_empty; [reflexivity|]. rewrite EL. unfold vsize. rewrite app_length. cbn [length]. lia.
  - assert (vsize PL = vsize l1 + 2 + vsize l2) as SL by (rewrite EL; unfold vsize; rewrite app_length; cbn [length]; lia). pose proof (vsize_nonneg l2). pose proof (vsize_nonneg l1).
    assert (vget PL (vsize l1) = Ok p0) as E1. { rewrite EL. unfold vget, vsize. destruct (Z.ltb_spec (Z.of_nat (length l1)) 0); [lia|]. rewrite Nat2Z.id, nth_error_app2, Nat.sub_diag by lia. reflexivity. }
    specialize (IH (l1 ++ [p0]) q ltac:(rewrite <- app_assoc; exact EL)). assert (vsize (l1 ++ [p0]) = vsize l1 + 1) as S1 by (unfold vsize; rewrite app_length; cbn [length]; lia). rewrite S1 in IH.
    assert (vget PL (vsize l1 + 1) = Ok q) as E2. { rewrite <- S1. replace PL with ((l1 ++ [p0]) ++ q :: l2) by (rewrite <- app_assoc; symmetry; exact EL). unfold vget, vsize. destruct (Z.ltb_spec (Z.of_nat (length (l1 ++ [p0]))) 0); [lia|]. rewrite Nat2Z.id, nth_error_app2, Nat.sub_diag by lia. reflexivity. }
    rewrite for_step by lia. unfold body at 1. replace (vsize l1 + 1 - 1) with (vsize l1) by lia. rewrite E1. cbn [bind]. rewrite E2. cbn [bind].
    change (sides (p0 :: q :: l2)) with ((p0, q) :: sides (q :: l2)). cbn [map rrun rstep fst snd]. destruct (draw_line _ _ _ _) as [u|]; [|reflexivity]. cbn [bind]. apply IH.
Qed.
End Painter.

(** ** Wrong pictures, in doubles *)
#[local] Existing Instance level_trig.
#[local] Existing Instance F64Flt.
Definition window (X Y : Z) (os : list (rop f64)) : res (Renderer f64) := do r <- rd_new (repeat 0 (Z.to_nat (X * Y))) X Y; rrun r (scene ++ os).
Definition seen (X Y : Z) (os : list (rop f64)) (x y : Z) : res Z := do r <- window X Y os; vget (rd_pix r) (y * X + x).
Definition place (X Y : Z) (os : list (rop f64)) (p : Point3 f64) : option (Z * Z) :=
  match window X Y os with Ok r => match project (rd_cam r) p with Ok (q, _) => Some q | Err _ => None end | Err _ => None end.
Definition slope : rop f64 := RTriangle (P64 (-24) 0 3) (P64 12 24 12) (P64 12 (-24) 12) 255 true.
Definition wall : rop f64 := RTriangle (P64 (-40) 40 5) (P64 40 40 5) (P64 0 (-80) 5) 65280 true.
Definition fin : rop f64 := RTriangle (P64 (-6) 5 1) (P64 10 4 1) (P64 (-14) 1 1) 255 true.
Lemma left_border : place 4 4 [] (P64 (-24) 0 3) = Some (-5, 2) /\ place 4 4 [] (P64 12 24 12) = Some (3, 0) /\ place 4 4 [] (P64 12 (-24) 12) = Some (3, 4) /\
  seen 4 4 [slope; wall] 0 2 = Ok 254 /\ seen 4 4 [slope] 0 2 = Ok 254 /\ seen 16 4 [slope; wall] 6 2 = Ok 65024 /\ seen 16 4 [slope] 6 2 = Ok 254.
Proof. repeat (split; [vm_compute; reflexivity|]). vm_compute. reflexivity. Qed.
Lemma above_border : place 4 4 [] (P64 (-6) 5 1) = Some (-3, -2) /\ place 4 4 [] (P64 10 4 1) = Some (12, -1) /\ place 4 4 [] (P64 (-14) 1 1) = Some (-11, 1) /\
  seen 4 4 [] 3 0 = Ok 7 /\ seen 4 4 [fin] 3 0 = Ok 254 /\ (forall u, in_tri2 (-3, -2) (12, -1) (-11, 1) u 0 -> (u <= 1 / 2)%R).
Proof.
  repeat (split; [vm_compute; reflexivity|]). intros u (p & q & r & A & B & C & D & E & F). cbn [fst snd] in *. lra.
Qed.

(** ** A triangle that meets the hypotheses *)
#[local] Existing Instance exact_flt.
Lemma flat_case : exists r : Renderer R, framed r 8 8 /\ blank r /\
  project (rd_cam r) (mkP (-4) 4 1)%R = Ok (0, 0, 1%R) /\ project (rd_cam r) (mkP 3 4 1)%R = Ok (7, 0, 1%R) /\ project (rd_cam r) (mkP (-4) (-3) 1)%R = Ok (0, 7, 1%R) /\
  0 < turn (0, 0) (7, 0) (0, 7) /\ ~ outside 8 8 (0, 0) (7, 0) (0, 7) /\
  (exists n, tri_normal (mkTri (mkP (-4) 4 1) (mkP 3 4 1) (mkP (-4) (-3) 1))%R = Ok n /\ compute_color (rd_lights r) 255 n = Ok 0) /\
  (forall u, (Rabs (u - 2) <= 1)%R -> in_tri2 (0, 0) (7, 0) (0, 7) u 2).
Proof.
  destruct cam_new_R as [c0 C0]. destruct (new_ok 8 8 (repeat 0 64) c0 ltac:(lia) ltac:(lia) ltac:(unfold int_max; lia) eq_refl C0) as (r0 & E0 & S0 & F0 & P0).
  destruct (set_camera_R r0 0%R 0%R 0%R 0%R 0%R 0%R 0%R 1%R) as (e & Ee & Ec). destruct euler_zero as (e' & Ee' & Ez). rewrite Ee in Ee'. injection Ee' as <-.
  set (rc := mkRd _ _ _ _ _ _ _) in Ec. assert (rd_X r0 = 8 /\ rd_Y r0 = 8) as [EX EY] by (split; apply F0). exists rc.
  assert (rd_cam rc = mkCam 0%R 0%R 0%R 0%R 1%R 4 4 e) as CC by (unfold rc; cbn [rd_cam]; rewrite EX, EY; reflexivity).
  assert (forall (x y : R) (sx sy : Z), 0 <= sx < 100 -> 0 <= sy < 100 -> (IZR sx = x + 4)%R -> (IZR sy = 4 - y)%R -> project (rd_cam rc) (mkP x y 1%R) = Ok (sx, sy, 1%R)) as PR.
  { intros x y sx sy Hx Hy EX' EY'. assert (local_ref (rd_cam rc) (mkP x y 1)%R = mkP x (- y)%R 1%R) as LR. { rewrite CC. unfold local_ref. cbn [cam_rot]. rewrite Ez. cbn. apply P_eq; cbn; ring. }
    assert (cam_depth (rd_cam rc) (mkP x y 1) = 1)%R as D by (unfold cam_depth; rewrite LR; reflexivity).
    rewrite project_R by (rewrite D; lra). rewrite D, LR, CC. cbn [px py cam_zoom cam_cx cam_cy]. rewrite (trunc_R _ sx) by (unfold int_max; lia || lra). cbn [bind]. rewrite (trunc_R _ sy) by (unfold int_max; lia || lra). cbn [bind]. do 2 f_equal. field. }
  split; [exact F0|]. split. { intros k Hk. change (rd_X rc) with (rd_X r0) in Hk. change (rd_Y rc) with (rd_Y r0) in Hk. unfold depth. change (pixel rc k) with (pixel r0 k). rewrite P0 by (rewrite EX, EY in Hk; exact Hk). reflexivity. }
  split; [apply PR; lia || lra|]. split; [apply PR; lia || lra|]. split; [apply PR; lia || lra|]. split; [unfold turn; cbn; lia|]. split; [unfold outside, top3, bottom3; cbn; lia|].
  split.
  - assert (rd_lights rc = []) as -> by (unfold settings in S0; unfold rc; cbn [rd_lights]; congruence).
    unfold tri_normal, normalized, orthogonal. rewrite norm_R. cbn [bind]. set (v := cross _ _). assert (len3 v <> 0)%R as NZ.
    { intros Z0. pose proof (len3_sq v) as Q. rewrite Z0 in Q. unfold v, cross, psub, dot3 in Q. cbn in Q. lra. }
    unfold pdiv. rewrite !div_R by exact NZ. cbn [bind]. eexists. split; [reflexivity|]. rewrite color_R. unfold shade. cbn [fold_right]. unfold level. rewrite (trunc_R _ 0) by (unfold int_max; lia || (cbn; lra)). reflexivity.
  - intros u Hu. apply Rabs_le_inv' in Hu. exists (1 - u / 7 - 2 / 7)%R, (u / 7)%R, (2 / 7)%R. cbn [fst snd]. repeat split; lra.
Qed.
Lemma drawn X Y (r : Renderer R) A B C color two a b c n col : 1 <= X -> 1 <= Y -> framed r X Y ->
  project (rd_cam r) A = Ok a -> project (rd_cam r) B = Ok b -> project (rd_cam r) C = Ok c ->
  (two = true \/ 0 < turn (fst a) (fst b) (fst c)) -> ~ outside X Y (fst a) (fst b) (fst c) -> spans_int (fst a) (fst b) (fst c) ->
  tri_normal (mkTri A B C) = Ok n -> compute_color (rd_lights r) color n = Ok col -> exists s, draw_triangle r A B C color two = Ok (s, true) /\ settings s = settings r.
Proof.
  intros X1 Y1 F EA EB EC CULL OUT SP EN ECO. destruct (triangle_cover X Y X1 Y1 r A B C color two a b c n col F EA EB EC CULL OUT SP EN ECO) as (s & a' & b' & c' & PM & SO & ED & CV).
  exists s. split; [exact ED|]. destruct CV as (fs & E & G & _). injection E as ->. apply (ok_paint X Y (settings r) r fs (conj F eq_refl) G).
Qed.
Lemma back_case : exists r : Renderer R, project (rd_cam r) (mkP (-4) 4 1)%R = Ok (0, 0, 1%R) /\ project (rd_cam r) (mkP 3 4 1)%R = Ok (7, 0, 1%R) /\ project (rd_cam r) (mkP (-4) (-3) 1)%R = Ok (0, 7, 1%R) /\
  turn (0, 0) (0, 7) (7, 0) <= 0 /\ ~ outside 8 8 (0, 0) (7, 0) (0, 7) /\ outside 8 8 (0, 9) (4, 8) (7, 12) /\
  draw_triangle r (mkP (-4) 4 1)%R (mkP (-4) (-3) 1)%R (mkP 3 4 1)%R 255 false = Ok (r, false).
Proof.
  destruct flat_case as (r & F & _ & PA & PB & PC & _ & O & _). exists r. split; [exact PA|]. split; [exact PB|]. split; [exact PC|]. split; [unfold turn; cbn; lia|]. split; [exact O|].
  split; [unfold outside, top3, bottom3; cbn; lia|]. apply (culled r _ _ _ 255 false _ _ _ PA PC PB); [right; unfold sides_int, int_min, int_max; cbn [fst snd]; lia|]. left. split; [reflexivity|]. unfold turn. cbn. lia.
Qed.
Lemma mesh_case : (exists m : Mesh R, reach m /\ shows m tetra_abs) /\ length (corners_of tetra_abs) = 4%nat /\ sides [1; 2; 3] = [(1, 2); (2, 3)].
Proof. split; [destruct tetra_exists as (m & A & B & _); exists m; split; assumption|]. split; reflexivity. Qed.

(** ** Coordinates too far apart *)
Lemma sides_overflow {T} {N : Num T} {TR : Trig T} {FL : Flt T} (r : Renderer T) A B C color a b c :
  project (rd_cam r) A = Ok a -> project (rd_cam r) B = Ok b -> project (rd_cam r) C = Ok c -> ~ sides_int (fst a) (fst b) (fst c) ->
  draw_triangle r A B C color false = Err FOverflow.
Proof.
  intros EA EB EC H. destruct a as [[ax ay] aw], b as [[bx by_] bw], c as [[cx cy] cw]. unfold draw_triangle. rewrite EA, EB, EC. cbn [bind]. unfold sides_int in H. cbn [fst snd] in H.
  assert (forall z, {int_min <= z <= int_max} + {~ int_min <= z <= int_max}) as D by (intros z; destruct (Z_le_dec int_min z), (Z_le_dec z int_max); [left; lia|right; lia..]).
  destruct (D (ax - bx)) as [D1|D1]; [rewrite (iint_ok _ D1); cbn [bind]|rewrite (iint_bad _ D1); reflexivity]. destruct (D (ay - by_)) as [D2|D2]; [rewrite (iint_ok _ D2); cbn [bind]|rewrite (iint_bad _ D2); reflexivity].
  destruct (D (ax - cx)) as [D3|D3]; [rewrite (iint_ok _ D3); cbn [bind]|rewrite (iint_bad _ D3); reflexivity]. destruct (D (ay - cy)) as [D4|D4]; [rewrite (iint_ok _ D4); cbn [bind]|rewrite (iint_bad _ D4); reflexivity].
  contradiction H. repeat split; lia.
Qed.
Lemma line_overflow {T} {N : Num T} {TR : Trig T} {FL : Flt T} (r : Renderer T) p q color a b :
  project (rd_cam r) p = Ok a -> project (rd_cam r) q = Ok b -> ~ (int_min <= fst (fst b) - fst (fst a) <= int_max /\ int_min <= snd (fst b) - snd (fst a) <= int_max) ->
  draw_line r p q color = Err FOverflow.
Proof.
  intros EA EB H. destruct a as [[ax ay] aw], b as [[bx by_] bw]. unfold draw_line. rewrite EA, EB. cbn [bind]. cbn [fst snd] in H.
  assert (forall z, {int_min <= z <= int_max} + {~ int_min <= z <= int_max}) as D by (intros z; destruct (Z_le_dec int_min z), (Z_le_dec z int_max); [left; lia|right; lia..]).
  destruct (D (bx - ax)) as [D1|D1]; [rewrite (iint_ok _ D1); cbn [bind]|rewrite (iint_bad _ D1); reflexivity]. destruct (D (by_ - ay)) as [D2|D2]; [tauto|rewrite (iint_bad _ D2); reflexivity].
Qed.
Lemma trunc_neg (x : R) z : int_min <= z <= -1 -> (IZR z - 1 < x <= IZR z)%R -> ntrunc x = Ok z.
Proof.
  intros [A B] H. apply IZR_le in A, B. assert (IZR z <= -1)%R by exact B. rewrite trunc_ok by (change (IZR int_max) with 2147483647%R; lra). f_equal. unfold Rtrunc. destruct (Rlt_dec x 0); [|lra].
  rewrite (Int_part_char _ (- z)); [lia|]. rewrite opp_IZR. lra.
Qed.
Lemma wide_case : exists r : Renderer R, framed r 8 8 /\
  project (rd_cam r) (mkP (-1500000000) 1 1)%R = Ok (-1499999995, 3, 1%R) /\ project (rd_cam r) (mkP 1500000000 1 1)%R = Ok (1500000004, 3, 1%R) /\ project (rd_cam r) (mkP 0 (-2) 1)%R = Ok (4, 6, 1%R) /\
  draw_triangle r (mkP (-1500000000) 1 1)%R (mkP 1500000000 1 1)%R (mkP 0 (-2) 1)%R 255 false = Err FOverflow /\ draw_line r (mkP (-1500000000) 1 1)%R (mkP 1500000000 1 1)%R 255 = Err FOverflow.
Proof.
  destruct cam_new_R as [c0 C0]. destruct (new_ok 8 8 (repeat 0 64) c0 ltac:(lia) ltac:(lia) ltac:(unfold int_max; lia) eq_refl C0) as (r0 & E0 & S0 & F0 & P0).
  destruct (set_camera_R r0 0%R 0%R 0%R 0%R 0%R 0%R 0%R 1%R) as (e & Ee & Ec). destruct euler_zero as (e' & Ee' & Ez). rewrite Ee in Ee'. injection Ee' as <-.
  set (rc := mkRd _ _ _ _ _ _ _) in Ec. assert (rd_X r0 = 8 /\ rd_Y r0 = 8) as [EX EY] by (split; apply F0). exists rc.
  assert (rd_cam rc = mkCam 0%R 0%R 0%R 0%R 1%R 4 4 e) as CC by (unfold rc; cbn [rd_cam]; rewrite EX, EY; reflexivity).
  assert (forall (x y : R) (sx sy : Z), ntrunc (x + 4 + 1 / 2)%R = Ok sx -> ntrunc (- y + 4 + 1 / 2)%R = Ok sy -> project (rd_cam rc) (mkP x y 1%R) = Ok (sx, sy, 1%R)) as PR.
  { intros x y sx sy Hx Hy. assert (local_ref (rd_cam rc) (mkP x y 1)%R = mkP x (- y)%R 1%R) as LR. { rewrite CC. unfold local_ref. cbn [cam_rot]. rewrite Ez. cbn. apply P_eq; cbn; ring. }
    assert (cam_depth (rd_cam rc) (mkP x y 1) = 1)%R as D by (unfold cam_depth; rewrite LR; reflexivity).
    rewrite project_R by (rewrite D; lra). rewrite D, LR, CC. cbn [px py cam_zoom cam_cx cam_cy].
    replace (x * 1 / 1)%R with x by field. replace (- y * 1 / 1)%R with (- y)%R by field. rewrite Hx. cbn [bind]. rewrite Hy. cbn [bind]. do 2 f_equal. field. }
  assert (project (rd_cam rc) (mkP (-1500000000) 1 1)%R = Ok (-1499999995, 3, 1%R)) as PA by (apply PR; [apply trunc_neg; [unfold int_min; lia|lra]|apply trunc_R; [unfold int_max; lia|lra]]).
  assert (project (rd_cam rc) (mkP 1500000000 1 1)%R = Ok (1500000004, 3, 1%R)) as PB by (apply PR; apply trunc_R; (unfold int_max; lia) || lra).
  assert (project (rd_cam rc) (mkP 0 (-2) 1)%R = Ok (4, 6, 1%R)) as PC by (apply PR; apply trunc_R; (unfold int_max; lia) || lra).
  split; [exact F0|]. split; [exact PA|]. split; [exact PB|]. split; [exact PC|]. split.
  - apply (sides_overflow rc _ _ _ _ _ _ _ PA PB PC). unfold sides_int, int_min. cbn [fst snd]. lia.
  - apply (line_overflow rc _ _ _ _ _ PA PB). unfold int_max. cbn [fst snd]. lia.
Qed.
