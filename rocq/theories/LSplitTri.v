(** Mesh::split_triangle. *)
From Coq Require Import Reals List Bool Lra Lia Psatz ZArith.
From Verif Require Import Base Num MGeometry MKernel MMesh MMeshRun MMeasure SMesh SReach SGeom SGeom2 SMeasure LBase LGeom LGeom2 LGeomEx LGeom3 LMesh LReach LMeasure LMeasure2.
Import ListNotations.
Open Scope R_scope.

Lemma seg_intersect_ok (A B : Segment3 R) : exists o, seg_intersect A B = Ok o.
Proof.
  unfold seg_intersect. destruct (nltb (norm_square (psub (s2 B) (s1 B))) _); [eexists; reflexivity|].
  destruct (nltb (norm_square (psub (s2 A) (s1 A))) _); [eexists; reflexivity|].
  match goal with |- context [nltb (nabs ?d) ?e] => destruct (nltb (nabs d) e) eqn:D; [eexists; reflexivity|]; set (dd := d) in * end.
  cbn [nltb nabs nlit RNum] in D. apply Rltb_ge in D. rewrite ndiv_R by (intros Z; rewrite Z, Rabs_R0 in D; lra). cbn [bind].
  destruct (_ || _); eexists; reflexivity.
Qed.


Lemma push_inter_tside tA pl k p q v : (forall x, side pl x = k * tside tA x) -> 0 < k ->
  exists o, push_inter pl p q v = Ok (match o with Some x => v ++ [x] | None => v end) /\
  match o with
  | Some x => tside tA p * tside tA q < 0 /\ between x p q /\ tside tA x = 0
  | None => 0 <= tside tA p * tside tA q
  end.
Proof.
  intros S K. unfold push_inter. destruct (plane_seg_exact pl p q) as [o [E H]]. rewrite E. cbn [bind]. rewrite !S in H.
  assert (k * tside tA p * (k * tside tA q) = (k * k) * (tside tA p * tside tA q)) as EK by ring. rewrite EK in H. assert (0 < k * k) by nra.
  exists o. destruct o as [x|].
  - split; [reflexivity|]. destruct H as [H1 [H2 H3]]. split; [nra|]. split; [exact H3|]. unfold on_plane in H2. rewrite S in H2. nra.
  - split; [reflexivity|]. destruct (Rle_or_lt 0 (tside tA p * tside tA q)); [assumption|]. exfalso. apply H. nra.
Qed.

Lemma zero_between a b c : a * b < 0 -> 0 <= a * c -> 0 <= b * c -> c = 0.
Proof. intros H1 H2 H3. destruct (Rtotal_order c 0) as [C|[C|C]]; [|exact C|]; exfalso; destruct (Rtotal_order a 0) as [A|[A|A]]; nra. Qed.
Definition two (m : Mesh R) (tA : Triangle3 R) (P1 P2 : pt3) : res (Mesh R) :=
      if negb (tri_contains tA P1) && negb (tri_contains tA P2) then
        let seg := mkSeg P1 P2 in
        do b12 <- seg_intersect (mkSeg (t1 tA) (t2 tA)) seg;
        do b13 <- seg_intersect (mkSeg (t1 tA) (t3 tA)) seg;
        do b23 <- seg_intersect (mkSeg (t2 tA) (t3 tA)) seg;
        let some := fun o : option (Point3 R) => match o with Some _ => true | None => false end in
        if negb (some b12 || some b13 || some b23) then Ok m else
        do _ <- massert (negb (some b12 && some b13 && some b23));
        Ok m
      else Ok m.
Lemma two_out m tA P1 P2 : two m tA P1 P2 = Ok m \/ two m tA P1 P2 = Err FAssert /\ tri_contains tA P1 = false /\ tri_contains tA P2 = false.
Proof.
  unfold two. destruct (tri_contains tA P1); [left; reflexivity|]. destruct (tri_contains tA P2); [left; reflexivity|]. cbn [negb andb]. cbv zeta.
  destruct (seg_intersect_ok (mkSeg (t1 tA) (t2 tA)) (mkSeg P1 P2)) as [b1 ->]. destruct (seg_intersect_ok (mkSeg (t1 tA) (t3 tA)) (mkSeg P1 P2)) as [b2 ->].
  destruct (seg_intersect_ok (mkSeg (t2 tA) (t3 tA)) (mkSeg P1 P2)) as [b3 ->]. cbn [bind].
  destruct b1, b2, b3; cbn; auto.
Qed.
(** Both edges at the first corner of the splitter cross the plane. *)
Lemma split_two m i ts tA : get_triangle m i = Ok tA -> tri_proper tA -> tri_proper ts ->
  (tside ts (t1 tA) < 0 \/ tside ts (t2 tA) < 0 \/ tside ts (t3 tA) < 0) -> (0 < tside ts (t1 tA) \/ 0 < tside ts (t2 tA) \/ 0 < tside ts (t3 tA)) ->
  tside tA (t1 ts) * tside tA (t2 ts) < 0 -> tside tA (t1 ts) * tside tA (t3 ts) < 0 ->
  exists x y, split_triangle m i ts = two m tA x y /\ between x (t1 ts) (t2 ts) /\ tside tA x = 0 /\ between y (t1 ts) (t3 ts) /\ tside tA y = 0.
Proof.
  intros G CA CS N P X12 X13. unfold split_triangle. rewrite G. cbn [bind].
  destruct (tside_plane ts CS) as [plS [kS [ES [KS SS]]]]. rewrite ES. cbn [bind].
  rewrite (proj2 (cutted_by_iff tA plS)).
  2: { rewrite !SS. split; [destruct P as [P|[P|P]]|destruct N as [N|[N|N]]]; [left|right; left|right; right|left|right; left|right; right]; nra. }
  destruct (tside_plane tA CA) as [plA [kA [EA [KA SA]]]]. rewrite EA. cbn [negb bind].
  rewrite (proj2 (cutted_by_iff ts plA)).
  2: { rewrite !SA. destruct (Rtotal_order (tside tA (t1 ts)) 0) as [A|[A|A]]; [|rewrite A in X12; lra|]; (split; [|]); ((left; nra) || (right; left; nra)). }
  cbn [negb].
  destruct (push_inter_tside tA plA kA (t1 ts) (t2 ts) [] SA KA) as [o1 [E1 H1]]. rewrite E1. cbn [bind]. destruct o1 as [x|]; [|lra]. cbn [app].
  destruct (push_inter_tside tA plA kA (t1 ts) (t3 ts) [x] SA KA) as [o2 [E2 H2]]. rewrite E2. cbn [bind]. destruct o2 as [y|]; [|lra]. cbn [app].
  exists x, y. split; [reflexivity|]. tauto.
Qed.
(** The first corner of the splitter in the plane, its other edge crossing it. *)
Lemma split_one m i ts tA : get_triangle m i = Ok tA -> tri_proper tA -> tri_proper ts ->
  (tside ts (t1 tA) < 0 \/ tside ts (t2 tA) < 0 \/ tside ts (t3 tA) < 0) -> (0 < tside ts (t1 tA) \/ 0 < tside ts (t2 tA) \/ 0 < tside ts (t3 tA)) ->
  tside tA (t1 ts) = 0 -> tside tA (t2 ts) * tside tA (t3 ts) < 0 ->
  exists x, split_triangle m i ts = (if tri_contains tA x then split_triangle_with_point m i x else Ok m) /\ between x (t2 ts) (t3 ts) /\ tside tA x = 0.
Proof.
  intros G CA CS N P Z1 X23. unfold split_triangle. rewrite G. cbn [bind].
  destruct (tside_plane ts CS) as [plS [kS [ES [KS SS]]]]. rewrite ES. cbn [bind].
  rewrite (proj2 (cutted_by_iff tA plS)).
  2: { rewrite !SS. split; [destruct P as [P|[P|P]]|destruct N as [N|[N|N]]]; [left|right; left|right; right|left|right; left|right; right]; nra. }
  destruct (tside_plane tA CA) as [plA [kA [EA [KA SA]]]]. rewrite EA. cbn [negb bind].
  rewrite (proj2 (cutted_by_iff ts plA)).
  2: { rewrite !SA. destruct (Rtotal_order (tside tA (t2 ts)) 0) as [A|[A|A]]; [|rewrite A in X23; lra|]; (split; [|]); ((right; left; nra) || (right; right; nra)). }
  cbn [negb].
  destruct (push_inter_tside tA plA kA (t1 ts) (t2 ts) [] SA KA) as [o1 [E1 H1]]. rewrite E1. cbn [bind]. rewrite Z1 in H1. destruct o1 as [x|]; [exfalso; lra|].
  destruct (push_inter_tside tA plA kA (t1 ts) (t3 ts) [] SA KA) as [o2 [E2 H2]]. rewrite E2. cbn [bind]. rewrite Z1 in H2. destruct o2 as [x|]; [exfalso; lra|].
  destruct (push_inter_tside tA plA kA (t2 ts) (t3 ts) [] SA KA) as [o3 [E3 H3]]. change (vsize (@nil pt3) <? 2)%Z with true. cbv iota. rewrite E3. cbn [bind]. destruct o3 as [x|]; [|lra].
  exists x. split; [reflexivity|]. tauto.
Qed.
(** Everything split_triangle can do. *)
Lemma split_triangle_outcome (m : Mesh R) i (ts tA : Triangle3 R) : get_triangle m i = Ok tA -> tri_proper tA -> tri_proper ts ->
  split_triangle m i ts = Ok m \/
  (split_triangle m i ts = Err FAssert /\ forall x, edge_crossing tA ts x -> ~ in_tri tA x) \/
  exists x, split_triangle m i ts = split_triangle_with_point m i x /\ corner_and_edge tA ts x /\ (in_tri tA x \/ on_line x (t2 tA) (t3 tA)).
Proof.
  intros G CA CS. unfold split_triangle. rewrite G. cbn [bind].
  destruct (tside_plane ts CS) as [plS [kS [ES [KS SS]]]]. rewrite ES. cbn [bind].
  destruct (cutted_by tA plS); cbn [negb]; [|left; reflexivity].
  destruct (tside_plane tA CA) as [plA [kA [EA [KA SA]]]]. rewrite EA. cbn [bind].
  destruct (cutted_by ts plA); cbn [negb]; [|left; reflexivity].
  destruct (push_inter_tside tA plA kA (t1 ts) (t2 ts) [] SA KA) as [o1 [E1 H1]]. rewrite E1. cbn [bind].
  set (v1 := match o1 with Some x => [] ++ [x] | None => [] end).
  destruct (push_inter_tside tA plA kA (t1 ts) (t3 ts) v1 SA KA) as [o2 [E2 H2]]. rewrite E2. cbn [bind].
  set (v2 := match o2 with Some x => v1 ++ [x] | None => v1 end).
  destruct (push_inter_tside tA plA kA (t2 ts) (t3 ts) v2 SA KA) as [o3 [E3 H3]]. rewrite E3.
  assert (forall x, tside tA x = 0 -> (tri_contains tA x = true <-> in_tri tA x \/ on_line x (t2 tA) (t3 tA))) as CT.
  { intros x X. rewrite (tri_eta tA) at 1. apply contains_exact; [exact CA|]. apply tside_zero; assumption. }
  set (s1 := tside tA (t1 ts)) in *. set (s2 := tside tA (t2 ts)) in *. set (s3 := tside tA (t3 ts)) in *.
  assert (forall x, corner_and_edge tA ts x -> (if tri_contains tA x then split_triangle_with_point m i x else Ok m) = Ok m \/
     exists y, (if tri_contains tA x then split_triangle_with_point m i x else Ok m) = split_triangle_with_point m i y /\ corner_and_edge tA ts y /\ (in_tri tA y \/ on_line y (t2 tA) (t3 tA))) as ONE.
  { intros x CE. destruct (tri_contains tA x) eqn:CX; [right|left; reflexivity]. exists x. split; [reflexivity|]. split; [exact CE|].
    apply CT; [|exact CX]. destruct CE as (c & p & q & _ & _ & _ & _ & Z). exact Z. }
  assert (forall x, edge_crossing tA ts x -> (o1 = Some x \/ o2 = Some x \/ o3 = Some x)) as EC.
  { assert (forall p q x y, tside tA p * tside tA q < 0 -> between x p q -> tside tA x = 0 -> between y p q -> tside tA y = 0 -> x = y) as U.
    { intros p q x y D B1 Z1 [k [K ->]] Z2. apply (between_unique tA p q); try assumption. exists k. split; [lra|reflexivity]. }
    intros x (p & q & [[-> ->]|[[-> ->]|[-> ->]]] & D & B & Z); [left|right; left|right; right].
    - destruct o1 as [y|]; [|fold s1 s2 in D; lra]. destruct H1 as (_ & B1 & Z1). rewrite (U _ _ x y D B Z B1 Z1). reflexivity.
    - destruct o2 as [y|]; [|fold s1 s3 in D; lra]. destruct H2 as (_ & B1 & Z1). rewrite (U _ _ x y D B Z B1 Z1). reflexivity.
    - destruct o3 as [y|]; [|fold s2 s3 in D; lra]. destruct H3 as (_ & B1 & Z1). rewrite (U _ _ x y D B Z B1 Z1). reflexivity. }
  assert (forall x, tside tA x = 0 -> tri_contains tA x = false -> ~ in_tri tA x) as NI by (intros x X Y I; rewrite (proj2 (CT x X) (or_introl I)) in Y; discriminate).
  destruct o1 as [x1|], o2 as [x2|]; cbn [app] in v1; subst v1; cbn [app] in v2; subst v2; cbv beta.
  - change (vsize [x1; x2] <? 2)%Z with false. cbn [bind]. change (vsize [x1; x2] <=? 2)%Z with true. cbn [massert bind].
    destruct (two_out m tA x1 x2) as [T|(T & F1 & F2)]; [left; exact T|right; left]. split; [exact T|].
    intros x C. destruct H1 as (D1 & _ & Z1), H2 as (D2 & _ & Z2). destruct (EC x C) as [Q|[Q|Q]]; [injection Q as <-; auto..|].
    rewrite Q in H3. exfalso. destruct H3 as (D3 & _). destruct (Rtotal_order s1 0) as [A|[A|A]]; nra.
  - change (vsize [x1] <? 2)%Z with true. cbn [bind]. destruct o3 as [x3|]; cbn [app].
    + change (vsize [x1; x3] <=? 2)%Z with true. cbn [massert bind]. destruct (two_out m tA x1 x3) as [T|(T & F1 & F2)]; [left; exact T|right; left]. split; [exact T|].
      intros x C. destruct H1 as (D1 & _ & Z1), H3 as (D2 & _ & Z2). destruct (EC x C) as [Q|[Q|Q]]; [injection Q as <-; auto|discriminate|injection Q as <-; auto].
    + change (vsize [x1] <=? 2)%Z with true. cbn [massert bind]. destruct (ONE x1) as [T|T]; [|left; exact T|right; right; exact T].
      destruct H1 as (D & B & Z). exists (t3 ts), (t1 ts), (t2 ts). split; [auto|]. split; [apply (zero_between s1 s2); assumption|]. split; [exact D|]. split; assumption.
  - change (vsize [x2] <? 2)%Z with true. cbn [bind]. destruct o3 as [x3|]; cbn [app].
    + change (vsize [x2; x3] <=? 2)%Z with true. cbn [massert bind]. destruct (two_out m tA x2 x3) as [T|(T & F1 & F2)]; [left; exact T|right; left]. split; [exact T|].
      intros x C. destruct H2 as (D1 & _ & Z1), H3 as (D2 & _ & Z2). destruct (EC x C) as [Q|[Q|Q]]; [discriminate|injection Q as <-; auto..].
    + change (vsize [x2] <=? 2)%Z with true. cbn [massert bind]. destruct (ONE x2) as [T|T]; [|left; exact T|right; right; exact T].
      destruct H2 as (D & B & Z). exists (t2 ts), (t1 ts), (t3 ts). split; [auto|]. split; [apply (zero_between s1 s3); [assumption..|rewrite Rmult_comm; assumption]|]. split; [exact D|]. split; assumption.
  - change (vsize (@nil pt3) <? 2)%Z with true. cbn [bind]. destruct o3 as [x3|]; cbn [app].
    + change (vsize [x3] <=? 2)%Z with true. cbn [massert bind]. destruct (ONE x3) as [T|T]; [|left; exact T|right; right; exact T].
      destruct H3 as (D & B & Z). exists (t1 ts), (t2 ts), (t3 ts). split; [auto|]. split; [apply (zero_between s2 s3); [assumption|rewrite Rmult_comm; assumption..]|]. split; [exact D|]. split; assumption.
    + left. reflexivity.
Qed.

Lemma split_triangle_general (m : Mesh R) i (ts tA : Triangle3 R) : get_triangle m i = Ok tA -> tri_proper tA -> tri_proper ts -> vertices_off tA ts ->
  split_triangle m i ts = Ok m \/ (split_triangle m i ts = Err FAssert /\ forall x, edge_crossing tA ts x -> ~ in_tri tA x).
Proof.
  intros G CA CS (V1 & V2 & V3). destruct (split_triangle_outcome m i ts tA G CA CS) as [H|[H|(x & H & (c & p & q & CE & Z & _) & _)]]; [left; exact H|right; exact H|exfalso].
  rewrite (tside_zero tA c CA) in Z. destruct CE as [E|[E|E]]; injection E as -> -> ->; contradiction.
Qed.

(** Splitting at a new vertex in the plane of the triangle. *)
Lemma split_point_measures (m : Mesh R) a i x y z w : reach m -> shows m a -> (0 <= i)%Z ->
  nth_error (atris a) (Z.to_nat i) = Some ((x, y, z), true) -> in_plane_of (pt a x O3) (pt a y O3) (pt a z O3) w ->
  exists m' a', split_triangle_with_point m i w = Ok m' /\ reach m' /\ shows m' a' /\ averts a' = averts a ++ [w] /\
    atris a' = (let n := len (averts a) in upd (atris a) (Z.to_nat i) (fun t => (fst t, false)) ++ [((x, y, n), true); ((y, z, n), true); ((z, x, n), true)]) /\
    volume m' = volume m /\ (in_triangle (pt a x O3) (pt a y O3) (pt a z O3) w -> surface m' = surface m) /\
    surface m' = Ok (total_area a - area3 (pt a x O3) (pt a y O3) (pt a z O3) + (area3 (pt a x O3) (pt a y O3) w + area3 (pt a y O3) (pt a z O3) w + area3 (pt a z O3) (pt a x O3) w)).
Proof.
  intros RM SM Hi E IP. pose proof (shows_unique m a (abs m) SM (shows_abs m)) as EA.
  assert (closed_indices a) as CI by (apply (reach_closed m); assumption).
  assert (nb_vertices m = len (averts a)) as EN by (rewrite EA; symmetry; apply abs_nbv).
  destruct (CI x y z true (nth_error_In _ _ E)) as (Bx & By & Bz). set (n := len (averts a)) in *.
  assert (ok_idx i (len (atris a)) = true) as K1.
  { apply in_range_true. unfold len. split; [lia|]. assert (nth_error (atris a) (Z.to_nat i) <> None) as NN by congruence. apply nth_error_Some in NN. lia. }
  destruct (shows_step (OpSplitPt i w) (OpSplitPt i w) m a (with_tris (kill_in (with_verts a [w]) i) [(x, y, n); (y, z, n); (z, x, n)]) OutUnit RM SM eq_refl) as [m' [EM [R' S']]].
  { cbn [sstep]. rewrite K1, E. reflexivity. }
  cbn [mstep] in EM. apply unit_out_inv in EM.
  assert (forall j, (0 <= j < n)%Z -> pt (with_verts a [w]) j O3 = pt a j O3) as PT.
  { intros j Hj. unfold pt, with_verts. cbn [averts]. apply app_nth1. unfold n, len in Hj. lia. }
  assert (pt (with_verts a [w]) n O3 = w) as PW.
  { unfold pt, with_verts. cbn [averts]. unfold n, len. rewrite Nat2Z.id, app_nth2, Nat.sub_diag by lia. reflexivity. }
  assert (forall g : pt3 * pt3 * pt3 -> R, sumR (map g (faces (with_verts a [w]))) = sumR (map g (faces a))) as SF.
  { intros g. pose proof (added g a [w] [] CI) as A. unfold sumR at 3 in A. cbn [map fold_right] in A. rewrite Rplus_0_r in A. rewrite <- A.
    f_equal. f_equal. unfold with_tris. cbn [map]. rewrite app_nil_r. reflexivity. }
  pose proof (split_vol_plane _ _ _ _ IP) as VP. set (p := pt a x O3) in *. set (q := pt a y O3) in *. set (r := pt a z O3) in *.
  assert (surface m' = Ok (total_area a - area3 p q r + (area3 p q w + area3 q r w + area3 r p w))) as HS.
  { rewrite (reach_surface _ _ R' S'). f_equal. unfold total_area. rewrite (replaced area_tri (with_verts a [w]) i _ true _ E), SF. unfold sumR at 2.
    cbn [map fold_right corners area_tri]. rewrite PW, !PT by assumption. fold p q r. lra. }
  exists m', (with_tris (kill_in (with_verts a [w]) i) [(x, y, n); (y, z, n); (z, x, n)]).
  split; [exact EM|]. split; [exact R'|]. split; [exact S'|]. split; [reflexivity|]. split; [reflexivity|]. split; [|split].
  - rewrite (reach_volume _ _ R' S'), (reach_volume m a RM SM). f_equal. unfold total_vol. rewrite (replaced vol_tri (with_verts a [w]) i _ true _ E), SF. unfold sumR at 2.
    cbn [map fold_right corners vol_tri]. rewrite PW, !PT by assumption. fold p q r. pose proof (split_vol p q r w). lra.
  - intros HT. rewrite HS, (reach_surface m a RM SM), (split_area p q r w HT). f_equal. ring.
  - exact HS.
Qed.

(** ** Concrete splits of the unit triangle *)
Definition one_ops : list (op R (Mesh R)) :=
  [OpAddVertex (mkP 0 0 0); OpAddVertex (mkP 1 0 0); OpAddVertex (mkP 0 1 0); OpAddTriangle 0%Z 1%Z 2%Z; OpSetColor 7%Z].
Definition one_tri : Mesh R := mkMesh (mkK [mkP 0 0 0; mkP 1 0 0; mkP 0 1 0] [mkLT 0%Z 1%Z 2%Z (-1)%Z (-1)%Z (-1)%Z 0%Z]) 7%Z.
Definition one_abs : AMesh R := mkA [mkP 0 0 0; mkP 1 0 0; mkP 0 1 0] [((0, 1, 2)%Z, true)] 7%Z.
Lemma one_tri_ok : reach one_tri /\ shows one_tri one_abs /\ get_triangle one_tri 0 = Ok unit_tri.
Proof.
  pose proof (shows_run one_ops (map abs_op one_ops) (@mesh_new R) a_new (R_new) (shows_abs mesh_new)) as H.
  specialize (H ltac:(repeat constructor)).
  assert (srun a_new (map abs_op one_ops) = Some (abs one_tri, [OutId 0; OutId 1; OutId 2; OutId 0; OutUnit])) as EQ by reflexivity.
  rewrite EQ in H. clear EQ. destruct H as [m' [E [RM SM]]].
  assert (mrun mesh_new one_ops = Ok (one_tri, [OutId 0; OutId 1; OutId 2; OutId 0; OutUnit])) as ER by reflexivity.
  rewrite ER in E. injection E as <-. split; [exact RM|]. split; [exact SM|reflexivity].
Qed.
Ltac side3 := unfold tside, det3, dot3, cross3, lerp3, sub3, add3, scal3; cbn.
Ltac side3_in H := unfold tside, det3, dot3, cross3, lerp3, sub3, add3, scal3 in H; cbn in H.
Ltac proper3 := unfold tri_proper, cross3, sub3, O3; cbn; let E := fresh in intros E; injection E; intros; lra.

(** Two triangles crossing in general position: nothing is split. *)
Definition cutter : Triangle3 R := mkTri (mkP (1/4) (1/4) 1) (mkP (1/4) (3/4) 1) (mkP (1/4) (1/4) (-1)).
Lemma split_nothing : tri_proper cutter /\ vertices_off unit_tri cutter /\ vertices_off cutter unit_tri /\
  (exists x y, x <> y /\ in_tri unit_tri x /\ in_tri cutter x /\ in_tri unit_tri y /\ in_tri cutter y) /\ split_triangle one_tri 0 cutter = Ok one_tri.
Proof.
  assert (tri_proper cutter) as PC by proper3.
  assert (vertices_off unit_tri cutter) as VO.
  { unfold vertices_off. rewrite <- !tside_zero by exact unit_tri_proper. side3. repeat split; lra. }
  assert (in_tri unit_tri (mkP (1/4) (1/4) 0)) as IT.
  { exists (1/2), (1/4), (1/4). repeat split; try lra; unfold add3, scal3; cbn; apply P_eq; field. }
  split; [exact PC|]. split; [exact VO|]. split; [|split].
  - unfold vertices_off. rewrite <- !tside_zero by exact PC. side3. repeat split; lra.
  - exists (mkP (1/4) (1/4) 0), (mkP (1/4) (1/2) 0). split; [intros E; injection E; lra|]. split; [exact IT|].
    split; [exists (1/2), 0, (1/2)|split; [exists (1/4), (1/4), (1/2)|exists 0, (1/2), (1/2)]].
    all: repeat split; try lra; unfold add3, scal3; cbn; apply P_eq; field.
  - destruct (split_triangle_general one_tri 0 cutter unit_tri (proj2 (proj2 one_tri_ok)) unit_tri_proper PC VO) as [H|[_ H]]; [exact H|exfalso].
    apply (H (mkP (1/4) (1/4) 0)); [|exact IT].
    exists (t1 cutter), (t3 cutter). split; [right; left; split; reflexivity|]. split; [side3; lra|]. split; [|side3; lra].
    exists (1/2). split; [lra|]. unfold lerp3, add3, sub3, scal3. cbn. apply P_eq; field.
Qed.

(** The cutting segment passes through a corner: the assertion fires. *)
Definition corner_cutter : Triangle3 R := mkTri (mkP (1/2) (1/2) (-1)) (mkP (-5/2) (-5/2) 1) (mkP (7/2) (7/2) 1).
Lemma between_mid x p q : between x p q -> tside unit_tri x = 0 -> pz p = 1 \/ pz p = -1 -> pz q = - pz p -> x = lerp3 p q (1/2).
Proof.
  intros [k [K ->]] Z Hp Hq. f_equal. side3_in Z. rewrite Hq in Z. destruct Hp as [Hp|Hp]; rewrite Hp in Z; lra.
Qed.
Ltac seg_calc k mu := unfold seg_intersect, norm_square, dot, psub, padd, pmul; rnum; cbn -[Rabs ndiv]; rcmp;
    match goal with |- context [Rabs ?d] => replace d with k by field end;
    rewrite (Rabs_right k) by lra; rcmp;
    match goal with |- context [ndiv ?a ?b] => replace (ndiv a b) with (Ok mu) end;
    [cbn; rcmp; cbn; f_equal; f_equal; apply P_eq; field|cbn; let Z := fresh in destruct (Req_EM_T _ _) as [Z|Z]; [exfalso; lra|f_equal; field]].
Lemma split_assert : tri_proper corner_cutter /\ vertices_off unit_tri corner_cutter /\ split_triangle one_tri 0 corner_cutter = Err FAssert.
Proof.
  assert (tri_proper corner_cutter) as PC by proper3.
  split; [exact PC|]. split.
  { unfold vertices_off. rewrite <- !tside_zero by exact unit_tri_proper. side3. repeat split; lra. }
  destruct (split_two one_tri 0 corner_cutter unit_tri (proj2 (proj2 one_tri_ok)) unit_tri_proper PC) as (x & y & E & Bx & Zx & By & Zy).
  { side3. lra. } { side3. lra. } { side3. lra. } { side3. lra. }
  apply between_mid in Bx; [|exact Zx|cbn; lra|cbn; lra]. apply between_mid in By; [|exact Zy|cbn; lra|cbn; lra].
  rewrite E. subst x y. 
  assert (forall a, a = -1 \/ a = 2 -> tri_contains unit_tri (mkP a a 0) = false) as NC.
  { intros a Ha. destruct (tri_contains unit_tri (mkP a a 0)) eqn:C; [exfalso|reflexivity].
    rewrite (tri_eta unit_tri) in C. apply contains_exact in C; [|exact unit_tri_proper|apply tside_zero; [exact unit_tri_proper|side3; ring]].
    destruct C as [[u [v [w (U & V & W & S & Q)]]]|[k Q]]; unfold lerp3, add3, sub3, scal3 in Q; cbn in Q; injection Q as Q1 Q2 Q3; lra. }
  replace (lerp3 (t1 corner_cutter) (t2 corner_cutter) (1/2)) with (mkP (-1) (-1) 0) by (unfold lerp3, add3, sub3, scal3; cbn; apply P_eq; field).
  replace (lerp3 (t1 corner_cutter) (t3 corner_cutter) (1/2)) with (mkP 2 2 0) by (unfold lerp3, add3, sub3, scal3; cbn; apply P_eq; field).
  unfold two. rewrite (NC (-1)), (NC 2) by auto. cbn [negb andb]. cbv zeta.
  assert (seg_intersect (mkSeg (t1 unit_tri) (t2 unit_tri)) (mkSeg (mkP (-1) (-1) 0) (mkP 2 2 0)) = Ok (Some (mkP 0 0 0))) as E1 by seg_calc 9 0.
  assert (seg_intersect (mkSeg (t1 unit_tri) (t3 unit_tri)) (mkSeg (mkP (-1) (-1) 0) (mkP 2 2 0)) = Ok (Some (mkP 0 0 0))) as E2 by seg_calc 9 0.
  assert (seg_intersect (mkSeg (t2 unit_tri) (t3 unit_tri)) (mkSeg (mkP (-1) (-1) 0) (mkP 2 2 0)) = Ok (Some (mkP (1/2) (1/2) 0))) as E3 by seg_calc 36 (1/2).
  rewrite E1, E2, E3. reflexivity.
Qed.

(** The crossing point is outside the triangle, on the line of its second edge: the area grows. *)
Definition far_cutter : Triangle3 R := mkTri (mkP 0 (1/2) 0) (mkP 2 (-1) 1) (mkP 2 (-1) (-1)).
Lemma area_flat a b c d e f k : 0 <= k -> ((c - a) * (f - b) - (d - b) * (e - a)) * ((c - a) * (f - b) - (d - b) * (e - a)) = k * k -> area3 (mkP a b 0) (mkP c d 0) (mkP e f 0) = k / 2.
Proof.
  intros K H. unfold area3, len3, dot3, cross3, sub3. cbn. f_equal. rewrite <- (sqrt_square k K). f_equal. rewrite <- H. ring.
Qed.
Lemma one_area : total_area one_abs = 1/2.
Proof.
  change (total_area one_abs) with (area3 (mkP 0 0 0) (mkP 1 0 0) (mkP 0 1 0) + 0). rewrite (area_flat 0 0 1 0 0 1 1) by lra. lra.
Qed.
Lemma split_grows : tri_proper far_cutter /\ surface one_tri = Ok (1/2) /\ exists m', split_triangle one_tri 0 far_cutter = Ok m' /\ surface m' = Ok (3/2).
Proof.
  assert (tri_proper far_cutter) as PC by proper3. destruct one_tri_ok as (RM & SM & G).
  split; [exact PC|]. split; [rewrite (reach_surface _ _ RM SM), one_area; reflexivity|].
  destruct (split_one one_tri 0 far_cutter unit_tri G unit_tri_proper PC) as (x & E & Bx & Zx).
  { side3. lra. } { side3. lra. } { side3. lra. } { side3. lra. }
  apply between_mid in Bx; [|exact Zx|cbn; lra|cbn; lra].
  replace (lerp3 (t2 far_cutter) (t3 far_cutter) (1/2)) with (mkP 2 (-1) 0) in Bx by (unfold lerp3, add3, sub3, scal3; cbn; apply P_eq; field). subst x.
  assert (in_plane_of (t1 unit_tri) (t2 unit_tri) (t3 unit_tri) (mkP 2 (-1) 0)) as IP by (apply tside_zero; [exact unit_tri_proper|exact Zx]).
  rewrite (tri_eta unit_tri) in E at 1. rewrite (proj2 (contains_exact _ _ _ _ unit_tri_proper IP)) in E.
  2: { right. exists (-1). unfold lerp3, add3, sub3, scal3. cbn. apply P_eq; ring. }
  destruct (split_point_measures one_tri one_abs 0 0%Z 1%Z 2%Z (mkP 2 (-1) 0) RM SM ltac:(lia) eq_refl IP) as (m' & a' & E' & _ & _ & _ & _ & _ & _ & HS).
  exists m'. rewrite E. split; [exact E'|]. rewrite HS, one_area. f_equal.
  change (pt one_abs 0 O3) with (mkP 0 0 0). change (pt one_abs 1 O3) with (mkP 1 0 0). change (pt one_abs 2 O3) with (mkP 0 1 0).
  rewrite (area_flat 0 0 1 0 0 1 1), (area_flat 0 0 1 0 2 (-1) 1), (area_flat 1 0 0 1 2 (-1) 0), (area_flat 0 1 0 0 2 (-1) 2) by lra. lra.
Qed.

(** The one situation in which a split happens, on the good side of the plane test: the split keeps surface and volume. *)
Definition edge_cutter : Triangle3 R := mkTri (mkP 0 (1/2) 0) (mkP (1/2) (1/4) 1) (mkP (1/2) (1/4) (-1)).
Lemma split_inside : tri_proper edge_cutter /\ exists m', split_triangle one_tri 0 edge_cutter = Ok m' /\ nb_triangles m' = 4%Z /\ surface m' = Ok (1/2).
Proof.
  assert (tri_proper edge_cutter) as PC by proper3. destruct one_tri_ok as (RM & SM & G).
  split; [exact PC|].
  destruct (split_one one_tri 0 edge_cutter unit_tri G unit_tri_proper PC) as (x & E & Bx & Zx).
  { side3. lra. } { side3. lra. } { side3. lra. } { side3. lra. }
  apply between_mid in Bx; [|exact Zx|cbn; lra|cbn; lra].
  replace (lerp3 (t2 edge_cutter) (t3 edge_cutter) (1/2)) with (mkP (1/2) (1/4) 0) in Bx by (unfold lerp3, add3, sub3, scal3; cbn; apply P_eq; field). subst x.
  assert (in_plane_of (t1 unit_tri) (t2 unit_tri) (t3 unit_tri) (mkP (1/2) (1/4) 0)) as IP by (apply tside_zero; [exact unit_tri_proper|exact Zx]).
  assert (in_tri unit_tri (mkP (1/2) (1/4) 0)) as IT by (exists (1/4), (1/2), (1/4); repeat split; try lra; unfold add3, scal3; cbn; apply P_eq; field).
  rewrite (tri_eta unit_tri) in E at 1. rewrite (proj2 (contains_exact _ _ _ _ unit_tri_proper IP) (or_introl IT)) in E.
  destruct (split_point_measures one_tri one_abs 0 0%Z 1%Z 2%Z (mkP (1/2) (1/4) 0) RM SM ltac:(lia) eq_refl IP) as (m' & a' & E' & RM' & SM' & _ & HT & _ & HS & _).
  exists m'. rewrite E. split; [exact E'|]. split; [|rewrite (HS IT), (reach_surface _ _ RM SM), one_area; reflexivity].
  cbn in E'. injection E' as <-. reflexivity.
Qed.
Lemma split_nothing_ex : exists (m : Mesh R) (ts tA : Triangle3 R), reach m /\ get_triangle m 0 = Ok tA /\ tri_proper tA /\ tri_proper ts /\
  vertices_off tA ts /\ vertices_off ts tA /\
  (exists x y, x <> y /\ in_tri tA x /\ in_tri ts x /\ in_tri tA y /\ in_tri ts y) /\ split_triangle m 0 ts = Ok m.
Proof. exists one_tri, cutter, unit_tri. destruct split_nothing as (A & B & C & D & E), one_tri_ok as (F & _ & G). auto 10 using unit_tri_proper. Qed.
Lemma split_assert_ex : exists (m : Mesh R) (ts tA : Triangle3 R), reach m /\ get_triangle m 0 = Ok tA /\ tri_proper tA /\ tri_proper ts /\
  vertices_off tA ts /\ split_triangle m 0 ts = Err FAssert.
Proof. exists one_tri, corner_cutter, unit_tri. destruct split_assert as (A & B & C), one_tri_ok as (F & _ & G). auto 10 using unit_tri_proper. Qed.
Lemma split_grows_ex : exists (m m' : Mesh R) (ts tA : Triangle3 R), reach m /\ get_triangle m 0 = Ok tA /\ tri_proper tA /\ tri_proper ts /\
  split_triangle m 0 ts = Ok m' /\ surface m = Ok (1/2) /\ surface m' = Ok (3/2).
Proof. destruct split_grows as (A & B & m' & C & D), one_tri_ok as (F & _ & G). exists one_tri, m', far_cutter, unit_tri. auto 10 using unit_tri_proper. Qed.
