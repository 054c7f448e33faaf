(** Mesh factories: vertex and triangle lists of the round solids, and their closedness. *)
From Coq Require Import ZArith List Bool Lia.
From Verif Require Import Base Num MGeometry MKernel MMesh MMeshRun MUtil MMeshFactory SMesh SReach SMeasure SMeshFac LBase LMesh LReach LMeasure LMeasure2 LMeshFac.
Import ListNotations.
Open Scope Z_scope.

Lemma len_app {A} (u v : list A) : len (u ++ v) = len u + len v. Proof. unfold len. rewrite app_length. lia. Qed.
Lemma len_cons {A} (x : A) l : len (x :: l) = 1 + len l. Proof. unfold len. cbn [length]. lia. Qed.
Lemma len_nil {A} : len (@nil A) = 0. Proof. reflexivity. Qed.
Lemma len_zrange a b : len (zrange a b) = Z.max 0 (b - a).
Proof. destruct (Z.le_gt_cases a b). { change (vsize (zrange a b) = Z.max 0 (b - a)). rewrite vsize_zrange; lia. } rewrite zrange_empty by lia. rewrite len_nil. lia. Qed.
Lemma len_flat {A} (h : Z -> list A) k l : (forall i, In i l -> len (h i) = k) -> len (flat_map h l) = k * len l.
Proof. induction l as [|i l IH]; intros H; [rewrite Z.mul_0_r; reflexivity|]. cbn [flat_map]. rewrite len_app, (H i) by (left; reflexivity). rewrite IH by (intros; apply H; right; assumption). rewrite len_cons. lia. Qed.
Lemma len_nonneg {A} (l : list A) : 0 <= len l. Proof. unfold len. lia. Qed.

Section Fact.
Context {T : Type} {N : Num T} {TR : Trig T}.
Implicit Types m : Mesh T.

Lemma is_for_v' a b (body : Z -> Mesh T -> res (Mesh T)) h m vs ts c :
  (forall i m vs, a <= i < b -> is m vs ts c -> exists m', body i m = Ok m' /\ is m' (vs ++ h i) ts c) -> is m vs ts c ->
  exists m', for_ a b body m = Ok m' /\ is m' (vs ++ flat_map h (zrange a b)) ts c.
Proof. intros HB I. destruct (Z.le_gt_cases a b); [apply is_for_v; assumption|]. rewrite for_empty, zrange_empty by lia. exists m. cbn. rewrite app_nil_r. split; [reflexivity|assumption]. Qed.
Lemma is_for_t' a b (body : Z -> Mesh T -> res (Mesh T)) h m vs ts c :
  (forall i m ts, a <= i < b -> is m vs ts c -> exists m', body i m = Ok m' /\ is m' vs (ts ++ h i) c) -> is m vs ts c ->
  exists m', for_ a b body m = Ok m' /\ is m' vs (ts ++ flat_map h (zrange a b)) c.
Proof. intros HB I. destruct (Z.le_gt_cases a b); [apply is_for_t; assumption|]. rewrite for_empty, zrange_empty by lia. exists m. cbn. rewrite app_nil_r. split; [reflexivity|assumption]. Qed.

Lemma is_for_i m vs ts c : is m vs ts c -> forall a b (body : Z -> Mesh T -> res (Mesh T)) h,
  (forall i m ts, a <= i < b -> is m vs ts c -> exists m', body i m = Ok m' /\ is m' vs (ts ++ h i) c) ->
  exists m', for_ a b body m = Ok m' /\ is m' vs (ts ++ flat_map h (zrange a b)) c.
Proof. intros. apply is_for_t'; assumption. Qed.
Definition dv (x : T) (k : Z) : T := match ndiv x (nofZ k) with Ok q => q | Err _ => x end.
Lemma ndiv_dv x k : divides T -> 0 < k -> ndiv x (nofZ k) = Ok (dv x k).
Proof. intros D K. destruct (D x k K) as [q E]. unfold dv. rewrite E. reflexivity. Qed.
Definition angle (i n : Z) : T := (dv (nofZ i) n * n2 * pi_lit)%num.
Lemma turn_angle i n : divides T -> 0 < n -> turn i n = Ok (angle i n).
Proof. intros D K. unfold turn. rewrite ndiv_dv by assumption. reflexivity. Qed.

(** ** Torus *)
Definition torus_p (rM rm : T) (NL NLa i j : Z) : Point3 T :=
  let u := angle i NL in let v := angle j NLa in
  mkP ((rM + rm * ncos v) * ncos u)%num ((rM + rm * ncos v) * nsin u)%num (rm * nsin v)%num.
Definition torus_vs rM rm NL NLa : list (Point3 T) := flat_map (fun i => flat_map (fun j => [torus_p rM rm NL NLa i j]) (zrange 0 NLa)) (zrange 0 NL).
Definition quad_ts (x y z w : Z) : list triple := [(x, y, z); (z, w, x)].
Definition torus_ts (NL NLa : Z) : list triple :=
  flat_map (fun i => flat_map (fun j => quad_ts (Z.rem (i + 1) NL * NLa + j) (Z.rem (i + 1) NL * NLa + Z.rem (j + 1) NLa) (i * NLa + Z.rem (j + 1) NLa) (i * NLa + j)) (zrange 0 NLa)) (zrange 0 NL).
Lemma torus_vs_len rM rm NL NLa : len (torus_vs rM rm NL NLa) = Z.max 0 NLa * Z.max 0 NL.
Proof.
  unfold torus_vs. rewrite (len_flat _ (Z.max 0 NLa)); [rewrite len_zrange; f_equal; lia|]. intros i _. rewrite (len_flat _ 1); [rewrite len_zrange; lia|]. reflexivity.
Qed.
Lemma rem_in i n : 0 <= i < n -> 0 <= Z.rem (i + 1) n < n.
Proof. intros H. apply Z.rem_bound_pos; lia. Qed.
Lemma cell_in i j A B : 0 <= i < A -> 0 <= j < B -> 0 <= i * B + j < B * A. Proof. intros. nia. Qed.
Lemma quot42 n : Z.quot (4 * n) 2 = 2 * n.
Proof. replace (4 * n) with (2 * n * 2) by lia. apply Z.quot_mul. discriminate. Qed.

Lemma torus_is rM rm n m : divides T -> reach m ->
  exists m', create_torus rM rm n m = Ok m' /\ is m' (torus_vs rM rm (2 + 4 * n) (6 + 2 * n)) (torus_ts (2 + 4 * n) (6 + 2 * n)) (get_color m).
Proof.
  intros D R. unfold create_torus. rewrite quot42. replace (2 + 4 + 2 * n) with (6 + 2 * n) by lia.
  set (NL := 2 + 4 * n). set (NLa := 6 + 2 * n).
  pose proof (is_clear m R) as I. assert (mesh_is_empty (clear m) = true) as E0 by reflexivity. rewrite E0. cbn [negb].
  set (bd := fun longitude mm => do upi <- turn longitude NL; _).
  destruct (is_for_v' 0 NL bd (fun i => flat_map (fun j => [torus_p rM rm NL NLa i j]) (zrange 0 NLa)) (clear m) [] [] (get_color m)) as [m1 [E1 I1]].
  { intros i mi vs Hi Ii. unfold bd. rewrite turn_angle by (try assumption; lia). cbn [bind].
    apply is_for_v'; [|exact Ii]. intros j mj vj Hj Ij. rewrite turn_angle by (try assumption; lia). cbn [bind].
    apply (is_v [torus_p rM rm NL NLa i j] Ij). }
  { exact I. }
  rewrite E1. cbn [bind app] in I1 |- *. clear E1 bd.
  destruct (Z.le_gt_cases NL 0) as [L|L].
  - rewrite for_empty by lia. exists m1. split; [reflexivity|]. unfold torus_vs, torus_ts. rewrite (zrange_empty 0 NL) in I1 |- * by lia. exact I1.
  - assert (0 < NLa) as L2 by (unfold NL, NLa in *; lia).
    apply (is_for_t' 0 NL _ (fun i => flat_map (fun j => quad_ts (Z.rem (i + 1) NL * NLa + j) (Z.rem (i + 1) NL * NLa + Z.rem (j + 1) NLa) (i * NLa + Z.rem (j + 1) NLa) (i * NLa + j)) (zrange 0 NLa)) m1 _ [] _); [|exact I1].
    intros i mi tsi Hi Ii. apply is_for_t'; [|exact Ii]. intros j mj tsj Hj Ij.
    pose proof (torus_vs_len rM rm NL NLa) as LV. rewrite !Z.max_r in LV by lia.
    apply is_q; [exact Ij| | | |]; rewrite LV; apply cell_in; try assumption; apply rem_in; assumption.
Qed.

Lemma quad_sum phi x y z w : anti phi -> tris_sum phi (quad_ts x y z w) = phi x y + phi y z + phi z w + phi w x.
Proof. intros A. cbn. rewrite (A x z). lia. Qed.
Lemma torus_closed NL NLa : index_closed (torus_ts NL NLa).
Proof.
  apply closed_of_sums. intros phi A. unfold torus_ts. rewrite tris_sum_flat.
  set (G := fun i => zsum (fun j => phi (i * NLa + j) (i * NLa + Z.rem (j + 1) NLa)) (zrange 0 NLa)).
  rewrite (zsum_ext _ (fun i => G (Z.rem (i + 1) NL) - G i)); [apply zsum_cycle_diff|].
  intros i Hi. rewrite tris_sum_flat.
  set (B := fun j => phi (i * NLa + j) (Z.rem (i + 1) NL * NLa + j)).
  rewrite (zsum_ext _ (fun j => (phi (Z.rem (i + 1) NL * NLa + j) (Z.rem (i + 1) NL * NLa + Z.rem (j + 1) NLa) - phi (i * NLa + j) (i * NLa + Z.rem (j + 1) NLa)) - (B (Z.rem (j + 1) NLa) - B j))).
  - rewrite zsum_minus, zsum_cycle_diff, zsum_minus. unfold G. lia.
  - intros j Hj. rewrite quad_sum by exact A. unfold B. rewrite (A (Z.rem (i + 1) NL * NLa + Z.rem (j + 1) NLa) (i * NLa + Z.rem (j + 1) NLa)), (A (i * NLa + Z.rem (j + 1) NLa) (i * NLa + j)). lia.
Qed.
Lemma torus_ts_len NL NLa : len (torus_ts NL NLa) = 2 * (Z.max 0 NL * Z.max 0 NLa).
Proof.
  unfold torus_ts. rewrite (len_flat _ (2 * Z.max 0 NLa)); [rewrite len_zrange; replace (NL - 0) with NL by lia; lia|]. intros i _. rewrite (len_flat _ 2); [rewrite len_zrange; lia|]. reflexivity.
Qed.

(** ** Sphere made of meridians *)
Definition uv_p (r : T) (NL NLa i j : Z) : Point3 T :=
  let u := angle i NL in let v := (dv (nofZ j) NLa * pi_lit)%num in
  mkP (r * nsin v * ncos u)%num (r * nsin v * nsin u)%num (r * ncos v)%num.
Definition uv_vs (r : T) NL NLa : list (Point3 T) :=
  flat_map (fun i => flat_map (fun j => [uv_p r NL NLa i j]) (zrange 1 NLa)) (zrange 0 NL) ++ [mkP n0 n0 r; mkP n0 n0 (- r)%num].
Definition uv_strip (NL nla i : Z) : list triple :=
  [(nla * NL, i * nla, Z.rem (i + 1) NL * nla)] ++
  flat_map (fun j => quad_ts (i * nla + j - 1) (i * nla + j) (Z.rem (i + 1) NL * nla + j) (Z.rem (i + 1) NL * nla + j - 1)) (zrange 1 nla) ++
  [(i * nla + nla - 1, nla * NL + 1, Z.rem (i + 1) NL * nla + nla - 1)].
Definition uv_ts (NL nla : Z) : list triple := flat_map (uv_strip NL nla) (zrange 0 NL).
Lemma uv_vs_len r NL NLa : len (uv_vs r NL NLa) = Z.max 0 (NLa - 1) * Z.max 0 NL + 2.
Proof.
  unfold uv_vs. rewrite len_app, (len_flat _ (Z.max 0 (NLa - 1))); [rewrite len_zrange; replace (NL - 0) with NL by lia; reflexivity|]. intros i _. rewrite (len_flat _ 1); [rewrite len_zrange; lia|]. reflexivity.
Qed.

Lemma uv_is r n m : divides T -> reach m ->
  exists m', create_sphere_uv r n m = Ok m' /\ is m' (uv_vs r (2 + 4 * n) (2 + 2 * n)) (uv_ts (2 + 4 * n) (1 + 2 * n)) (get_color m).
Proof.
  intros D R. unfold create_sphere_uv. rewrite quot42.
  set (NL := 2 + 4 * n). set (NLa := 2 + 2 * n).
  pose proof (is_clear m R) as I.
  set (bd := fun longitude mm => do upi <- turn longitude NL; _).
  destruct (is_for_v' 0 NL bd (fun i => flat_map (fun j => [uv_p r NL NLa i j]) (zrange 1 NLa)) (clear m) [] [] (get_color m)) as [m1 [E1 I1]].
  { intros i mi vs Hi Ii. unfold bd. rewrite turn_angle by (try assumption; lia). cbn [bind].
    apply is_for_v'; [|exact Ii]. intros j mj vj Hj Ij. rewrite ndiv_dv by (try assumption; unfold NL, NLa in *; lia). cbn [bind].
    apply (is_v [uv_p r NL NLa i j] Ij). }
  { exact I. }
  rewrite E1. cbn [bind app] in I1 |- *. clear E1 bd.
  destruct (is_v [mkP n0 n0 r; mkP n0 n0 (- r)%num] I1) as [m2 [E2 I2]]. cbn [map] in E2. unfold av. rewrite E2. cbn [bind].
  fold (uv_vs r NL NLa) in I2. rewrite (is_nbv _ _ _ _ I2), uv_vs_len. replace (NLa - 1) with (1 + 2 * n) by (unfold NLa; lia). set (nla := 1 + 2 * n).
  destruct (Z.le_gt_cases NL 0) as [L|L].
  - rewrite for_empty by lia. exists m2. split; [reflexivity|]. unfold uv_ts. rewrite (zrange_empty 0 NL) by lia. exact I2.
  - assert (0 < nla) as L2 by (unfold NL, nla in *; lia). rewrite !Z.max_r by lia. replace (nla * NL + 2 - 2) with (nla * NL) by lia. replace (nla * NL + 2 - 1) with (nla * NL + 1) by lia.
    assert (len (uv_vs r NL NLa) = nla * NL + 2) as LV by (rewrite uv_vs_len; replace (NLa - 1) with nla by (unfold NLa, nla; lia); rewrite !Z.max_r by lia; reflexivity).
    apply (is_for_t' 0 NL _ (uv_strip NL nla) m2 _ [] _); [|exact I2].
    intros i mi tsi Hi Ii.
    assert (0 < nla * NL) by nia. assert (0 <= i * nla /\ i * nla + nla <= nla * NL) as B1 by nia.
    assert (0 <= Z.rem (i + 1) NL * nla /\ Z.rem (i + 1) NL * nla + nla <= nla * NL) as B2. { pose proof (rem_in i NL Hi). nia. }
    destruct (is_t (nla * NL) (i * nla) (Z.rem (i + 1) NL * nla) Ii) as [m3 [E3 I3]]; [lia..|]. rewrite E3. cbn [bind].
    set (bd := fun latitude mm => add_quad mm _ _ _ _).
    destruct (is_for_t' 1 nla bd (fun j => quad_ts (i * nla + j - 1) (i * nla + j) (Z.rem (i + 1) NL * nla + j) (Z.rem (i + 1) NL * nla + j - 1)) m3 (uv_vs r NL NLa) (tsi ++ [(nla * NL, i * nla, Z.rem (i + 1) NL * nla)]) (get_color m)) as [m4 [E4 I4]].
    { intros j mj tsj Hj Ij. apply is_q; [exact Ij|lia..]. }
    { exact I3. }
    rewrite E4. cbn [bind].
    destruct (is_t (i * nla + nla - 1) (nla * NL + 1) (Z.rem (i + 1) NL * nla + nla - 1) I4) as [m5 [E5 I5]]; [lia..|]. exists m5. split; [exact E5|]. rewrite <- !app_assoc in I5. exact I5.
Qed.

Lemma uv_closed NL nla : 1 <= nla -> index_closed (uv_ts NL nla).
Proof.
  intros L. apply closed_of_sums. intros phi A. unfold uv_ts. rewrite tris_sum_flat.
  set (P := fun i => phi (nla * NL) (i * nla)). set (Q := fun i => phi (i * nla + nla - 1) (nla * NL + 1)).
  set (V := fun i => zsum (fun j => phi (i * nla + j - 1) (i * nla + j)) (zrange 1 nla)).
  rewrite (zsum_ext _ (fun i => - ((P (Z.rem (i + 1) NL) - P i) + (Q (Z.rem (i + 1) NL) - Q i) + (V (Z.rem (i + 1) NL) - V i)))).
  { rewrite zsum_opp, !zsum_plus, !zsum_cycle_diff. reflexivity. }
  intros i Hi. unfold uv_strip. rewrite !tris_sum_app, tris_sum_flat. set (k := Z.rem (i + 1) NL).
  set (H := fun j => phi (i * nla + j - 1) (k * nla + j - 1)).
  rewrite (zsum_ext _ (fun j => (phi (i * nla + j - 1) (i * nla + j) - phi (k * nla + j - 1) (k * nla + j)) + (H (j + 1) - H j))).
  - rewrite zsum_plus, zsum_minus, zsum_tele by lia. unfold V. cbn [tris_sum fold_right tri_sum]. unfold H, P, Q.
    replace (i * nla + 1 - 1) with (i * nla) by lia. replace (k * nla + 1 - 1) with (k * nla) by lia.
    rewrite (A (k * nla) (nla * NL)), (A (nla * NL + 1) (k * nla + nla - 1)), (A (k * nla + nla - 1) (i * nla + nla - 1)). lia.
  - intros j Hj. rewrite quad_sum by exact A. unfold H. replace (i * nla + (j + 1) - 1) with (i * nla + j) by lia. replace (k * nla + (j + 1) - 1) with (k * nla + j) by lia.
    rewrite (A (k * nla + j) (k * nla + j - 1)), (A (k * nla + j - 1) (i * nla + j - 1)). lia.
Qed.
Lemma uv_ts_len NL nla : 1 <= nla -> len (uv_ts NL nla) = 2 * nla * Z.max 0 NL.
Proof.
  intros L. unfold uv_ts. rewrite (len_flat _ (2 * nla)); [rewrite len_zrange; f_equal; lia|]. intros i _. unfold uv_strip. rewrite !len_app, (len_flat _ 2); [rewrite len_zrange, !len_cons, len_nil; lia|]. reflexivity.
Qed.

(** ** Cylinder *)
Definition cyl_p (r z : T) (L i : Z) : list (Point3 T) :=
  let a := angle i L in [mkP (ncos a * r)%num (nsin a * r)%num z; mkP (ncos a * r)%num (nsin a * r)%num (- z)%num].
Definition cyl_vs (r z : T) L : list (Point3 T) := flat_map (cyl_p r z L) (zrange 0 L) ++ [mkP n0 n0 z; mkP n0 n0 (- z)%num].
Definition cyl_ts (L : Z) : list triple :=
  flat_map (fun i => quad_ts (2 * i) (2 * i + 1) (2 * i + 3) (2 * i + 2)) (zrange 0 (L - 1)) ++ quad_ts (2 * L - 2) (2 * L - 1) 1 0 ++
  flat_map (fun i => [(2 * L, 2 * i, 2 * i + 2)]) (zrange 0 L) ++ [(2 * L, 2 * L - 2, 0)] ++
  flat_map (fun i => [(2 * L + 1, 2 * i + 3, 2 * i + 1)]) (zrange 0 L) ++ [(2 * L + 1, 1, 2 * L - 1)].
Lemma cyl_vs_len r z L : len (cyl_vs r z L) = 2 * Z.max 0 L + 2.
Proof. unfold cyl_vs. rewrite len_app, (len_flat _ 2) by reflexivity. rewrite len_zrange. change (len [_; _]) with 2. lia. Qed.
Lemma cyl_is h r n m : divides T -> reach m -> 0 <= n ->
  exists m', create_cylinder h r n m = Ok m' /\ is m' (cyl_vs r (dv h 2) (2 + 4 * n)) (cyl_ts (2 + 4 * n)) (get_color m).
Proof.
  intros D R Hn. unfold create_cylinder. unfold n2. rewrite ndiv_dv by (try assumption; lia). cbn [bind]. set (z := dv h 2). set (L := 2 + 4 * n).
  pose proof (is_clear m R) as I.
  set (bd := fun i mm => do a <- turn i L; _).
  destruct (is_for_v' 0 L bd (cyl_p r z L) (clear m) [] [] (get_color m)) as [m1 [E1 I1]].
  { intros i mi vs Hi Ii. unfold bd. rewrite turn_angle by (try assumption; lia). cbn [bind]. apply (is_v (cyl_p r z L i) Ii). }
  { exact I. }
  rewrite E1. cbn [bind app] in I1 |- *. clear E1 bd.
  destruct (is_v [mkP n0 n0 z; mkP n0 n0 (- z)%num] I1) as [m2 [E2 I2]]. cbn [map] in E2. unfold av. rewrite E2. cbn [bind].
  fold (cyl_vs r z L) in I2. pose proof (cyl_vs_len r z L) as LV. rewrite Z.max_r in LV by lia.
  assert (2 <= L) as L2 by lia.
  set (b1 := fun i mm => add_quad mm _ _ _ _).
  destruct (is_for_i _ _ _ _ I2 0 (L - 1) b1 (fun i => quad_ts (2 * i) (2 * i + 1) (2 * i + 3) (2 * i + 2)) ltac:(intros i mi tsi Hi Ii; apply is_q; [exact Ii|lia..])) as [m3 [E3 I3]].
  rewrite E3. cbn [bind]. clear b1 E3.
  destruct (is_q (2 * L - 2) (2 * L - 1) 1 0 I3) as [m4 [E4 I4]]; [lia..|]. rewrite E4. cbn [bind].
  set (b1 := fun i mm => run_ops mm [OpAddTriangle (L * 2) _ _]).
  destruct (is_for_i _ _ _ _ I4 0 L b1 (fun i => [(2 * L, 2 * i, 2 * i + 2)]) ltac:(intros i mi tsi Hi Ii; unfold b1; replace (L * 2) with (2 * L) by lia; apply is_t; [exact Ii|lia..])) as [m5 [E5 I5]].
  rewrite E5. cbn [bind]. clear b1 E5. replace (L * 2) with (2 * L) by lia.
  destruct (is_t (2 * L) (2 * L - 2) 0 I5) as [m6 [E6 I6]]; [lia..|]. rewrite E6. cbn [bind].
  set (b1 := fun i mm => run_ops mm [OpAddTriangle (2 * L + 1) _ _]).
  destruct (is_for_i _ _ _ _ I6 0 L b1 (fun i => [(2 * L + 1, 2 * i + 3, 2 * i + 1)]) ltac:(intros i mi tsi Hi Ii; apply is_t; [exact Ii|lia..])) as [m7 [E7 I7]].
  rewrite E7. cbn [bind]. clear b1 E7.
  destruct (is_t (2 * L + 1) 1 (2 * L - 1) I7) as [m8 [E8 I8]]; [lia..|]. exists m8. split; [exact E8|].
  rewrite <- !app_assoc in I8. exact I8.
Qed.
Lemma cyl_negative h r n m : divides T -> reach m -> n < 0 -> create_cylinder h r n m = Err FAssert.
Proof.
  intros D R Hn. unfold create_cylinder. unfold n2. rewrite ndiv_dv by (try assumption; lia). cbn [bind]. set (z := dv h 2). set (L := 2 + 4 * n).
  pose proof (is_clear m R) as I. rewrite for_empty by lia. cbn [bind].
  destruct (is_v [mkP n0 n0 z; mkP n0 n0 (- z)%num] I) as [m2 [E2 I2]]. cbn [map] in E2. unfold av. rewrite E2. cbn [bind]. rewrite for_empty by lia. cbn [bind].
  destruct I2 as [R2 S2]. pose proof (add_quad_shows m2 _ (2 * L - 2) (2 * L - 1) 1 0 R2 S2) as H. cbn [averts oks forallb] in H.
  replace (ok_idx (2 * L - 2) _) with false in H by (unfold ok_idx; symmetry; apply andb_false_iff; left; apply Z.leb_gt; lia). cbn [andb] in H. rewrite H. reflexivity.
Qed.
Lemma cyl_closed L : 2 <= L -> index_closed (cyl_ts L).
Proof.
  intros HL. apply closed_of_sums. intros phi A. unfold cyl_ts. rewrite !tris_sum_app, !tris_sum_flat, quad_sum by exact A.
  set (V := fun i => phi (2 * i) (2 * i + 1)). set (To := fun i => phi (2 * i) (2 * i + 2)). set (Bo := fun i => phi (2 * i + 1) (2 * i + 3)).
  set (P := fun i => phi (2 * L) (2 * i)). set (Q := fun i => phi (2 * L + 1) (2 * i + 1)).
  rewrite (zsum_ext _ (fun i => (Bo i - To i) - (V (i + 1) - V i)) (zrange 0 (L - 1))).
  2:{ intros i _. rewrite quad_sum by exact A. unfold V, To, Bo. replace (2 * (i + 1)) with (2 * i + 2) by lia. replace (2 * i + 2 + 1) with (2 * i + 3) by lia. rewrite (A (2 * i + 3) (2 * i + 2)), (A (2 * i + 2) (2 * i)). lia. }
  rewrite (zsum_ext _ (fun i => To i - (P (i + 1) - P i)) (zrange 0 L)).
  2:{ intros i _. cbn [tris_sum fold_right tri_sum]. unfold To, P. replace (2 * (i + 1)) with (2 * i + 2) by lia. rewrite (A (2 * i + 2) (2 * L)). lia. }
  rewrite (zsum_ext (fun i => tris_sum phi [(2 * L + 1, 2 * i + 3, 2 * i + 1)]) (fun i => (Q (i + 1) - Q i) - Bo i) (zrange 0 L)).
  2:{ intros i _. cbn [tris_sum fold_right tri_sum]. unfold Bo, Q. replace (2 * (i + 1) + 1) with (2 * i + 3) by lia. rewrite (A (2 * i + 3) (2 * i + 1)), (A (2 * i + 1) (2 * L + 1)). lia. }
  rewrite (zsum_minus (fun i => Bo i - To i) (fun i => V (i + 1) - V i)), (zsum_minus Bo To), (zsum_minus To (fun i => P (i + 1) - P i)), (zsum_minus (fun i => Q (i + 1) - Q i) Bo), !zsum_tele by lia.
  assert (zrange 0 L = zrange 0 (L - 1) ++ [L - 1]) as E by (replace L with (L - 1 + 1) at 1 by lia; apply zrange_last; lia).
  rewrite E, !zsum_app. cbn [zsum fold_right tris_sum tri_sum]. unfold V, To, Bo, P, Q.
  replace (2 * (L - 1)) with (2 * L - 2) by lia. replace (2 * L - 2 + 2) with (2 * L) by lia. replace (2 * L - 2 + 1) with (2 * L - 1) by lia. replace (2 * L - 2 + 3) with (2 * L + 1) by lia.
  replace (2 * 0) with 0 by lia. replace (0 + 1) with 1 by lia.
  rewrite (anti_refl phi (2 * L) A), (anti_refl phi (2 * L + 1) A), (A (2 * L - 2) (2 * L)), (A (2 * L - 1) (2 * L + 1)), (A 0 (2 * L)), (A 1 (2 * L - 1)), (A 1 0), (A 0 (2 * L - 2)). lia.
Qed.
Lemma cyl_ts_len L : 1 <= L -> len (cyl_ts L) = 4 * L + 2.
Proof. intros HL. unfold cyl_ts. rewrite !len_app, (len_flat _ 2), (len_flat _ 1), (len_flat _ 1) by reflexivity. rewrite !len_zrange. change (len (quad_ts _ _ _ _)) with 2. change (len [_]) with 1. lia. Qed.

Lemma filter_flat_nil {A} (f : A -> bool) (h : Z -> list A) l : (forall i, In i l -> filter f (h i) = []) -> filter f (flat_map h l) = [].
Proof. induction l as [|i l IH]; intros H; [reflexivity|]. cbn [flat_map]. rewrite filter_app, (H i) by (left; reflexivity). apply IH. intros j J. apply H. right. exact J. Qed.
Lemma repeats_false x y z : x <> y -> y <> z -> z <> x -> repeats (x, y, z) = false.
Proof. intros. unfold repeats. rewrite !(proj2 (Z.eqb_neq _ _)) by assumption. reflexivity. Qed.
Lemma cyl_repeats L : 2 <= L -> filter repeats (cyl_ts L) = [(2 * L, 2 * L - 2, 2 * L); (2 * L + 1, 2 * L + 1, 2 * L - 1)].
Proof.
  intros HL. unfold cyl_ts. rewrite !filter_app.
  assert (zrange 0 L = zrange 0 (L - 1) ++ [L - 1]) as E by (replace L with (L - 1 + 1) at 1 by lia; apply zrange_last; lia).
  rewrite E, !flat_map_app, !filter_app. unfold quad_ts.
  rewrite (filter_flat_nil repeats (fun i => [(2 * i, 2 * i + 1, 2 * i + 3); (2 * i + 3, 2 * i + 2, 2 * i)])) by (intros i Hi; apply in_zrange in Hi; cbn [filter]; rewrite !repeats_false by lia; reflexivity).
  rewrite (filter_flat_nil repeats (fun i => [(2 * L, 2 * i, 2 * i + 2)])) by (intros i Hi; apply in_zrange in Hi; cbn [filter]; rewrite !repeats_false by lia; reflexivity).
  rewrite (filter_flat_nil repeats (fun i => [(2 * L + 1, 2 * i + 3, 2 * i + 1)])) by (intros i Hi; apply in_zrange in Hi; cbn [filter]; rewrite !repeats_false by lia; reflexivity).
  cbn [flat_map app filter]. rewrite (repeats_false (2 * L - 2) (2 * L - 1) 1), (repeats_false 1 0 (2 * L - 2)), (repeats_false (2 * L) (2 * L - 2) 0), (repeats_false (2 * L + 1) 1 (2 * L - 1)) by lia.
  replace (2 * (L - 1)) with (2 * L - 2) by lia. replace (2 * L - 2 + 2) with (2 * L) by lia. replace (2 * L - 2 + 1) with (2 * L - 1) by lia. replace (2 * L - 2 + 3) with (2 * L + 1) by lia.
  unfold repeats. rewrite !Z.eqb_refl, !orb_true_r. reflexivity.
Qed.
Lemma torus_repeats NL NLa : 2 <= NL -> 3 <= NLa -> filter repeats (torus_ts NL NLa) = [].
Proof.
  intros H1 H2. unfold torus_ts. apply filter_flat_nil. intros i Hi. apply filter_flat_nil. intros j Hj. apply in_zrange in Hi. apply in_zrange in Hj.
  assert (Z.rem (i + 1) NL <> i) as NI. { destruct (Z.eq_dec i (NL - 1)) as [->|]; [replace (NL - 1 + 1) with NL by lia; rewrite Z.rem_same by lia; lia|rewrite Z.rem_small by lia; lia]. }
  assert (Z.rem (j + 1) NLa <> j) as NJ. { destruct (Z.eq_dec j (NLa - 1)) as [->|]; [replace (NLa - 1 + 1) with NLa by lia; rewrite Z.rem_same by lia; lia|rewrite Z.rem_small by lia; lia]. }
  pose proof (rem_in i NL ltac:(lia)). pose proof (rem_in j NLa ltac:(lia)).
  unfold quad_ts. cbn [filter]. rewrite !repeats_false by nia. reflexivity.
Qed.
Lemma uv_repeats NL nla : 2 <= NL -> 1 <= nla -> filter repeats (uv_ts NL nla) = [].
Proof.
  intros H1 H2. unfold uv_ts. apply filter_flat_nil. intros i Hi. apply in_zrange in Hi.
  assert (Z.rem (i + 1) NL <> i) as NI. { destruct (Z.eq_dec i (NL - 1)) as [->|]; [replace (NL - 1 + 1) with NL by lia; rewrite Z.rem_same by lia; lia|rewrite Z.rem_small by lia; lia]. }
  pose proof (rem_in i NL ltac:(lia)). assert (i * nla + nla <= nla * NL) by nia. assert (Z.rem (i + 1) NL * nla + nla <= nla * NL) by nia.
  unfold uv_strip. rewrite !filter_app. rewrite filter_flat_nil.
  - cbn [filter app]. rewrite !repeats_false by nia. reflexivity.
  - intros j Hj. apply in_zrange in Hj. unfold quad_ts. cbn [filter]. rewrite !repeats_false by nia. reflexivity.
Qed.
End Fact.
