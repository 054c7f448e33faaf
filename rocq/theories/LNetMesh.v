(** The control net mesh. *)
From Coq Require Import ZArith List Bool Reals Lra Lia Psatz.
From Verif Require Import Base Num MGeometry MKernel MMesh MMeshRun MMeasure MNurbs MNurbsSurface SMesh SReach SGeom SMeasure SNurbs SSurface SNetMesh LBase LMesh LReach LMeasure LMeasure2 LStl.
Import ListNotations.
Open Scope Z_scope.

Lemma upto_zrange n : upto n = zrange 0 n.
Proof. unfold upto, zrange. rewrite Z.sub_0_r. apply map_ext. intros k. lia. Qed.
Lemma zrange_length a b : length (zrange a b) = Z.to_nat (b - a).
Proof. unfold zrange. rewrite map_length, seq_length. reflexivity. Qed.
Lemma cuts_snoc n k ts b : cuts n k ts -> cuts n (S k) (ts ++ cut (n + 4 * Z.of_nat k) b).
Proof.
  intros H. induction H as [n|n k c ts H IH].
  - cbn [app]. rewrite Z.add_0_r. rewrite <- (app_nil_r (cut n b)). constructor. constructor.
  - rewrite <- app_assoc. constructor. replace (n + 4 * Z.of_nat (S k)) with (n + 4 + 4 * Z.of_nat k) by lia. exact IH.
Qed.
Lemma sumR_snoc l x : sumR (l ++ [x]) = (sumR l + x)%R.
Proof. rewrite sumR_app. unfold sumR at 2. cbn. lra. Qed.

Definition netinv (s : NurbsSurface R) (col : Z) (done : list (Z * Z)) (m : Mesh R) : Prop :=
  reach m /\ surface m = Ok (sumR (map (best_area s) done)) /\
  exists ts, shows m (mkA (flat_map (net_quad s) done) ts col) /\ cuts 0 (length done) ts.

Lemma net_quad_len s done : length (flat_map (net_quad s) done) = (4 * length done)%nat.
Proof. induction done as [|[u v] d IH]; cbn [flat_map net_quad]; [reflexivity|]. rewrite app_length, IH. cbn [length]. lia. Qed.

Lemma netinv_step s col done m u v : netinv s col done m ->
  exists m', add_quad_points m (scp s u v) (scp s (u + 1) v) (scp s (u + 1) (v + 1)) (scp s u (v + 1)) true = Ok m' /\ netinv s col (done ++ [(u, v)]) m'.
Proof.
  intros (R & Sf & ts & Sh & C).
  destruct (quad_optim m _ (scp s u v) (scp s (u + 1) v) (scp s (u + 1) (v + 1)) (scp s u (v + 1)) R Sh) as (m' & t & E & R' & S' & D & A & A').
  exists m'. split; [exact E|]. split; [exact R'|]. split.
  - rewrite A in Sf. injection Sf as Sf. rewrite A', Sf, map_app. cbn [map]. rewrite sumR_snoc. reflexivity.
  - assert (nb_vertices m = 4 * Z.of_nat (length done)) as EN.
    { pose proof (shows_unique m _ (abs m) Sh (shows_abs m)) as EA. rewrite <- abs_nbv, <- EA. cbn [averts]. unfold len. rewrite net_quad_len. lia. }
    rewrite EN in D. rewrite app_length, Nat.add_1_r.
    unfold with_tris, with_verts in S'. cbn [averts atris acolor] in S'.
    exists (ts ++ map (fun x => (x, true)) t). split.
    + rewrite flat_map_app. cbn [flat_map]. rewrite app_nil_r. exact S'.
    + destruct D as [-> | ->].
      * exact (cuts_snoc 0 _ ts true C).
      * exact (cuts_snoc 0 _ ts false C).
Qed.

Lemma vget_scp s i j : vsize (ns_points s) = ns_nbU s * ns_nbV s -> 0 <= i < ns_nbU s -> 0 <= j < ns_nbV s ->
  vget (ns_points s) (j * ns_nbU s + i) = Ok (scp s i j).
Proof.
  intros H Hi Hj. replace (j * ns_nbU s + i) with (i + ns_nbU s * j) by lia.
  destruct (vget_in_range (ns_points s) (i + ns_nbU s * j)) as [p E]; [nia|]. rewrite E. f_equal. unfold scp.
  unfold vget in E. destruct (_ <? 0); [discriminate|]. destruct (nth_error _ _) eqn:F; [|discriminate]. injection E as ->.
  symmetry. apply nth_error_nth. exact F.
Qed.

Lemma control_net_ok (s : NurbsSurface R) (m : Mesh R) (a : AMesh R) : reach m -> shows m a ->
  1 <= ns_nbU s -> 1 <= ns_nbV s -> vsize (ns_points s) = ns_nbU s * ns_nbV s ->
  let cells := net_cells (ns_nbU s) (ns_nbV s) in
  exists m' ts, to_controlpoints_mesh s m = Ok m' /\ reach m' /\ len cells = (ns_nbU s - 1) * (ns_nbV s - 1) /\
    shows m' (mkA (flat_map (net_quad s) cells) ts (acolor a)) /\ cuts 0 (length cells) ts /\
    surface m' = Ok (sumR (map (best_area s) cells)).
Proof.
  intros R Sh HU HV HS cells. unfold to_controlpoints_mesh.
  assert (cells = flat_map (fun u => map (fun v => (u, v)) (zrange 0 (ns_nbV s - 1))) (zrange 0 (ns_nbU s - 1))) as EC by (unfold cells, net_cells; rewrite !upto_zrange; reflexivity).
  clearbody cells. subst cells.
  destruct (shows_step OpClear OpClear m a (mkA [] [] (acolor a)) OutUnit R Sh I eq_refl) as (mc & Ec & Rc & Sc).
  cbn [mstep unit_out] in Ec. assert (mc = clear m) as -> by (injection Ec; auto).
  edestruct (for_inv (fun u m' => netinv s (acolor a) (flat_map (fun u => map (fun v => (u, v)) (zrange 0 (ns_nbV s - 1))) (zrange 0 u)) m')) as [m' [E H]].
  4: { destruct H as (R' & Sf & ts & S' & C'). exists m', ts. split; [exact E|]. split; [exact R'|]. split; [|split; [exact S'|split; [exact C'|exact Sf]]].
       unfold len. rewrite flat_map_concat_map.
       assert (forall A B (f : A -> list B) k l, (forall x, length (f x) = k) -> length (concat (map f l)) = (length l * k)%nat) as K.
       { clear. intros A B f k l Hf. induction l as [|x l IH]; [reflexivity|]. cbn [map concat length]. rewrite app_length, IH, Hf. lia. }
       rewrite (K _ _ _ (Z.to_nat (ns_nbV s - 1))); [|intros; rewrite map_length, zrange_length; f_equal; lia]. rewrite !zrange_length. rewrite !Z.sub_0_r, Nat2Z.inj_mul, !Z2Nat.id by lia. reflexivity. }
  - lia.
  - rewrite (zrange_empty 0 0) by lia. split; [exact Rc|]. split; [rewrite (reach_surface _ _ Rc Sc); reflexivity|]. exists []. split; [exact Sc|constructor].
  - intros u m1 Hu I1.
    edestruct (for_inv (fun v m' => netinv s (acolor a) (flat_map (fun u => map (fun v => (u, v)) (zrange 0 (ns_nbV s - 1))) (zrange 0 u) ++ map (fun v => (u, v)) (zrange 0 v)) m')) as [m' [E H]].
    4: { exists m'. split; [exact E|]. rewrite zrange_last, flat_map_app by lia. cbn [flat_map]. rewrite app_nil_r. exact H. }
    + lia.
    + rewrite (zrange_empty 0 0) by lia. cbn [map]. rewrite app_nil_r. exact I1.
    + intros v m2 Hv I2. cbn beta. rewrite (vget_scp s u v), (vget_scp s (u + 1) v), (vget_scp s (u + 1) (v + 1)), (vget_scp s u (v + 1)) by (assumption || lia). cbn [bind].
      destruct (netinv_step s _ _ m2 u v I2) as (m3 & E & I3). exists m3. split; [exact E|].
      rewrite zrange_last by lia. rewrite map_app, app_assoc. exact I3.
Qed.
