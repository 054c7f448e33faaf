(** Mesh factories: what the calls store. *)
From Coq Require Import ZArith List Bool Lia.
From Verif Require Import Base Num MGeometry MKernel MMesh MMeshRun MUtil MMeshFactory SMesh SReach SMeasure LBase LMesh LReach LMeasure2.
Import ListNotations.
Open Scope Z_scope.

Section Fact.
Context {T : Type} {N : Num T}.
Implicit Types m : Mesh T.

Definition alive (ts : list triple) : list (triple * bool) := map (fun t => (t, true)) ts.
Lemma live_alive (vs : list (Point3 T)) ts c : live (mkA vs (alive ts) c) = ts.
Proof. unfold live, alive. cbn [atris]. induction ts as [|t ts IH]; [reflexivity|]. cbn. rewrite IH. reflexivity. Qed.
Definition is m (vs : list (Point3 T)) (ts : list triple) (c : Z) : Prop := reach m /\ shows m (mkA vs (alive ts) c).

Lemma is_clear m : reach m -> is (clear m) [] [] (get_color m).
Proof.
  intros R. pose proof (shows_run [OpClear] [OpClear] m (abs m) R (shows_abs m) ltac:(repeat constructor)) as H. cbn [srun sstep] in H.
  destruct H as [m' [E [R' S']]]. cbn in E. injection E as <-. split; [exact R'|]. exact S'.
Qed.
Lemma is_nbv m vs ts c : is m vs ts c -> nb_vertices m = len vs.
Proof. intros [_ [H _]]. exact H. Qed.
Lemma is_ops m vs ts c os os' vs' ts' xs : is m vs ts c -> Forall2 op_shows os os' -> srun (mkA vs (alive ts) c) os' = Some (mkA vs' (alive ts') c, xs) ->
  exists m', run_ops m os = Ok m' /\ is m' vs' ts' c.
Proof.
  intros [R S] F E. pose proof (shows_run os os' m _ R S F) as H. rewrite E in H. destruct H as [m' [E' [R' S']]]. exists m'. unfold run_ops. rewrite E'. split; [reflexivity|]. split; assumption.
Qed.
Lemma is_v m vs ts c ps : is m vs ts c -> exists m', run_ops m (map OpAddVertex ps) = Ok m' /\ is m' (vs ++ ps) ts c.
Proof.
  intros I. assert (exists xs, srun (mkA vs (alive ts) c) (map OpAddVertex ps) = Some (mkA (vs ++ ps) (alive ts) c, xs)) as [xs E].
  { clear I. revert vs. induction ps as [|p ps IH]; intros vs; [exists []; rewrite app_nil_r; reflexivity|]. cbn [map srun sstep]. unfold with_verts. cbn [averts atris acolor]. destruct (IH (vs ++ [p])) as [xs ->]. rewrite <- app_assoc. eexists. reflexivity. }
  eapply is_ops; [exact I| |exact E]. clear. induction ps; constructor; [reflexivity|assumption].
Qed.
Lemma alive_app u v : alive (u ++ v) = alive u ++ alive v. Proof. apply map_app. Qed.
Lemma oks_true n l : (forall i, In i l -> 0 <= i < n) -> oks n l = true.
Proof. intros H. unfold oks. apply forallb_forall. intros i I. specialize (H i I). unfold ok_idx. apply andb_true_intro. split; [apply Z.leb_le|apply Z.ltb_lt]; lia. Qed.
Lemma is_t m vs ts c x y z : is m vs ts c -> 0 <= x < len vs -> 0 <= y < len vs -> 0 <= z < len vs ->
  exists m', run_ops m [OpAddTriangle x y z] = Ok m' /\ is m' vs (ts ++ [(x, y, z)]) c.
Proof.
  intros I X Y Z. eapply (is_ops m vs ts c _ [OpAddTriangle x y z]); [exact I|repeat constructor|]. cbn [srun sstep averts]. rewrite oks_true by (intros i [<-|[<-|[<-|[]]]]; assumption).
  unfold with_tris. cbn [averts atris acolor]. rewrite alive_app. reflexivity.
Qed.
Lemma is_q m vs ts c x y z w : is m vs ts c -> 0 <= x < len vs -> 0 <= y < len vs -> 0 <= z < len vs -> 0 <= w < len vs ->
  exists m', add_quad m x y z w = Ok m' /\ is m' vs (ts ++ [(x, y, z); (z, w, x)]) c.
Proof.
  intros [R S] X Y Z W. pose proof (add_quad_shows m _ x y z w R S) as H. cbn [averts atris acolor] in H. rewrite oks_true in H by (intros i [<-|[<-|[<-|[<-|[]]]]]; assumption).
  destruct H as [m' [E [R' S']]]. exists m'. split; [exact E|]. split; [exact R'|]. rewrite alive_app. exact S'.
Qed.
Lemma is_for_v a b (body : Z -> Mesh T -> res (Mesh T)) h m vs ts c : a <= b ->
  (forall i m vs, a <= i < b -> is m vs ts c -> exists m', body i m = Ok m' /\ is m' (vs ++ h i) ts c) -> is m vs ts c ->
  exists m', for_ a b body m = Ok m' /\ is m' (vs ++ flat_map h (zrange a b)) ts c.
Proof.
  intros AB HB I. destruct (for_inv (fun i m => is m (vs ++ flat_map h (zrange a i)) ts c) a b body m AB) as [m' [E I']].
  - rewrite zrange_empty by lia. cbn. rewrite app_nil_r. exact I.
  - intros i s Hi Is. destruct (HB i s _ Hi Is) as [s' [E I']]. exists s'. split; [exact E|]. rewrite zrange_last by lia. rewrite flat_map_app. cbn. rewrite app_nil_r, app_assoc. exact I'.
  - exists m'. split; assumption.
Qed.
Lemma is_for_t a b (body : Z -> Mesh T -> res (Mesh T)) h m vs ts c : a <= b ->
  (forall i m ts, a <= i < b -> is m vs ts c -> exists m', body i m = Ok m' /\ is m' vs (ts ++ h i) c) -> is m vs ts c ->
  exists m', for_ a b body m = Ok m' /\ is m' vs (ts ++ flat_map h (zrange a b)) c.
Proof.
  intros AB HB I. destruct (for_inv (fun i m => is m vs (ts ++ flat_map h (zrange a i)) c) a b body m AB) as [m' [E I']].
  - rewrite zrange_empty by lia. cbn. rewrite app_nil_r. exact I.
  - intros i s Hi Is. destruct (HB i s _ Hi Is) as [s' [E I']]. exists s'. split; [exact E|]. rewrite zrange_last by lia. rewrite flat_map_app. cbn. rewrite app_nil_r, app_assoc. exact I'.
  - exists m'. split; assumption.
Qed.
End Fact.
Arguments is_v {T N m vs ts c}. Arguments is_ops {T N m vs ts c}. Arguments is_t {T N m vs ts c}. Arguments is_q {T N m vs ts c}.

(** ** Sums over directed edges *)
Definition zsum (f : Z -> Z) (l : list Z) : Z := fold_right (fun i s => f i + s) 0 l.
Definition tri_sum (phi : Z -> Z -> Z) (t : triple) : Z := let '(x, y, z) := t in phi x y + phi y z + phi z x.
Definition tris_sum (phi : Z -> Z -> Z) (ts : list triple) : Z := fold_right (fun t s => tri_sum phi t + s) 0 ts.
Definition anti (phi : Z -> Z -> Z) : Prop := forall i j, phi i j = - phi j i.
Lemma tris_sum_cons phi t u : tris_sum phi (t :: u) = tri_sum phi t + tris_sum phi u. Proof. reflexivity. Qed.
Lemma zsum_cons f i l : zsum f (i :: l) = f i + zsum f l. Proof. reflexivity. Qed.
Lemma tris_sum_app phi u v : tris_sum phi (u ++ v) = tris_sum phi u + tris_sum phi v.
Proof. induction u as [|t u IH]; [reflexivity|]. cbn [app]. rewrite !tris_sum_cons, IH. lia. Qed.
Lemma tris_sum_flat phi h l : tris_sum phi (flat_map h l) = zsum (fun i => tris_sum phi (h i)) l.
Proof. induction l as [|i l IH]; [reflexivity|]. cbn [flat_map]. rewrite tris_sum_app, IH. reflexivity. Qed.
Lemma zsum_app f u v : zsum f (u ++ v) = zsum f u + zsum f v.
Proof. induction u as [|t u IH]; [reflexivity|]. cbn [app]. rewrite !zsum_cons, IH. lia. Qed.
Lemma zsum_ext f g l : (forall i, In i l -> f i = g i) -> zsum f l = zsum g l.
Proof. induction l as [|t l IH]; intros H; [reflexivity|]. rewrite !zsum_cons. rewrite (H t) by (left; reflexivity). rewrite IH; [reflexivity|]. intros i I. apply H. right. exact I. Qed.
Lemma zsum_plus f g l : zsum (fun i => f i + g i) l = zsum f l + zsum g l.
Proof. induction l as [|t l IH]; [reflexivity|]. rewrite !zsum_cons, IH. lia. Qed.
Lemma zsum_opp f l : zsum (fun i => - f i) l = - zsum f l.
Proof. induction l as [|t l IH]; [reflexivity|]. rewrite !zsum_cons, IH. lia. Qed.
Lemma zsum_minus f g l : zsum (fun i => f i - g i) l = zsum f l - zsum g l.
Proof. induction l as [|t l IH]; [reflexivity|]. rewrite !zsum_cons, IH. lia. Qed.
Lemma zsum_0 l : zsum (fun _ => 0) l = 0.
Proof. induction l as [|t l IH]; [reflexivity|]. rewrite !zsum_cons, IH. reflexivity. Qed.
Lemma zsum_tele f a b : a <= b -> zsum (fun i => f (i + 1) - f i) (zrange a b) = f b - f a.
Proof.
  intros H. replace b with (a + Z.of_nat (Z.to_nat (b - a))) by lia. induction (Z.to_nat (b - a)) as [|n IH]; [cbn [Z.of_nat]; rewrite Z.add_0_r, zrange_empty by lia; cbn; lia|].
  replace (a + Z.of_nat (S n)) with (a + Z.of_nat n + 1) by lia. rewrite zrange_last by lia. rewrite zsum_app, IH. cbn. lia.
Qed.
Lemma zsum_shift f a b : zsum (fun i => f (i + 1)) (zrange a b) = zsum f (zrange (a + 1) (b + 1)).
Proof.
  destruct (Z.le_gt_cases b a) as [H|H]; [rewrite !zrange_empty by lia; reflexivity|].
  replace b with (a + Z.of_nat (Z.to_nat (b - a))) by lia. induction (Z.to_nat (b - a)) as [|n IH]; [rewrite !zrange_empty by lia; reflexivity|].
  replace (a + Z.of_nat (S n)) with (a + Z.of_nat n + 1) by lia. rewrite (zrange_last a), (zrange_last (a + 1) (a + Z.of_nat n + 1)) by lia. rewrite !zsum_app, IH. reflexivity.
Qed.
(** Going round a cycle. *)
Lemma zsum_cycle f n : zsum (fun i => f (Z.rem (i + 1) n)) (zrange 0 n) = zsum f (zrange 0 n).
Proof.
  destruct (Z.le_gt_cases n 0) as [H|H]; [rewrite !zrange_empty by lia; reflexivity|].
  assert (zrange 0 n = zrange 0 (n - 1) ++ [n - 1]) as E by (replace n with (n - 1 + 1) at 1 by lia; apply zrange_last; lia).
  rewrite E at 1. rewrite zsum_app.
  rewrite (zsum_ext _ (fun i => f (i + 1)) (zrange 0 (n - 1))) by (intros i I; apply in_zrange in I; f_equal; apply Z.rem_small; lia).
  rewrite zsum_shift, (zrange_cons 0 n), !zsum_cons by lia. replace (n - 1 + 1) with n by lia. rewrite Z.rem_same by lia. cbn [zsum fold_right Z.add]. lia.
Qed.
Lemma zsum_cycle_diff f n : zsum (fun i => f (Z.rem (i + 1) n) - f i) (zrange 0 n) = 0.
Proof. rewrite zsum_minus, zsum_cycle. lia. Qed.
Lemma anti_refl phi i : anti phi -> phi i i = 0. Proof. intros A. specialize (A i i). lia. Qed.

Lemma closed_of_sums ts : (forall phi, anti phi -> tris_sum phi ts = 0) -> index_closed ts.
Proof.
  intros H i j. set (phi := fun a b => (if zz_dec (a, b) (i, j) then 1 else 0) - (if zz_dec (a, b) (j, i) then 1 else 0)).
  assert (anti phi) as A. { intros a b. unfold phi. destruct (zz_dec (a, b) (i, j)) as [E1|N1], (zz_dec (a, b) (j, i)) as [E2|N2], (zz_dec (b, a) (i, j)) as [E3|N3], (zz_dec (b, a) (j, i)) as [E4|N4]; try lia; exfalso; first [injection E1 as -> ->|injection E2 as -> ->|injection E3 as -> ->|injection E4 as -> ->]; congruence. }
  specialize (H phi A). assert (forall es, fold_right (fun e s => phi (fst e) (snd e) + s) 0 es = Z.of_nat (count_occ zz_dec es (i, j)) - Z.of_nat (count_occ zz_dec es (j, i))) as C.
  { induction es as [|[a b] es IH]; [reflexivity|]. cbn [fold_right count_occ fst snd]. rewrite IH. unfold phi. destruct (zz_dec (a, b) (i, j)), (zz_dec (a, b) (j, i)); lia. }
  assert (tris_sum phi ts = fold_right (fun e s => phi (fst e) (snd e) + s) 0 (flat_map edges3 ts)) as E.
  { clear. induction ts as [|[[x y] z] ts IH]; [reflexivity|]. rewrite tris_sum_cons, IH. cbn. lia. }
  rewrite E, C in H. lia.
Qed.
