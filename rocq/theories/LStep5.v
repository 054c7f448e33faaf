(** The text of a STEP file, completely. *)
From Coq Require Import String Ascii ZArith List Bool Lia.
From Verif Require Import Base Num MGeometry MNurbs MNurbsSurface MText MStep SObj SStep SStepDoc LBase LMesh LText LStep LStep2 LStep4.
Import ListNotations.
Open Scope Z_scope.

Lemma skipn_skip {A} b : forall a (l : list A), skipn a (skipn b l) = skipn (a + b) l.
Proof.
  induction b as [|b IH]; intros a l; [rewrite Nat.add_0_r; reflexivity|]. rewrite Nat.add_succ_r. destruct l as [|x l]; [rewrite !skipn_nil; reflexivity|]. cbn [skipn]. apply IH.
Qed.
Lemma chunks_seq {A} nu : forall nv (l : list A) a, chunks nu nv (skipn (nu * a) l) = map (fun j => firstn nu (skipn (nu * j) l)) (seq a nv).
Proof.
  induction nv as [|nv IH]; intros l a; [reflexivity|]. cbn [chunks seq map]. f_equal. rewrite skipn_skip. replace (nu + nu * a)%nat with (nu * S a)%nat by lia. apply IH.
Qed.
Lemma chunks_map {A} nu nv (l : list A) : chunks nu nv l = map (fun j => firstn nu (skipn (nu * j) l)) (seq 0 nv).
Proof. rewrite <- chunks_seq. rewrite Nat.mul_0_r. reflexivity. Qed.
Lemma commas_sep l : commas l = sep (str ",") l.
Proof. induction l as [|x [|y l] IH]; [reflexivity|reflexivity|]. cbn [commas sep] in *. rewrite IH. reflexivity. Qed.
Lemma slice_nums a n m k : (k + m <= n)%nat -> firstn m (skipn k (numbers a n)) = ids (a + Z.of_nat k) m.
Proof.
  intros H. unfold numbers, ids. rewrite skipn_map, firstn_map. replace n with (k + (m + (n - k - m)))%nat by lia. rewrite !seq_app. cbn [Nat.add].
  rewrite skipn_app, skipn_all2 by (rewrite seq_length; lia). rewrite seq_length, Nat.sub_diag. cbn [app skipn]. rewrite firstn_app, firstn_all2 by (rewrite seq_length; lia). rewrite seq_length, Nat.sub_diag. cbn [firstn]. rewrite app_nil_r.
  rewrite <- (Nat.add_0_r k) at 1. generalize 0%nat. induction m as [|m IH]; intros b; [reflexivity|]. cbn [seq map]. f_equal; [lia|]. replace (S (k + b)) with (k + S b)%nat by lia. apply IH. lia.
Qed.
Lemma rows_chunks a nu nv : 0 <= nu -> 0 <= nv -> chunks (Z.to_nat nu) (Z.to_nat nv) (numbers a (Z.to_nat (nu * nv))) = rows_of a nu nv.
Proof.
  intros H1 H2. rewrite chunks_map. unfold rows_of. apply map_ext_in. intros j I. apply in_seq in I. rewrite slice_nums by nia. f_equal. rewrite Nat2Z.inj_mul, Z2Nat.id by lia. reflexivity.
Qed.

Section Step.
Context {T : Type} {X : Text T}.
Lemma points_text (ps : list (Point3 T)) : forall w, fold_left sw_point ps w = mkSW (sw_text w ++ flat_map entity_text (combine (numbers (sw_id w) (length ps)) (map EPoint ps))) (sw_id w + vsize ps).
Proof.
  induction ps as [|p ps IH]; intros w.
  - cbn. rewrite app_nil_r, Z.add_0_r. destruct w; reflexivity.
  - cbn [fold_left]. rewrite IH. cbn [sw_point sw_text sw_id length map]. unfold numbers. cbn [seq map combine flat_map]. f_equal.
    + rewrite <- !app_assoc. apply f_equal. cbn [entity_text]. unfold ref. change (Z.of_nat 0) with 0. rewrite Z.add_0_r. rewrite <- !app_assoc. do 10 apply f_equal.
      rewrite <- seq_shift, map_map. f_equal. f_equal. apply map_ext. intros i. lia.
    + unfold vsize. cbn [length]. lia.
Qed.
Lemma firstn_nth_snoc {A} (l : list A) i x : nth_error l i = Some x -> firstn (S i) l = firstn i l ++ [x].
Proof. revert i. induction l as [|y l IH]; intros [|i] E; try discriminate; cbn in *; [injection E as ->; reflexivity|]. rewrite (IH _ E). reflexivity. Qed.
Lemma nth_firstn {A} (l : list A) : forall n i, (i < n)%nat -> nth_error (firstn n l) i = nth_error l i.
Proof. induction l as [|x l IH]; intros [|n] i H; try lia; [destruct i; reflexivity|]. destruct i as [|i]; [reflexivity|]. cbn. apply IH. lia. Qed.
Lemma wrow_text nu j (w : list T) t : 0 <= nu -> 0 <= j -> nu * j + nu <= vsize w ->
  for_ 0 nu (fun i t => do x <- vget w (nu * j + i); Ok (t ++ f_show x ++ (if i + 1 =? nu then [] else str ","))) t =
  Ok (t ++ sep (str ",") (map f_show (firstn (Z.to_nat nu) (skipn (Z.to_nat nu * Z.to_nat j) w)))).
Proof.
  intros N0 J0 HW. set (r := firstn (Z.to_nat nu) (skipn (Z.to_nat nu * Z.to_nat j) w)).
  assert (forall i, 0 <= i < nu -> exists x, vget w (nu * j + i) = Ok x /\ nth_error r (Z.to_nat i) = Some x) as G.
  { intros i Hi. destruct (vget_in_range w (nu * j + i) ltac:(nia)) as [x E]. exists x. split; [exact E|]. apply vget_Ok in E as [_ E]. unfold r. rewrite nth_firstn by lia. rewrite nth_error_skipn. rewrite <- E. f_equal. nia. }
  match goal with |- context [for_ 0 nu ?bd ?s0] => destruct (for_inv (fun i s => s = t ++ sofar (str ",") (fun k => match nth_error r k with Some x => f_show x | None => [] end) nu i) 0 nu bd s0 N0) as [s [E Hs]] end.
  - rewrite sofar_0, app_nil_r. reflexivity.
  - intros i s Hi ->. destruct (G i Hi) as (x & -> & HN). cbn [bind]. eexists. split; [reflexivity|]. rewrite sofar_S by lia. rewrite HN. rewrite <- !app_assoc. reflexivity.
  - rewrite E, Hs. unfold sofar. rewrite Z.eqb_refl. do 2 f_equal. f_equal. 
    assert (length r = Z.to_nat nu) as LR. { unfold r. rewrite firstn_length, skipn_length. unfold vsize in HW. nia. } rewrite <- LR. clearbody r. clear.
    change (seq 0 (length r)) with (seq 0 (length r)). induction r as [|x r IH]; [reflexivity|]. cbn [length seq map nth_error]. f_equal. rewrite <- seq_shift, map_map. exact IH.
Qed.
Lemma weights_text nu nv (w : list T) t : 0 <= nu -> 0 <= nv -> vsize w = nu * nv ->
  sw_weights nu nv w t = Ok (t ++ table f_show (chunks (Z.to_nat nu) (Z.to_nat nv) w)).
Proof.
  intros N0 M0 SW. unfold sw_weights. set (items := fun j : nat => paren (sep (str ",") (map f_show (firstn (Z.to_nat nu) (skipn (Z.to_nat nu * j) w))))).
  match goal with |- context [for_ 0 nv ?bd ?s0] => destruct (for_inv (fun j s => s = t ++ sofar (str "," ++ endl) items nv j) 0 nv bd s0 M0) as [s [E Hs]] end.
  - rewrite sofar_0, app_nil_r. reflexivity.
  - intros j s Hj ->. rewrite wrow_text by (try lia; nia). cbn [bind]. eexists. split; [reflexivity|]. rewrite sofar_S by lia. change (items (Z.to_nat j)) with (str "(" ++ sep (str ",") (map f_show (firstn (Z.to_nat nu) (skipn (Z.to_nat nu * Z.to_nat j) w))) ++ str ")"). rewrite <- !app_assoc. reflexivity.
  - rewrite E, Hs. unfold sofar. rewrite Z.eqb_refl. unfold table. rewrite chunks_map, map_map. reflexivity.
Qed.
Lemma mid_inner deg (k : list T) : 0 <= deg -> 2 * deg <= vsize k -> mid deg k = inner deg k.
Proof. intros H H2. unfold mid, inner. unfold vsize in *. f_equal. lia. Qed.
Lemma group_paren (l : list (list Z)) : group l = paren (sep (str ",") l) ++ str ",".
Proof. unfold group, paren. rewrite commas_sep. rewrite <- !app_assoc. reflexivity. Qed.
Lemma write_text (w : stepw) (n : NurbsSurface T) : full n -> sw_write w n = Ok (mkSW (sw_text w ++ flat_map entity_text (describe (sw_id w) n)) (sw_id w + Z.of_nat (length (describe (sw_id w) n)))).
Proof.
  intros (DU & DV & NU & NV & SP & SW & KU & KV). unfold sw_write. rewrite points_text. cbn [sw_text sw_id]. rewrite rows_text by assumption. cbn [bind fst].
  rewrite mults_ok by exact KU. cbn [bind]. rewrite mults_ok by exact KV. cbn [bind]. rewrite knots_ok by lia. cbn [bind]. rewrite knots_ok by lia. cbn [bind].
  rewrite weights_text by assumption. cbn [bind]. f_equal. f_equal.
  - unfold describe. rewrite flat_map_app. cbn [flat_map]. rewrite app_nil_r. fold (vsize (ns_points n)). set (s := sw_id w + vsize (ns_points n)).
    replace (length (ns_points n)) with (Z.to_nat (ns_nbU n * ns_nbV n)) at 3 by (unfold vsize in SP; lia). rewrite rows_chunks by assumption.
    replace (s + 1 + 1) with (s + 2) by lia. replace (s + 2 + 1) with (s + 3) by lia. replace (s + 3 + 1) with (s + 4) by lia. replace (s + 4 + 1) with (s + 5) by lia.
    replace (s + 2 - 1) with (s + 1) by lia. replace (s + 3 - 1) with (s + 2) by lia. replace (s + 4 - 1) with (s + 3) by lia. replace (s + 5 - 1) with (s + 4) by lia.
    assert (forall d (k : list T), 0 <= d -> 2 * d + 2 <= vsize k -> map show_int (d + 1 :: repeat 1 (Z.to_nat (vsize k - 2 * d - 2)) ++ [d + 1]) = map show_int (ends d k)) as EN.
    { intros d k H1 H2. unfold ends. cbn [app]. do 3 f_equal. f_equal. unfold vsize in *. lia. }
    rewrite !EN by assumption. rewrite !group_paren. rewrite !mid_inner by lia. rewrite !commas_sep. cbn [entity_text]. unfold net. fold (table ref (rows_of (sw_id w) (ns_nbU n) (ns_nbV n))).
    unfold ref, paren. rewrite <- !app_assoc. repeat (apply f_equal; try reflexivity).
  - unfold describe. rewrite app_length, combine_length, map_length. unfold numbers. rewrite map_length, seq_length. cbn [length]. unfold vsize. lia.
Qed.
Lemma describe_app a (xs ys : list (NurbsSurface T)) : describe_all a (xs ++ ys) = describe_all a xs ++ describe_all (a + Z.of_nat (length (describe_all a xs))) ys.
Proof. revert a. induction xs as [|x xs IH]; intros a; cbn [app describe_all]; [rewrite Z.add_0_r; reflexivity|]. rewrite IH, <- app_assoc. do 2 f_equal. f_equal. rewrite app_length. lia. Qed.
Lemma solid_text (fs : list (NurbsSurface T)) : forall w, Forall full fs -> sw_solid w fs = Ok (mkSW (sw_text w ++ flat_map entity_text (describe_all (sw_id w) fs)) (sw_id w + Z.of_nat (length (describe_all (sw_id w) fs)))).
Proof.
  induction fs as [|f fs IH]; intros w F; cbn [sw_solid describe_all].
  - cbn. rewrite app_nil_r, Z.add_0_r. destruct w; reflexivity.
  - inversion F; subst. rewrite write_text by assumption. cbn [bind]. rewrite IH by assumption. cbn [sw_text sw_id]. rewrite flat_map_app, app_length, <- app_assoc. do 2 f_equal. lia.
Qed.
Lemma all_text (xs : list (list (NurbsSurface T))) : forall w, Forall (Forall full) xs -> sw_all w xs = Ok (sw_text w ++ flat_map entity_text (describe_all (sw_id w) (concat xs)) ++ closing).
Proof.
  induction xs as [|x xs IH]; intros w F; cbn [sw_all concat].
  - cbn [describe_all flat_map app]. unfold sw_close, closing, lines. cbn [flat_map]. rewrite app_nil_r, <- !app_assoc. reflexivity.
  - inversion F; subst. rewrite solid_text by assumption. cbn [bind]. rewrite IH by assumption. cbn [sw_text sw_id]. rewrite describe_app, flat_map_app, <- !app_assoc. reflexivity.
Qed.
Lemma step_document (xs : list (list (NurbsSurface T))) : Forall (Forall full) xs -> step_file xs = Ok (document (describe_all 20 (concat xs))).
Proof. intros F. unfold step_file. rewrite all_text by exact F. reflexivity. Qed.
(** Solids of one face each. *)
Lemma describe_solids (ns : list (NurbsSurface T)) : forall a, length (filter is_solid (describe_all a ns)) = length ns.
Proof.
  induction ns as [|n ns IH]; intros a; [reflexivity|]. cbn [describe_all]. rewrite filter_app, app_length, IH. unfold describe. rewrite filter_app, app_length.
  assert (forall (l : list Z) (ps : list (Point3 T)), filter is_solid (combine l (map EPoint ps)) = []) as -> by (induction l as [|i l IHl]; intros [|q ps]; cbn; auto). reflexivity.
Qed.
Lemma step_solids (fs : list (NurbsSurface T)) : Forall full fs -> exists es, step_file [fs] = Ok (document es) /\ length (filter is_solid es) = length fs.
Proof. intros F. exists (describe_all 20 fs). split; [|apply describe_solids]. rewrite step_document by (constructor; [exact F|constructor]). cbn [concat]. rewrite app_nil_r. reflexivity. Qed.
End Step.
