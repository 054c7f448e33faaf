(** The control points of a surface in a STEP file. *)
From Coq Require Import String Ascii ZArith List Bool Lia Sorted.
From Verif Require Import Base Num MGeometry MNurbs MNurbsSurface MText MStep SObj SStep LBase LMesh LText LStep LStep2.
Import ListNotations.
Open Scope Z_scope.

Lemma sep_snoc s l x : sep s (l ++ [x]) = flat_map (fun y => y ++ s) l ++ x.
Proof. induction l as [|y l IH]; [reflexivity|]. cbn [app flat_map]. rewrite <- !app_assoc. rewrite <- IH. destruct l; reflexivity. Qed.
Lemma flat_map_snoc {A B} (f : A -> list B) l x : flat_map f (l ++ [x]) = flat_map f l ++ f x.
Proof. rewrite flat_map_app. cbn [flat_map]. rewrite app_nil_r. reflexivity. Qed.
(** A loop that writes items, with [s] after all but the last one. *)
Definition sofar (s : list Z) (items : nat -> list Z) (n i : Z) : list Z :=
  if i =? n then sep s (map items (seq 0 (Z.to_nat i))) else flat_map (fun y => y ++ s) (map items (seq 0 (Z.to_nat i))).
Lemma sofar_S s items n i : 0 <= i < n -> sofar s items n (i + 1) = sofar s items n i ++ items (Z.to_nat i) ++ (if i + 1 =? n then [] else s).
Proof.
  intros H. unfold sofar. destruct (Z.eqb_spec i n); [lia|]. replace (Z.to_nat (i + 1)) with (S (Z.to_nat i)) by lia. rewrite seq_S, map_app. cbn [map Nat.add].
  destruct (i + 1 =? n); [rewrite sep_snoc, app_nil_r; reflexivity|]. rewrite flat_map_snoc. reflexivity.
Qed.
Lemma sofar_0 s items n : sofar s items n 0 = []. Proof. unfold sofar. destruct (0 =? n); reflexivity. Qed.
Definition hash (i : Z) : list Z := str "#" ++ show_int i.
Lemma row_text nu t i0 : 0 <= nu -> for_ 0 nu (fun i s => Ok (fst s ++ str "#" ++ show_int (snd s) ++ (if i + 1 =? nu then [] else str ","), snd s + 1)) (t, i0) = Ok (t ++ sep (str ",") (map hash (ids i0 (Z.to_nat nu))), i0 + nu).
Proof.
  intros N0. match goal with |- context [for_ 0 nu ?bd ?s0] => destruct (for_inv (fun i s => s = (t ++ sofar (str ",") (fun k => hash (i0 + Z.of_nat k)) nu i, i0 + i)) 0 nu bd s0 N0) as [s [E Hs]] end.
  - rewrite sofar_0, app_nil_r, Z.add_0_r. reflexivity.
  - intros i s Hi ->. eexists. split; [reflexivity|]. cbn [fst snd]. rewrite sofar_S by lia. rewrite Z2Nat.id by lia. unfold hash. rewrite <- !app_assoc. f_equal. lia.
  - rewrite E, Hs. unfold sofar. rewrite Z.eqb_refl. unfold ids. rewrite map_map. reflexivity.
Qed.
Definition rows_of (i0 nu nv : Z) : list (list Z) := map (fun j => ids (i0 + nu * Z.of_nat j) (Z.to_nat nu)) (seq 0 (Z.to_nat nv)).
Lemma rows_text nu nv t i0 : 0 <= nu -> 0 <= nv -> sw_rows nu nv t i0 = Ok (t ++ net (rows_of i0 nu nv), i0 + nu * nv).
Proof.
  intros N0 M0. unfold sw_rows. set (items := fun j : nat => str "(" ++ sep (str ",") (map hash (ids (i0 + nu * Z.of_nat j) (Z.to_nat nu))) ++ str ")").
  match goal with |- context [for_ 0 nv ?bd ?s0] => destruct (for_inv (fun j s => s = (t ++ sofar (str "," ++ endl) items nv j, i0 + nu * j)) 0 nv bd s0 M0) as [s [E Hs]] end.
  - rewrite sofar_0, app_nil_r, Z.mul_0_r, Z.add_0_r. reflexivity.
  - intros j s Hj ->. cbn [fst snd]. rewrite row_text by exact N0. cbn [bind fst snd]. eexists. split; [reflexivity|]. rewrite sofar_S by lia. replace (items (Z.to_nat j)) with (str "(" ++ sep (str ",") (map hash (ids (i0 + nu * j) (Z.to_nat nu))) ++ str ")") by (unfold items; rewrite Z2Nat.id by lia; reflexivity). rewrite <- !app_assoc. f_equal. lia.
  - rewrite E, Hs. unfold sofar. rewrite Z.eqb_refl. unfold net, rows_of. rewrite map_map. reflexivity.
Qed.

Section Step.
Context {T : Type} {X : Text T}.
(** The rows of control points of a surface that has been written. *)
Lemma step_net (w : stepw) (n : NurbsSurface T) : no_hash -> full n -> 0 <= sw_id w ->
  exists w' pre post rows, sw_write w n = Ok w' /\
    sw_text w' = pre ++ str "B_SPLINE_SURFACE(" ++ show_int (ns_degU n) ++ str "," ++ show_int (ns_degV n) ++ str ",(" ++ endl ++ net rows ++ endl ++ str "),.UNSPECIFIED.," ++ post /\
    vsize rows = ns_nbV n /\ (forall row, In row rows -> vsize row = ns_nbU n) /\ concat rows = ids (sw_id w) (length (ns_points n)).
Proof.
  intros NH F H0. pose proof F as (DU & DV & NU & NV & SP & SW & KU & KV). destruct (points_ok NH (ns_points n) w H0) as (pb & EP & _).
  unfold sw_write. rewrite EP. cbn [sw_text sw_id]. rewrite rows_text by assumption. cbn [bind fst].
  rewrite mults_ok by exact KU. cbn [bind]. rewrite mults_ok by exact KV. cbn [bind]. rewrite knots_ok by lia. cbn [bind]. rewrite knots_ok by lia. cbn [bind].
  match goal with |- context [sw_weights _ _ _ ?t4] => destruct (weights_ok (ns_nbU n) (ns_nbV n) (ns_weights n) t4 NH NU NV SW) as (wb & EWB & HW) end.
  rewrite EWB. cbn [bind].
  eexists _, (sw_text w ++ pb ++ endl ++ str "#" ++ show_int (sw_id w + vsize (ns_points n)) ++ str "=(" ++ endl ++ str "BOUNDED_SURFACE()" ++ endl), _, (rows_of (sw_id w) (ns_nbU n) (ns_nbV n)). split; [reflexivity|]. split; [|split; [|split]].
  - cbn [sw_text]. rewrite <- !app_assoc. reflexivity.
  - unfold vsize, rows_of. rewrite map_length, seq_length. lia.
  - intros row I. unfold rows_of in I. apply in_map_iff in I as (j & <- & _). unfold vsize, ids. rewrite map_length, seq_length. lia.
  - assert (length (ns_points n) = Z.to_nat (ns_nbU n) * Z.to_nat (ns_nbV n))%nat as -> by (unfold vsize in SP; rewrite <- Z2Nat.inj_mul by lia; lia).
    unfold rows_of. induction (Z.to_nat (ns_nbV n)) as [|m IH]; [rewrite Nat.mul_0_r; reflexivity|]. rewrite seq_S, map_app, concat_app, IH. cbn [map concat Nat.add]. rewrite app_nil_r, Nat.mul_succ_r, ids_app. do 2 f_equal. lia.
Qed.
(** Rows are taken in the direction v, not u. *)
Lemma step_net_transposed (w : stepw) (n : NurbsSurface T) : no_hash -> full n -> 0 <= sw_id w -> vsize (ns_knotsU n) = ns_nbU n + ns_degU n + 1 -> ns_nbU n <> ns_nbV n ->
  exists w' pre post rows mu mv ku kv, sw_write w n = Ok w' /\
    sw_text w' = pre ++ str "B_SPLINE_SURFACE(" ++ show_int (ns_degU n) ++ str "," ++ show_int (ns_degV n) ++ str ",(" ++ endl ++ net rows ++ endl ++ str "),.UNSPECIFIED.," ++
      sw_bool (ns_closedU n) ++ str "," ++ sw_bool (ns_closedV n) ++ str ",.F.)" ++ endl ++ mult_text mu mv ku kv ++ post /\
    vsize rows <> Z.of_nat (list_sum mu) - ns_degU n - 1.
Proof.
  intros NH F H0 KN NE. pose proof F as (DU & DV & NU & NV & SP & SW & KU & KV). destruct (points_ok NH (ns_points n) w H0) as (pb & EP & _).
  unfold sw_write. rewrite EP. cbn [sw_text sw_id]. rewrite rows_text by assumption. cbn [bind fst].
  rewrite mults_ok by exact KU. cbn [bind]. rewrite mults_ok by exact KV. cbn [bind]. rewrite knots_ok by lia. cbn [bind]. rewrite knots_ok by lia. cbn [bind].
  match goal with |- context [sw_weights _ _ _ ?t4] => destruct (weights_ok (ns_nbU n) (ns_nbV n) (ns_weights n) t4 NH NU NV SW) as (wb & EWB & HW) end.
  rewrite EWB. cbn [bind].
  eexists _, (sw_text w ++ pb ++ endl ++ str "#" ++ show_int (sw_id w + vsize (ns_points n)) ++ str "=(" ++ endl ++ str "BOUNDED_SURFACE()" ++ endl), _, (rows_of (sw_id w) (ns_nbU n) (ns_nbV n)),
    (nmults (ns_degU n) (vsize (ns_knotsU n))), (nmults (ns_degV n) (vsize (ns_knotsV n))), (mid (ns_degU n) (ns_knotsU n)), (mid (ns_degV n) (ns_knotsV n)). split; [reflexivity|]. split.
  - cbn [sw_text]. unfold mult_text. rewrite <- !(map_map Z.of_nat show_int). rewrite !nmults_mults by assumption. unfold group, mults. change (str ",.F.)") with (str ",.F." ++ str ")"). rewrite <- !app_assoc. reflexivity.
  - rewrite nmults_sum by assumption. unfold rows_of, vsize at 1. rewrite map_length, seq_length. unfold vsize in KN. lia.
Qed.
End Step.
