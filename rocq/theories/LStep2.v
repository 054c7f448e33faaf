(** STEP files: a surface, then whole files. *)
From Coq Require Import String Ascii ZArith List Bool Lia Sorted.
From Verif Require Import Base Num MGeometry MNurbs MNurbsSurface MText MStep SObj SStep LBase LMesh LText LStep.
Import ListNotations.
Open Scope Z_scope.

Section Step.
Context {T : Type} {X : Text T}.
Implicit Types n : NurbsSurface T.

Definition mults (deg size : Z) : list Z := deg + 1 :: repeat 1 (Z.to_nat (size - 2 * deg - 2)) ++ [deg + 1].
Definition part1 n : list Z := str "=(" ++ endl ++ str "BOUNDED_SURFACE()" ++ endl ++ str "B_SPLINE_SURFACE(" ++ show_int (ns_degU n) ++ str "," ++ show_int (ns_degV n) ++ str ",(".
Definition part2 n : list Z := endl ++ str "),.UNSPECIFIED.," ++ sw_bool (ns_closedU n) ++ str "," ++ sw_bool (ns_closedV n) ++ str ",.F." ++ str ")" ++ endl.
Definition part3 n : list Z := str "B_SPLINE_SURFACE_WITH_KNOTS(" ++ endl ++
  group (map show_int (mults (ns_degU n) (vsize (ns_knotsU n)))) ++ endl ++ group (map show_int (mults (ns_degV n) (vsize (ns_knotsV n)))) ++ endl ++
  group (map f_show (mid (ns_degU n) (ns_knotsU n))) ++ endl ++ group (map f_show (mid (ns_degV n) (ns_knotsV n))) ++ endl.
Definition part4 (wb : list Z) : list Z := str ".UNSPECIFIED.)" ++ endl ++ str "GEOMETRIC_REPRESENTATION_ITEM()" ++ endl ++ str "RATIONAL_B_SPLINE_SURFACE((" ++ endl ++ wb ++ endl ++
  str "))" ++ endl ++ str "REPRESENTATION_ITEM('')" ++ endl ++ str "SURFACE()" ++ endl ++ str ");" ++ endl.
Definition part5 (f : Z) : list Z :=
  str "#" ++ show_int (f + 1) ++ str "=ADVANCED_FACE('', (), " ++ str "#" ++ show_int f ++ str ", .T.);" ++ endl ++
  str "#" ++ show_int (f + 2) ++ str "=CLOSED_SHELL('',(" ++ str "#" ++ show_int (f + 1) ++ str "));" ++ endl ++
  str "#" ++ show_int (f + 3) ++ str "=MANIFOLD_SOLID_BREP(''," ++ str "#" ++ show_int (f + 2) ++ str ");" ++ endl ++
  str "#" ++ show_int (f + 4) ++ str "=ADVANCED_BREP_SHAPE_REPRESENTATION('',(" ++ str "#" ++ show_int (f + 3) ++ str "),'');" ++ endl ++
  str "#" ++ show_int (f + 5) ++ str "=SHAPE_REPRESENTATION_RELATIONSHIP('','None'," ++ str "#" ++ show_int 12 ++ str "," ++ str "#" ++ show_int (f + 4) ++ str ");" ++ endl ++ endl.

Lemma nh_app (a b : list Z) : ~ In 35 a -> ~ In 35 b -> ~ In 35 (a ++ b).
Proof. intros A B I. apply in_app_or in I. tauto. Qed.
Lemma nh_int z : 0 <= z -> ~ In 35 (show_int z).
Proof. intros H I. apply show_int_chars in I; [lia|exact H]. Qed.
Lemma nh_commas l : (forall x, In x l -> ~ In 35 x) -> ~ In 35 (commas l).
Proof.
  induction l as [|x l IH]; intros H; [intros []|]. destruct l as [|y l]; [apply H; left; reflexivity|]. cbn [commas]. apply nh_app; [apply H; left; reflexivity|]. apply nh_app; [cbn; intuition discriminate|]. apply IH. intros z I. apply H. right. exact I.
Qed.
Lemma nh_group l : (forall x, In x l -> ~ In 35 x) -> ~ In 35 (group l).
Proof. intros H. unfold group. apply nh_app; [cbn; intuition discriminate|]. apply nh_app; [apply nh_commas, H|cbn; intuition discriminate]. Qed.
Ltac nh := repeat apply nh_app; try (cbn; intuition discriminate).
Lemma nh_mults deg size : 0 <= deg -> ~ In 35 (group (map show_int (mults deg size))).
Proof.
  intros H. apply nh_group. intros x I. apply in_map_iff in I as [z [<- I]]. apply nh_int. destruct I as [<-|I]; [lia|]. apply in_app_or in I as [I|[<-|[]]]; [|lia]. apply repeat_spec in I. lia.
Qed.
Lemma nh_shows (NH : no_hash) (l : list T) : ~ In 35 (group (map f_show l)).
Proof. apply nh_group. intros x I. apply in_map_iff in I as [z [<- _]]. apply NH. Qed.

Lemma plain_nl t b r : ~ In 35 t -> hashes b (t ++ endl ++ r) = hashes true r.
Proof. intros H. rewrite hashes_nl. rewrite <- (app_nil_r t), plain by exact H. reflexivity. Qed.

Lemma plain_hash t x : ~ In 35 t -> fold_left (fun (_ : bool) (c : Z) => c =? 10) t false = false -> hashes false (t ++ 35 :: x) = hashes false (35 :: x).
Proof. intros H E. rewrite plain by exact H. rewrite E. reflexivity. Qed.
Lemma part5_hashes f r : 0 <= f -> hashes true (part5 f ++ r) =
  [(true, f + 1); (false, f); (true, f + 2); (false, f + 1); (true, f + 3); (false, f + 2); (true, f + 4); (false, f + 3); (true, f + 5); (false, 12); (false, f + 4)] ++ hashes true r.
Proof.
  intros H. unfold part5. rewrite <- !app_assoc. change (str "#") with [35]. cbn [app].
  repeat match goal with
  | |- context [hashes true (35 :: show_int ?n ++ ?x)] => rewrite (hash_num true n x) by (first [lia|reflexivity])
  | |- context [hashes false (35 :: show_int ?n ++ ?x)] => rewrite (hash_num false n x) by (first [lia|reflexivity])
  | |- context [hashes false (str ?s ++ endl ++ ?x)] => rewrite (plain_nl (str s) false x) by (cbn; intuition discriminate)
  | |- context [hashes false (str ?s ++ 35 :: ?x)] => rewrite (plain_hash (str s) x) by (first [reflexivity|cbn; intuition discriminate])
  | |- context [hashes true (endl ++ ?x)] => change (hashes true (endl ++ x)) with (hashes true x)
  end. reflexivity.
Qed.

Lemma sw_write_ok (w : stepw) n : no_hash -> full n -> 0 <= sw_id w ->
  exists pb rb wb, let f := sw_id w + vsize (ns_points n) in
    let body := pb ++ endl ++ str "#" ++ show_int f ++ part1 n ++ endl ++ rb ++ part2 n ++ part3 n ++ part4 wb ++ endl ++ part5 f in
    sw_write w n = Ok (mkSW (sw_text w ++ body) (f + 6)) /\
    forall r, hashes true (body ++ r) = map (pair true) (ids (sw_id w) (length (ns_points n))) ++ (true, f) :: refsto (ids (sw_id w) (length (ns_points n))) ++
      [(true, f + 1); (false, f); (true, f + 2); (false, f + 1); (true, f + 3); (false, f + 2); (true, f + 4); (false, f + 3); (true, f + 5); (false, 12); (false, f + 4)] ++ hashes true r.
Proof.
  intros NH (DU & DV & NU & NV & SP & SW & KU & KV) H0. destruct (points_ok NH (ns_points n) w H0) as (pb & EP & HP).
  pose proof (vsize_nonneg (ns_points n)) as VP. set (f := sw_id w + vsize (ns_points n)) in *.
  destruct (rows_ok (ns_nbU n) (ns_nbV n) (((sw_text w ++ pb) ++ endl ++ str "#" ++ show_int f ++ str "=(" ++ endl ++ str "BOUNDED_SURFACE()" ++ endl) ++ str "B_SPLINE_SURFACE(" ++ show_int (ns_degU n) ++ str "," ++ show_int (ns_degV n) ++ str ",(" ++ endl) (sw_id w) NU NV H0) as (rb & ER & QR & HR).
  match type of ER with _ = Ok (?t0 ++ _, _) => set (t := t0) in * end.
  unfold sw_write. rewrite EP. cbn [sw_text sw_id]. fold t. rewrite ER. cbn [bind fst].
  rewrite mults_ok by exact KU. cbn [bind]. rewrite mults_ok by exact KV. cbn [bind]. rewrite knots_ok by lia. cbn [bind]. rewrite knots_ok by lia. cbn [bind].
  match goal with |- context [sw_weights _ _ _ ?t4] => destruct (weights_ok (ns_nbU n) (ns_nbV n) (ns_weights n) t4 NH NU NV SW) as (wb & EWB & HW) end.
  rewrite EWB. cbn [bind]. exists pb, rb, wb. cbv zeta. split.
  - f_equal. f_equal; [|lia]. unfold t, part1, part2, part3, part4, part5, group, mults. rewrite <- !app_assoc.
    replace (f + 1 + 1) with (f + 2) by lia. replace (f + 2 + 1) with (f + 3) by lia. replace (f + 3 + 1) with (f + 4) by lia. replace (f + 4 + 1) with (f + 5) by lia.
    replace (f + 2 - 1) with (f + 1) by lia. replace (f + 3 - 1) with (f + 2) by lia. replace (f + 4 - 1) with (f + 3) by lia. replace (f + 5 - 1) with (f + 4) by lia.
    repeat (apply f_equal; try reflexivity).
  - intros r. rewrite <- !app_assoc. rewrite HP. f_equal.
    unfold endl at 1. cbn [app hashes]. change (10 =? 35) with false. change (10 =? 10) with true. cbv iota. change (str "#") with [35]. cbn [app].
    rewrite hash_num; [|lia|reflexivity]. f_equal. rewrite plain_nl by (unfold part1; nh; apply nh_int; assumption).
    rewrite (quiet_bol true false). 2: { destruct rb; [split; [reflexivity|discriminate]|exact QR]. }
    rewrite HR by (split; [reflexivity|discriminate]). rewrite <- SP. unfold vsize at 1. rewrite Nat2Z.id. f_equal.
    rewrite !app_assoc. rewrite <- (app_assoc _ endl). rewrite <- (app_assoc _ (endl ++ part5 f) r). rewrite <- (app_assoc endl). rewrite plain_nl.
    + apply part5_hashes. lia.
    + assert (~ In 35 endl) as NE by (intros [I|[]]; discriminate). unfold part2, part3, part4, sw_bool.
      repeat first [exact NE | exact HW | apply nh_mults; assumption | apply nh_shows; assumption | apply nh_app | match goal with |- ~ In 35 (if ?b then _ else _) => destruct b end | cbn; intuition discriminate].
Qed.

(** The invariant of a file being written. *)
Definition nm (L : list (bool * Z)) : list Z := map snd (filter fst L).
Definition rf (L : list (bool * Z)) : list Z := map snd (filter (fun h => negb (fst h)) L).
Lemma nm_app a b : nm (a ++ b) = nm a ++ nm b. Proof. unfold nm. rewrite filter_app, map_app. reflexivity. Qed.
Lemma rf_app a b : rf (a ++ b) = rf a ++ rf b. Proof. unfold rf. rewrite filter_app, map_app. reflexivity. Qed.
Lemma nm_true l : nm (map (pair true) l) = l. Proof. unfold nm. induction l; cbn; congruence. Qed.
Lemma rf_true l : rf (map (pair true) l) = []. Proof. unfold rf. induction l; cbn; congruence. Qed.
Lemma nm_false l : nm (refsto l) = []. Proof. unfold nm, refsto. induction l; cbn; congruence. Qed.
Lemma rf_false l : rf (refsto l) = l. Proof. unfold rf, refsto. induction l; cbn; congruence. Qed.
Lemma sorted_app (a b : list Z) m : StronglySorted Z.lt a -> StronglySorted Z.lt b -> (forall x, In x a -> x < m) -> (forall x, In x b -> m <= x) -> StronglySorted Z.lt (a ++ b).
Proof.
  induction a as [|x a IH]; intros A B HA HB; [exact B|]. inversion A; subst. cbn [app]. constructor; [apply IH; auto; intros; apply HA; right; assumption|].
  apply Forall_app. split; [assumption|]. apply Forall_forall. intros y Hy. specialize (HA x (or_introl eq_refl)). specialize (HB y Hy). lia.
Qed.
Lemma ids_sorted a (n : nat) : StronglySorted Z.lt (ids a n).
Proof.
  induction n as [|n IH]; [constructor|]. rewrite ids_S. apply (sorted_app _ _ (a + Z.of_nat n)); [exact IH|repeat constructor| |].
  - intros x I. apply ids_In in I. lia.
  - intros x [<-|[]]. lia.
Qed.
Definition fine (w : stepw) : Prop := 20 <= sw_id w /\ exists L, (forall r, hashes true (sw_text w ++ r) = L ++ hashes true r) /\
  StronglySorted Z.lt (nm L) /\ (forall x, In x (nm L) -> x < sw_id w) /\ incl (rf L) (nm L) /\ In 12 (nm L).
Lemma open_fine : fine sw_open.
Proof.
  split; [cbn; lia|]. exists [(true,10);(false,11);(false,12);(true,11);(false,14);(true,12);(true,13);(true,14);(false,13)]. split.
  - intros r. reflexivity.
  - cbn. repeat split; [repeat constructor; lia|intros x I; lia|intros x I; cbn in *; intuition|intuition].
Qed.
Lemma write_fine w n : no_hash -> full n -> fine w -> exists w' b1 b2, sw_write w n = Ok w' /\ fine w' /\ sw_text w' = sw_text w ++ b1 ++ part3 n ++ b2.
Proof.
  intros NH F (H20 & L & HL & SL & BL & RL & I12). destruct (sw_write_ok w n NH F ltac:(lia)) as (pb & rb & wb & E & HB). cbv zeta in E, HB.
  pose proof (vsize_nonneg (ns_points n)) as VP. set (f := sw_id w + vsize (ns_points n)) in *. set (P := ids (sw_id w) (length (ns_points n))) in *.
  eexists _, (pb ++ endl ++ str "#" ++ show_int f ++ part1 n ++ endl ++ rb ++ part2 n), (part4 wb ++ endl ++ part5 f). split; [exact E|]. split; [|cbn [sw_text]; rewrite <- !app_assoc; reflexivity].
  split; [cbn [sw_id]; lia|]. cbn [sw_text sw_id].
  set (M := map (pair true) P ++ (true, f) :: refsto P ++ [(true, f + 1); (false, f); (true, f + 2); (false, f + 1); (true, f + 3); (false, f + 2); (true, f + 4); (false, f + 3); (true, f + 5); (false, 12); (false, f + 4)]).
  assert (nm M = P ++ ids f 6) as EN. { unfold M. rewrite nm_app, nm_true. f_equal. change ((true, f) :: ?x) with ([(true, f)] ++ x). rewrite nm_app, nm_app, nm_false. cbn. rewrite Z.add_0_r. reflexivity. }
  assert (rf M = P ++ [f; f + 1; f + 2; f + 3; 12; f + 4]) as ER. { unfold M. rewrite rf_app, rf_true. change ((true, f) :: ?x) with ([(true, f)] ++ x). rewrite rf_app, rf_app, rf_false. reflexivity. }
  assert (forall x, In x P <-> sw_id w <= x < f) as IP. { intros x. unfold P. rewrite ids_In. unfold f, vsize. reflexivity. }
  exists (L ++ M). repeat split.
  - intros r. rewrite <- (app_assoc (sw_text w)). rewrite HL, HB. rewrite <- (app_assoc L M). f_equal. unfold M. rewrite <- app_assoc. f_equal. cbn [app]. f_equal. rewrite <- app_assoc. reflexivity.
  - rewrite nm_app, EN. apply (sorted_app _ _ (sw_id w)); auto.
    + apply (sorted_app _ _ f); [apply ids_sorted|apply ids_sorted| |]. { intros x I. apply IP in I. lia. } intros x I. apply ids_In in I. lia.
    + intros x I. apply in_app_or in I as [I|I]; [apply IP in I; lia|]. apply ids_In in I. lia.
  - intros x I. rewrite nm_app, EN in I. apply in_app_or in I as [I|I]; [specialize (BL x I); lia|]. apply in_app_or in I as [I|I]; [apply IP in I; lia|]. apply ids_In in I. lia.
  - intros x I. rewrite nm_app, EN. rewrite rf_app, ER in I. apply in_or_app. apply in_app_or in I as [I|I]; [left; apply RL, I|]. apply in_app_or in I as [I|I]; [right; apply in_or_app; left; exact I|].
    assert (x = 12 \/ In x (ids f 6)) as [-> |J]; [|left; exact I12|right; apply in_or_app; right; exact J]. rewrite ids_In. cbn in I. lia.
  - rewrite nm_app. apply in_or_app. left. exact I12.
Qed.
Lemma solid_fine fs : no_hash -> forall w, Forall full fs -> fine w -> exists w' b, sw_solid w fs = Ok w' /\ fine w' /\ sw_text w' = sw_text w ++ b /\ (forall n, In n fs -> exists b1 b2, b = b1 ++ part3 n ++ b2).
Proof.
  intros NH. induction fs as [|n fs IH]; intros w FF FW.
  - exists w, []. split; [reflexivity|]. split; [exact FW|]. split; [rewrite app_nil_r; reflexivity|]. intros n [].
  - inversion FF as [|? ? Fn FF']; subst. destruct (write_fine w n NH Fn FW) as (w1 & b1 & b2 & E1 & F1 & T1). destruct (IH w1 FF' F1) as (w2 & b & E2 & F2 & T2 & O2).
    exists w2, ((b1 ++ part3 n ++ b2) ++ b). cbn [sw_solid]. rewrite E1. cbn [bind]. split; [exact E2|]. split; [exact F2|]. split; [rewrite T2, T1, <- app_assoc; reflexivity|].
    intros n' [<-|I]. { exists b1, (b2 ++ b). rewrite <- !app_assoc. reflexivity. } destruct (O2 n' I) as (c1 & c2 & ->). exists ((b1 ++ part3 n ++ b2) ++ c1), c2. rewrite <- !app_assoc. reflexivity.
Qed.
Lemma all_fine xs : no_hash -> forall w, Forall (Forall full) xs -> fine w -> exists t, sw_all w xs = Ok t /\ well_formed t /\ (exists b, t = sw_text w ++ b /\ forall n, In n (concat xs) -> exists b1 b2, b = b1 ++ part3 n ++ b2).
Proof.
  intros NH. induction xs as [|x xs IH]; intros w FF FW.
  - eexists. split; [reflexivity|]. split; [|exists (str "ENDSEC;" ++ endl ++ str "END-ISO-10303-21;"); split; [reflexivity|intros n []]].
    destruct FW as (_ & L & HL & SL & _ & RL & _). unfold sw_close, well_formed, names, refs. rewrite HL. replace (hashes true (str "ENDSEC;" ++ endl ++ str "END-ISO-10303-21;")) with (@nil (bool * Z)) by reflexivity. rewrite app_nil_r. split; [exact SL|exact RL].
  - inversion FF as [|? ? Fx FF']; subst. destruct (solid_fine x NH w Fx FW) as (w1 & b & E1 & F1 & T1 & O1). destruct (IH w1 FF' F1) as (t & E2 & WF & c & T2 & O2).
    exists t. cbn [sw_all]. rewrite E1. cbn [bind]. split; [exact E2|]. split; [exact WF|]. exists (b ++ c). split; [rewrite T2, T1, <- app_assoc; reflexivity|].
    intros n I. cbn [concat] in I. apply in_app_or in I as [I|I].
    + destruct (O1 n I) as (b1 & b2 & ->). exists b1, (b2 ++ c). rewrite <- !app_assoc. reflexivity.
    + destruct (O2 n I) as (b1 & b2 & ->). exists (b ++ b1), b2. rewrite <- !app_assoc. reflexivity.
Qed.
Lemma step_file_ok (xs : list (list (NurbsSurface T))) : no_hash -> Forall (Forall full) xs -> exists t, step_file xs = Ok t /\ well_formed t.
Proof. intros NH FF. destruct (all_fine xs NH sw_open FF open_fine) as (t & E & W & _). exists t. auto. Qed.

(** Multiplicities. *)
Definition nmults (deg size : Z) : list nat := Z.to_nat (deg + 1) :: repeat 1%nat (Z.to_nat (size - 2 * deg - 2)) ++ [Z.to_nat (deg + 1)].
Lemma nmults_mults deg size : 0 <= deg -> map Z.of_nat (nmults deg size) = mults deg size.
Proof. intros H. unfold nmults, mults. cbn [map]. rewrite map_app, map_repeat. cbn [map]. rewrite Z2Nat.id by lia. reflexivity. Qed.
Lemma sum_ones (n : nat) : list_sum (repeat 1%nat n) = n. Proof. induction n as [|n IH]; [reflexivity|]. cbn in *. f_equal. exact IH. Qed.
Lemma nmults_sum deg (k : list T) : 0 <= deg -> 2 * deg + 2 <= vsize k -> list_sum (nmults deg (vsize k)) = length k.
Proof.
  intros H HS. unfold nmults. change (Z.to_nat (deg + 1) :: ?x) with ([Z.to_nat (deg + 1)] ++ x). rewrite !list_sum_app, sum_ones. cbn [list_sum fold_right]. unfold vsize in *. lia.
Qed.
Lemma nmults_length deg (k : list T) : 0 <= deg -> 2 * deg + 2 <= vsize k -> length (nmults deg (vsize k)) = length (mid deg k).
Proof. intros H HS. unfold nmults, mid. cbn [length]. rewrite app_length, repeat_length, firstn_length, skipn_length. cbn [length]. unfold vsize in *. lia. Qed.
Lemma expand_ones (l : list T) r lr : expand (repeat 1%nat (length l) ++ r) (l ++ lr) = l ++ expand r lr.
Proof. unfold expand. induction l as [|x l IH]; [reflexivity|]. cbn. rewrite <- IH. reflexivity. Qed.
Lemma repeat_eq (l : list T) x : (forall i y, nth_error l i = Some y -> y = x) -> l = repeat x (length l).
Proof. induction l as [|y l IH]; intros H; [reflexivity|]. cbn. rewrite <- (H 0%nat y eq_refl). f_equal. assert (y = x) as <- by (apply (H 0%nat); reflexivity). apply IH. intros i z E. apply (H (S i)). exact E. Qed.
Lemma expand_ok deg (k : list T) : 0 <= deg -> 2 * deg + 2 <= vsize k -> clamped_ends deg k -> expand (nmults deg (vsize k)) (mid deg k) = k.
Proof.
  intros H HS [C1 C2]. set (d := Z.to_nat deg). assert (vsize k = Z.of_nat (length k)) as VK by reflexivity.
  assert (exists a, nth_error k d = Some a) as [a Ea]. { destruct (nth_error k d) eqn:E; [eauto|]. apply nth_error_None in E. lia. }
  set (e := (length k - 1 - d)%nat). assert (exists b, nth_error k e = Some b) as [b Eb]. { destruct (nth_error k e) eqn:E; [eauto|]. apply nth_error_None in E. lia. }
  assert (forall i x, nth_error k i = Some x -> vget k (Z.of_nat i) = Ok x) as VG. { intros i x E. unfold vget. destruct (Z.ltb_spec (Z.of_nat i) 0); [lia|]. rewrite Nat2Z.id, E. reflexivity. }
  assert (forall i x, (i <= d)%nat -> nth_error k i = Some x -> x = a) as A1. { intros i x Hi E. apply VG in E. rewrite C1 in E by lia. apply VG in Ea. replace deg with (Z.of_nat d) in E by lia. rewrite Ea in E. congruence. }
  assert (forall i x, (e <= i)%nat -> nth_error k i = Some x -> x = b) as B1. { intros i x Hi E. assert (i < length k)%nat by (apply nth_error_Some; congruence). apply VG in E. rewrite C2 in E by lia. apply VG in Eb. replace (vsize k - 1 - deg) with (Z.of_nat e) in E by lia. rewrite Eb in E. congruence. }
  assert (k = firstn d k ++ a :: firstn (length k - 2 * d - 2) (skipn (S d) k) ++ b :: skipn (S e) k) as EK.
  { rewrite <- (firstn_skipn d k) at 1. f_equal. assert (forall (l : list T) i x, nth_error l i = Some x -> skipn i l = x :: skipn (S i) l) as SK. { induction l as [|y l IH]; intros [|i] x E; try discriminate. - injection E as ->. reflexivity. - cbn [skipn]. rewrite (IH i x E). reflexivity. }
    rewrite (SK _ _ _ Ea). f_equal. rewrite <- (firstn_skipn (length k - 2 * d - 2) (skipn (S d) k)) at 1. f_equal. rewrite <- (SK _ _ _ Eb).
    assert (forall (l : list T) i j, skipn i (skipn j l) = skipn (i + j) l) as SS. { induction l as [|y l IH]; intros i j; [rewrite !skipn_nil; reflexivity|]. destruct j; [rewrite Nat.add_0_r; reflexivity|]. rewrite Nat.add_succ_r. apply IH. }
    rewrite SS. f_equal. lia. }
  assert (mid deg k = [a] ++ firstn (length k - 2 * d - 2) (skipn (S d) k) ++ [b]) as EM.
  { set (c := firstn (length k - 2 * d - 2) (skipn (S d) k)) in *. assert (length c = length k - 2 * d - 2)%nat as LC. { unfold c. rewrite firstn_length, skipn_length. lia. }
    unfold mid. fold d. replace (Z.to_nat (vsize k - 2 * deg)) with (length k - 2 * d)%nat by lia. rewrite EK at 2. rewrite skipn_app. assert (length (firstn d k) = d) as LF by (rewrite firstn_length; lia). rewrite skipn_all2 by lia. rewrite LF, Nat.sub_diag. cbn [skipn app].
    replace (length k - 2 * d)%nat with (S (length c + 1)) by lia. cbn [firstn]. f_equal. rewrite firstn_app. rewrite firstn_all2 by lia. f_equal. replace (length c + 1 - length c)%nat with 1%nat by lia. reflexivity. }
  set (c := firstn (length k - 2 * d - 2) (skipn (S d) k)) in *. assert (length c = length k - 2 * d - 2)%nat as LC. { unfold c. rewrite firstn_length, skipn_length. lia. }
  rewrite EM. unfold nmults. replace (Z.to_nat (vsize k - 2 * deg - 2)) with (length c) by lia. replace (Z.to_nat (deg + 1)) with (S d) by lia.
  change (expand (S d :: ?x) ([a] ++ ?y)) with (repeat a (S d) ++ expand x y). rewrite expand_ones. unfold expand. cbn [combine map concat fst snd]. rewrite app_nil_r.
  rewrite EK at 1. assert (firstn d k = repeat a d) as ->. { rewrite (repeat_eq (firstn d k) a). - rewrite firstn_length. f_equal. lia. - intros i y E. assert (i < d)%nat. { assert (i < length (firstn d k))%nat by (apply nth_error_Some; congruence). rewrite firstn_length in *. lia. } apply (A1 i); [lia|]. rewrite <- E. clear - H0. revert k H0. generalize d. induction i as [|i IH]; intros [|n] [|y k] Hi; try lia; try reflexivity. cbn. apply IH. lia. }
  assert (skipn (S e) k = repeat b d) as ->. { rewrite (repeat_eq (skipn (S e) k) b). - rewrite skipn_length. f_equal. lia. - intros i y E. rewrite nth_error_skipn in E. apply (B1 (S e + i)%nat); [lia|exact E]. }
  change (repeat b (S d)) with (b :: repeat b d). change (a :: c ++ b :: repeat b d) with ([a] ++ (c ++ b :: repeat b d)). rewrite (app_assoc (repeat a d) [a]). f_equal. change (repeat a (S d)) with (a :: repeat a d). apply repeat_cons.
Qed.

(** In the file, for each surface: multiplicities and knots in both directions. *)
Lemma step_file_mults (xs : list (list (NurbsSurface T))) n : no_hash -> Forall (Forall full) xs -> In n (concat xs) ->
  exists t pre post mu mv ku kv, step_file xs = Ok t /\ t = pre ++ mult_text mu mv ku kv ++ post /\
    list_sum mu = length (ns_knotsU n) /\ list_sum mv = length (ns_knotsV n) /\ length mu = length ku /\ length mv = length kv /\
    (clamped_ends (ns_degU n) (ns_knotsU n) -> expand mu ku = ns_knotsU n) /\ (clamped_ends (ns_degV n) (ns_knotsV n) -> expand mv kv = ns_knotsV n).
Proof.
  intros NH FF I. destruct (all_fine xs NH sw_open FF open_fine) as (t & E & _ & b & Et & O). destruct (O n I) as (b1 & b2 & ->).
  assert (full n) as (DU & DV & _ & _ & _ & _ & KU & KV). { apply in_concat in I as (x & Ix & In_). rewrite Forall_forall in FF. specialize (FF x Ix). rewrite Forall_forall in FF. apply FF, In_. }
  exists t, (sw_text sw_open ++ b1), b2, (nmults (ns_degU n) (vsize (ns_knotsU n))), (nmults (ns_degV n) (vsize (ns_knotsV n))), (mid (ns_degU n) (ns_knotsU n)), (mid (ns_degV n) (ns_knotsV n)).
  split; [exact E|]. split. { rewrite Et, <- app_assoc. f_equal. f_equal. unfold mult_text, part3. rewrite <- !(nmults_mults) by assumption. rewrite !map_map. reflexivity. }
  rewrite !nmults_sum, !nmults_length by assumption. repeat split; apply expand_ok; assumption.
Qed.

(** The loop that writes multiplicities counts up to an unsigned number. *)
Lemma step_few_knots w n : 0 <= ns_nbU n -> 0 <= ns_nbV n -> no_hash -> 0 <= sw_id w -> vsize (ns_knotsU n) < 2 * ns_degU n + 2 -> sw_write w n = Err FDiverge.
Proof.
  intros NU NV NH H0 K. destruct (points_ok NH (ns_points n) w H0) as (pb & EP & _). unfold sw_write. rewrite EP. cbn [sw_text sw_id].
  match goal with |- context [sw_rows ?a ?b ?c ?d] => destruct (rows_ok a b c d NU NV H0) as (rb & ER & _) end. rewrite ER. cbn [bind]. unfold sw_mults at 1. destruct (Z.ltb_spec (vsize (ns_knotsU n) - ns_degU n * 2 - 2) 0); [reflexivity|lia].
Qed.
End Step.
