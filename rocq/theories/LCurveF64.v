(** Curves of doubles: span search, evaluation, polyline. *)
From Coq Require Import ZArith List Bool Reals Lra Lia.
From Flocq Require Import Core IEEE754.Binary IEEE754.Bits IEEE754.BinarySingleNaN.
From Verif Require Import Base Num MGeometry MNurbs MStl MF64 SGeom SNurbs SF64 LBase LGeom LNurbs LF64 LF64Ord LF64Arith LBoxF64 LKnotF64 LEvalT LNurbsEx.
Import ListNotations.
Open Scope Z_scope.

Definition exts (ks : list f64) : list R := map ext ks.
Lemma leb_ext x y : no_nan x -> no_nan y -> f64_leb x y = Rleb (ext x) (ext y).
Proof.
  intros Hx Hy. unfold no_nan in *. unfold Rleb. destruct (Rle_dec (ext x) (ext y)) as [L|L].
  - apply leb64. auto.
  - destruct (f64_leb x y) eqn:E; [|reflexivity]. apply leb64 in E. lra.
Qed.
Lemma ext_ofZ z : Z.abs z <= 2 ^ 53 -> ext (f64_ofZ z) = IZR z /\ no_nan (f64_ofZ z).
Proof. intros H. destruct (ofZ_exact z H) as [A B]. split; [rewrite ext_fin by exact B; exact A|apply fin_no_nan, B]. Qed.
Lemma ext_0 : ext n0 = 0%R /\ no_nan n0. Proof. apply (ext_ofZ 0). vm_compute. discriminate. Qed.
Lemma ext_1 : ext n1 = 1%R /\ no_nan n1. Proof. apply (ext_ofZ 1). vm_compute. discriminate. Qed.

Lemma find_loop_ext ks t : Forall no_nan ks -> no_nan t -> forall n i, 0 <= i -> i + Z.of_nat n < vsize ks ->
  find_span_loop ks t n i = find_span_loop (exts ks) (ext t) n i.
Proof.
  intros Hk Ht. induction n as [|n IH]; intros i Hi Hn; [reflexivity|]. cbn [find_span_loop].
  destruct (vget_in_range ks i ltac:(lia)) as [a Ea]. destruct (vget_in_range ks (i + 1) ltac:(lia)) as [b Eb].
  unfold exts. rewrite !vget_map, Ea, Eb. cbn [bind]. rewrite Forall_forall in Hk. pose proof (Hk _ (vget_In _ _ _ Ea)) as Na. pose proof (Hk _ (vget_In _ _ _ Eb)) as Nb.
  destruct ext_1 as [E1 N1]. cbn [nltb nleb F64Num RNum]. rewrite !ltb_ext, !leb_ext by assumption. change (@n1 f64 F64Num) with (n1 : f64) in *. rewrite E1. change (@n1 R RNum) with 1%R.
  destruct (if Rltb (ext t) 1 then _ else _); [reflexivity|]. apply IH; lia.
Qed.
Lemma find_span_ext ks t : Forall no_nan ks -> no_nan t -> find_knot_span ks t = find_knot_span (exts ks) (ext t).
Proof.
  intros Hk Ht. unfold find_knot_span, exts. rewrite vsize_map. destruct (Z.ltb_spec (vsize ks) 2) as [L|L]; [reflexivity|]. cbv zeta.
  destruct ext_0 as [E0 N0]. destruct ext_1 as [E1 N1]. cbn [nltb F64Num RNum]. rewrite (ltb_ext t n0) by assumption. rewrite E0. change (@n0 R RNum) with 0%R. change (@n1 R RNum) with 1%R.
  set (t1 := if Rltb (ext t) 0 then n0 else t). assert (no_nan t1 /\ ext t1 = if Rltb (ext t) 0 then 0%R else ext t) as [N2 E2] by (subst t1; destruct (Rltb (ext t) 0); auto).
  rewrite <- E2. rewrite (ltb_ext n1 t1) by assumption. rewrite E1.
  set (t2 := if Rltb 1 (ext t1) then n1 else t1). assert (no_nan t2 /\ ext t2 = if Rltb 1 (ext t1) then 1%R else ext t1) as [N3 E3] by (subst t2; destruct (Rltb 1 (ext t1)); auto).
  rewrite <- E3. apply find_loop_ext; [assumption|assumption|lia|lia].
Qed.
Lemma ltb_nan_l x y : nan64 x = true -> f64_ltb x y = false.
Proof. intros H. destruct (f64_ltb x y) eqn:E; [|reflexivity]. apply ltb64 in E. destruct E. congruence. Qed.
Lemma ltb_nan_r x y : nan64 y = true -> f64_ltb x y = false.
Proof. intros H. destruct (f64_ltb x y) eqn:E; [|reflexivity]. apply ltb64 in E. destruct E as (_ & E & _). congruence. Qed.
Lemma leb_nan_r x y : nan64 y = true -> f64_leb x y = false.
Proof. intros H. destruct (f64_leb x y) eqn:E; [|reflexivity]. apply leb64 in E. destruct E as (_ & E & _). congruence. Qed.
Lemma leb_nan_l x y : nan64 x = true -> f64_leb x y = false.
Proof. intros H. destruct (f64_leb x y) eqn:E; [|reflexivity]. apply leb64 in E. destruct E as (E & _). congruence. Qed.
Lemma find_span_nan (ks : list f64) t : nan64 t = true -> 2 <= vsize ks -> find_knot_span ks t = Ok (-1).
Proof.
  intros Ht H. unfold find_knot_span. destruct (Z.ltb_spec (vsize ks) 2); [lia|]. cbv zeta. cbn [nltb F64Num].
  rewrite (ltb_nan_l t) by exact Ht. rewrite (ltb_nan_r _ t) by exact Ht.
  assert (forall n i, 0 <= i -> i + Z.of_nat n < vsize ks -> find_span_loop ks t n i = Ok (-1)) as K; [|apply K; lia].
  induction n as [|n IH]; intros i Hi Hn; [reflexivity|]. cbn [find_span_loop].
  destruct (vget_in_range ks i ltac:(lia)) as [a Ea]. destruct (vget_in_range ks (i + 1) ltac:(lia)) as [b Eb]. rewrite Ea, Eb. cbn [bind nltb nleb F64Num].
  rewrite (ltb_nan_l t n1) by exact Ht. rewrite (ltb_nan_r a t) by exact Ht. cbn [andb]. apply IH; lia.
Qed.

(** C43 for doubles. *)
Lemma exts_vals ks : Forall (fun k : f64 => fin64 k = true) ks -> exts ks = dvals ks.
Proof. intros H. unfold exts, dvals. apply map_ext_in. intros k Hk. rewrite Forall_forall in H. apply ext_fin, H, Hk. Qed.
Lemma fin_all ks : Forall (fun k : f64 => fin64 k = true) ks -> Forall no_nan ks.
Proof. intros H. eapply Forall_impl; [|exact H]. intros k Hk. apply fin_no_nan, Hk. Qed.
Lemma find_span_vals ks t : Forall (fun k : f64 => fin64 k = true) ks -> no_nan t -> find_knot_span ks t = find_knot_span (dvals ks) (ext t).
Proof. intros H Ht. rewrite find_span_ext by (try apply fin_all; assumption). rewrite exts_vals by exact H. reflexivity. Qed.
Lemma find_span_double ks t : Forall (fun k : f64 => fin64 k = true) ks -> sorted (dvals ks) -> 2 <= vsize ks ->
  kn (dvals ks) 0 = 0%R -> kn (dvals ks) (vsize ks - 1) = 1%R -> no_nan t ->
  exists i, find_knot_span ks t = Ok i /\ 0 <= i < vsize ks - 1 /\ (kn (dvals ks) i < kn (dvals ks) (i + 1))%R /\
    (fin64 t = true -> (0 <= V64 t <= 1)%R -> (kn (dvals ks) i <= V64 t <= kn (dvals ks) (i + 1))%R) /\
    (f64_ltb t (f64_ofZ 0) = true -> forall j, 0 <= j < i -> kn (dvals ks) j = kn (dvals ks) (j + 1)) /\
    (f64_ltb (f64_ofZ 1) t = true -> forall j, i < j < vsize ks - 1 -> kn (dvals ks) j = kn (dvals ks) (j + 1)).
Proof.
  intros Hf Hs Hn H0 H1 Ht. destruct (find_span_full (dvals ks) (ext t) Hs) as (i & E & R & G & In & Lo & Hi); rewrite ?vals_size in *; [exact Hn|exact H0|exact H1|].
  exists i. rewrite find_span_vals by assumption. split; [exact E|]. split; [exact R|]. split; [exact G|]. split; [intros F; rewrite (ext_fin _ F) in In; exact In|].
  destruct ext_0 as [E0 N0]. destruct ext_1 as [E1 N1]. change (n0 : f64) with (f64_ofZ 0) in *. change (n1 : f64) with (f64_ofZ 1) in *.
  split; intros L; apply ltb64 in L; destruct L as (_ & _ & L); [apply Lo; rewrite E0 in L; exact L|apply Hi; rewrite E1 in L; exact L].
Qed.

(** C45 for doubles. *)
Lemma div64_total (x y : f64) : exists q : f64, ndiv x y = Ok q. Proof. cbn. eauto. Qed.
Lemma dvalid_ready c : dvalid c -> ready c.
Proof. intros (A & B & C & (D1 & D2 & D3) & E & F). rewrite vals_size in D2. unfold ready. lia. Qed.
Lemma ready_dvalid c d : dvalid c -> dsame c d -> ready d -> dvalid d.
Proof.
  intros (A & B & C & D & E & F) (S1 & S2 & S3 & S4 & S5) (R1 & R2 & R3 & R4 & R5 & R6). unfold dvalid. cbv zeta. rewrite S1, S2, S3, S4, S5 in *. repeat (split; [assumption|]). lia.
Qed.
Lemma dvalid_span c (t : f64) : dvalid c -> no_nan t -> exists ki, find_knot_span (nc_knots c) t = Ok ki /\ nc_degree c <= ki < vsize (nc_points c).
Proof.
  intros (A & B & C & D & E & F) Ht. destruct (clamped_sorted _ _ _ D) as (S & _ & K0 & K1). destruct D as (D1 & D2 & D3 & D4 & D5).
  destruct (find_span_double (nc_knots c) t C S) as (i & E1 & R & G & _); rewrite ?vals_size in *; [lia|exact K0|exact K1|exact Ht|].
  exists i. split; [exact E1|]. destruct (Z_lt_dec i (nc_degree c)) as [L|L]; [rewrite !D4 in G by lia; lra|].
  destruct (Z_le_dec (vsize (nc_points c)) i) as [L2|L2]; [rewrite !D5 in G by lia; lra|lia].
Qed.
Lemma evaluate_double c c' (t : f64) : dvalid c -> dvalid c' -> dsame c c' -> no_nan t ->
  exists p d d', nc_evaluate c t = Ok (p, d) /\ nc_evaluate c' t = Ok (p, d') /\ dsame c d /\ dvalid d.
Proof.
  intros V V' S Ht. destruct (dvalid_span c t V Ht) as (ki & F & B).
  destruct (evaluate_total div64_total c c' t ki (dvalid_ready _ V) (dvalid_ready _ V') S F B) as (p & d & d' & E1 & E2 & Sd & R).
  exists p, d, d'. split; [exact E1|]. split; [exact E2|]. split; [exact Sd|]. exact (ready_dvalid c d V Sd R).
Qed.
Lemma evaluate_double_nan c (t : f64) : dvalid c -> nan64 t = true -> nc_evaluate c t = Err FAssert.
Proof.
  intros V Ht. destruct (dvalid_ready _ V) as (R1 & R2 & R3 & R4 & R5 & R6). unfold nc_evaluate. rewrite !bind_massert_true by (apply Z.eqb_eq; lia).
  rewrite find_span_nan by (assumption || lia). cbn [bind]. unfold nc_load. rewrite for_step by lia. cbv zeta.
  replace (0 <=? 0 + -1 - nc_degree c) with false by (symmetry; apply Z.leb_gt; lia). reflexivity.
Qed.

(** The parameters the polyline loop goes through. *)
Fixpoint acc (d : f64) (k : nat) : f64 := match k with O => f64_ofZ 0 | S k' => b64_plus mode_NE (acc d k') d end.
Lemma poly_loop (c : NurbsCurve f64) (d : f64) m : dvalid c -> (forall j, (j < m)%nat -> f64_leb (acc d j) (f64_ofZ 1) = true) -> f64_leb (acc d m) (f64_ofZ 1) = false ->
  forall k fuel poly c', (k <= m)%nat -> (m - k < fuel)%nat -> dvalid c' -> dsame c c' ->
  exists l c'', while_ fuel (fun s : f64 * list (Point3 f64) * NurbsCurve f64 => let '(t, _, _) := s in Ok (nleb t n1))
      (fun s => let '(t, poly, c) := s in do e <- nc_evaluate c t; Ok (nadd t d, vpush poly (fst e), snd e)) (acc d k, poly, c') = Ok (acc d m, poly ++ l, c'') /\
    dvalid c'' /\ dsame c c'' /\ length l = (m - k)%nat /\
    (forall i, (i < m - k)%nat -> exists p e, nth_error l i = Some p /\ nc_evaluate c (acc d (k + i)) = Ok (p, e)).
Proof.
  intros V Hm Hz. induction k as [k IH] using (well_founded_induction (Wf_nat.well_founded_ltof _ (fun k => (m - k)%nat))). intros fuel poly c' Hk Hf V' S. destruct fuel as [|fuel]; [lia|].
  cbn [while_]. change (@nleb f64 F64Num (acc d k) n1) with (f64_leb (acc d k) (f64_ofZ 1)). cbn [bind].
  destruct (Nat.eq_dec k m) as [->|N].
  - rewrite Hz. exists [], c'. rewrite app_nil_r. split; [reflexivity|]. split; [exact V'|]. split; [exact S|]. split; [cbn; lia|]. intros i Hi. lia.
  - pose proof (Hm k ltac:(lia)) as Hl. rewrite Hl. apply leb64 in Hl. destruct Hl as (Nt & _ & _).
    destruct (evaluate_double c c' (acc d k) V V' S Nt) as (p & e & e' & E1 & E2 & Se & Ve). rewrite E2. cbn [bind fst snd].
    destruct (evaluate_double c' c' (acc d k) V' V' (same_curve_refl _) Nt) as (p2 & e2 & e3 & E3 & _ & Se2 & Ve2). rewrite E2 in E3. assert (e' = e2) as <- by congruence.
    destruct (IH (Datatypes.S k) ltac:(unfold Wf_nat.ltof; lia) fuel (vpush poly p) e') as (l & c'' & W & V'' & S'' & Ln & Nt'); [lia|lia|exact Ve2|exact (same_curve_trans _ _ _ S Se2)|].
    exists (p :: l), c''. split; [|split; [exact V''|split; [exact S''|split; [cbn [length]; lia|]]]].
    + change (acc d (Datatypes.S k)) with (b64_plus mode_NE (acc d k) d) in W. unfold vpush in W. rewrite <- app_assoc in W. exact W.
    + intros [|i] Hi; [exists p, e; split; [reflexivity|rewrite Nat.add_0_r; exact E1]|]. destruct (Nt' i ltac:(lia)) as (q & e4 & Q1 & Q2). exists q, e4. split; [exact Q1|]. rewrite <- Q2. f_equal. f_equal. lia.
Qed.
