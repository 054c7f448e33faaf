(** Doubles that are not kept by files. *)
From Coq Require Import String Ascii ZArith List Bool Reals Lra Lia.
From Flocq Require Import Core IEEE754.Binary IEEE754.Bits IEEE754.BinarySingleNaN.
From Verif Require Import Base Num MGeometry MText MNurbsSurface MStep MF64 MFormat SObj SStep SFormat LF64 LText LStep2 LFormat LFormat2 LFormat3 LFormat5.
Import ListNotations.
Open Scope Z_scope.

Theorem rounded_close (x q : f64) : rounded_to x q -> (Rabs (V64 q - V64 x) <= 6 / 1000000 * Rabs (V64 x) + bpow radix2 (-1075))%R.
Proof.
  intros (_ & -> & _). set (v := V64 x). pose proof (sd_error v) as A. pose proof (td_error (six_digits v)) as B. set (w := six_digits v) in *.
  assert (Rabs w <= 2 * Rabs v)%R as C. { replace w with ((w - v) + v)%R by ring. eapply Rle_trans; [apply Rabs_triang|]. pose proof (Rabs_pos v). lra. }
  replace (to_double w - v)%R with ((to_double w - w) + (w - v))%R by ring. eapply Rle_trans; [apply Rabs_triang|]. pose proof (Rabs_pos v). lra.
Qed.
Theorem rounded_order (x y q r : f64) : rounded_to x q -> rounded_to y r -> (V64 x <= V64 y)%R -> (V64 q <= V64 r)%R.
Proof. intros (_ & -> & _) (_ & -> & _) L. apply td_le, sd_le, L. Qed.
Theorem decimal_kept (x : f64) t : finite64 x -> six_digit t -> (t = 0 \/ bpow radix2 (-1022) <= Rabs t)%R -> V64 x = to_double t -> rounded_to x x.
Proof. intros F S N E. apply reads_iff; [exact F|]. eapply reads_decimal; eassumption. Qed.

Lemma scanned (x q : f64) : finite64 x -> fst (fst (f64_scan (f64_show x))) = q -> rounded_to x q.
Proof.
  intros F E. destruct (reads_finite x F) as (r & R & Q). assert (r = q) as <-; [|exact Q]. destruct R as [_ R]. specialize (R [] I). rewrite app_nil_r in R. cbn [f_scan f_show F64Text] in R. rewrite R in E. exact E.
Qed.
Theorem text_lost : exists x q : f64, finite64 x /\ rounded_to x q /\ f_show x = str "1e-318" /\ f_show q = str "9.99999e-319".
Proof.
  set (x := Binary.B754_finite 53 1024 false 202403 (-1074) eq_refl : f64). exists x, (fst (fst (f64_scan (f64_show x)))). split; [reflexivity|]. split; [apply scanned; reflexivity|]. split; vm_compute; reflexivity.
Qed.
Theorem merged : exists x y q : f64, finite64 x /\ finite64 y /\ (V64 x < V64 y)%R /\ rounded_to x q /\ rounded_to y q.
Proof.
  set (x := Binary.B754_finite 53 1024 false 4503599627370496 (-52) eq_refl : f64). set (y := Binary.B754_finite 53 1024 false 4503599627370497 (-52) eq_refl : f64).
  assert (f64_show y = f64_show x) as E by (vm_compute; reflexivity).
  exists x, y, (fst (fst (f64_scan (f64_show x)))). split; [reflexivity|]. split; [reflexivity|]. split.
  - unfold x, y. cbn [Binary.B2R]. apply F2R_lt. reflexivity.
  - split; [apply scanned; reflexivity|apply scanned; [reflexivity|rewrite E; reflexivity]].
Qed.
Lemma not_tiny_intro s m e H : -1021 <= e -> not_tiny (Binary.B754_finite 53 1024 s m e H).
Proof.
  intros L. right. rewrite B2R_split. assert (0 <= V (Zpos m) e)%R as P by (apply F2R_ge_0; cbn; lia). rewrite sg_abs by exact P. apply Rle_trans with (bpow radix2 e); [apply bpow_le; exact L|].
  unfold F2R. cbn [Fnum Fexp]. pose proof (bpow_gt_0 radix2 e). assert (1 <= IZR (Zpos m))%R by (apply IZR_le; lia). nra.
Qed.
Theorem step_doubles (xs : list (list (NurbsSurface f64))) : Forall (Forall full) xs -> exists t, step_file xs = Ok t /\ well_formed t.
Proof. apply step_file_ok, show_no_hash. Qed.
